(** Which start lines the round trip speaks about. *)
From Verif Require Import Base Charset CharsetSpec StrSpec Monad MethodTree NameSpec Host HostSpec Uri UriSpec Tel GenParam GenParamSpec Addr AddrSpec StartLine.

(** A registered method by its index, or any other token. *)
Definition wfMethod (m : method) : Prop :=
  match m with
  | MKnown i => exists name, In (name, i) methodNames
  | MOther t => wfToken t /\ forall i, ~ In (t, i) methodNames
  end.
(** The text after "SIP/" of a version other than 2.0. *)
Definition wfVersion (v : version) : Prop :=
  match v with
  | V20 => True
  | VOther t => t <> s2b "2.0" /\ exists a b, t = a ++ 46 :: b /\ a <> [] /\ b <> [] /\ forallb rfcDIGIT a = true /\ forallb rfcDIGIT b = true
  end.
(** A request to a SIP URI, or a response with a 16-bit code and any reason phrase (if
    EncodeReasonPhraseNoEscape is set, one that needs no escaping; HTAB does, because the character class lacks it: C01). *)
Definition wfStartLine (e : env) (l : startline) : Prop :=
  match l with
  | SRequest m a v => wfMethod m /\ wfVersion v /\ exists x, a = mkaddr false None (ASip x) /\ wfSipUri e x
  | SStatus v c t => wfVersion v /\ c < 65536 /\ allBytes t /\ (eReasonNoEscape e = true -> forallb (fun b => rfcReason b && negb (b =? 9)) t = true)
  end.
