(** Which telephone URIs the round trip speaks about. *)
From Verif Require Import Base Charset CharsetSpec StrSpec Monad Host HostSpec Uri UriSpec Tel.

(** A number without visual separators: "+" and digits, or hexadecimal digits. *)
Definition wfTelNumber (global : bool) (n : bytes) : Prop :=
  if global then exists ds, n = 43 :: ds /\ ds <> [] /\ forallb rfcDIGIT ds = true else n <> [] /\ forallb rfcHEXDIG n = true.
(** A context: a domain (not starting with "+"), or a "+" number prefix without visual separators; only for local numbers. *)
Definition wfTelContext (t : teluri) : Prop :=
  match tContext t with
  | None => tDomain t = false
  | Some p => tGlobal t = false /\ upName p = s2b "phone-context" /\ exists x v, upValue p = Some (x :: v) /\ allBytes (x :: v) /\
      ((x <> 43 /\ tDomain t = true) \/ (x = 43 /\ tDomain t = false /\ forallb (fun b => negb (rfcVisualSep b)) v = true))
  end.
(** The parameters of RFC 3966 that are recognised by name, apart from the context. *)
Definition telParamNames : list bytes := [s2b "isub"; s2b "ext"].
Definition wfTelUri (e : env) (t : teluri) : Prop :=
  wfTelNumber (tGlobal t) (tNumber t) /\ wfTelContext t /\
  wfKnown (fTelUriKnown e) telParamNames upName wfParam (tKnown t) (tParams t) /\ Forall wfParam (tParams t) /\
  Forall (fun p => ~ sameNoCase (upName p) (s2b "phone-context")) (tParams t).
(** What may follow: the end, or a byte that cannot continue a parameter. *)
Definition telEnds (k : bytes) : Prop :=
  match k with [] => True | x :: _ => rfcPname x = false /\ oneOf "%;=" x = false end.

(** ** The texts on which the parser crashes. *)
(** The text of one parameter: a name, or name "=" value, both with escapes and not empty. *)
Inductive ParamText : bytes -> Prop :=
| PT_bare run n : Decodes (inset SIP_PNAME) run n -> n <> [] -> ParamText run
| PT_value run n vrun v : Decodes (inset SIP_PNAME) run n -> n <> [] -> Decodes (inset SIP_PVALUE) vrun v -> v <> [] -> ParamText (run ++ 61 :: vrun).
(** Parameters separated by ";" that lead to a complete name "phone-context" (in any letter case, escapes decoded) with no "=" behind it. *)
Inductive BareContextParams : bytes -> Prop :=
| BC_here run n k : Decodes (inset SIP_PNAME) run n -> sameNoCase n (s2b "phone-context") -> endsRun (inset SIP_PNAME) k -> (forall t, k <> 61 :: t) -> BareContextParams (run ++ k)
| BC_later p q : ParamText p -> BareContextParams q -> BareContextParams (p ++ 59 :: q).
(** A telephone number as written: "+" and digits, or hexadecimal digits, with visual separators. *)
Definition NumberText (run : bytes) : Prop :=
  (exists ds, run = 43 :: ds /\ forallb (fun b => rfcDIGIT b || rfcVisualSep b)%bool ds = true /\ existsb rfcDIGIT ds = true) \/
  (forallb (fun b => rfcHEXDIG b || rfcVisualSep b)%bool run = true /\ existsb rfcHEXDIG run = true).
(** "tel:" in any letter case; the fourth byte may also be 0x1a. *)
Definition TelScheme (h : bytes) : Prop := exists a b c d, h = [a; b; c; d] /\ sameNoCase [a; b; c] (s2b "tel") /\ (d = 58 \/ d = 26).
Definition TelCrash (r : bytes) : Prop := exists h run q, r = h ++ run ++ 59 :: q /\ TelScheme h /\ NumberText run /\ BareContextParams q.
