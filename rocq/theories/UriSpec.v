(** Which SIP URI values the round trip speaks about, and what may follow a URI. *)
From Verif Require Import Base Charset CharsetSpec StrSpec Monad Host HostSpec Uri.

Definition present {A} (tbl : list (option A)) : list A := flat_map (fun o => match o with Some x => [x] | None => [] end) tbl.
(** A parameter: a non-empty name and, if there is a value, a non-empty value; any bytes (they are escaped). *)
Definition wfParam (p : uparam) : Prop :=
  upName p <> [] /\ allBytes (upName p) /\ match upValue p with Some v => v <> [] /\ allBytes v | None => True end.
(** A URI header: a non-empty name and a value (possibly empty). *)
Definition wfUHeader (h : uparam) : Prop :=
  upName h <> [] /\ allBytes (upName h) /\ exists v, upValue h = Some v /\ allBytes v.
(** The parameters recognised by name sit in the table (under the table's spelling) if recognition is on, and nowhere if it is off. *)
Definition wfKnown {A} (on : bool) (names : list bytes) (name : A -> bytes) (wf : A -> Prop) (t : known A) (ps : list A) : Prop :=
  (on = true -> forall p n, In p ps -> In n names -> ~ sameNoCase (name p) n) /\
  match t with
  | None => True
  | Some tbl => on = true /\ present tbl <> [] /\
                Forall2 (fun n o => match o with Some p => name p = n /\ wf p | None => True end) names tbl
  end.
(** The URI parameters of RFC 3261 19.1.1, in the order of the constants of the library for them (SIP_URI_KNOWN_PARAM_...). *)
Definition uriParamNames : list bytes := [s2b "user"; s2b "transport"; s2b "lr"; s2b "method"; s2b "maddr"; s2b "ttl"].
Definition wfSipUri (e : env) (u : sipuri) : Prop :=
  match uUser u with Some n => n <> [] /\ allBytes n | None => uPass u = None end /\
  match uPass u with Some p => allBytes p | None => True end /\
  wfHostPort e (uHost u) /\
  wfKnown (fSipUriKnown e) uriParamNames upName wfParam (uKnown u) (uParams u) /\
  Forall wfParam (uParams u) /\ Forall wfUHeader (uHeaders u).

(** What may follow: the end, or a byte that cannot continue a URI. *)
Definition uriEnds (k : bytes) : Prop :=
  match k with [] => True | x :: _ => rfcPname x = false /\ rfcHname x = false /\ oneOf "%:;?=&" x = false end.
(** No "@" before the next ">" or white space (otherwise a URI without user part is read as one with a user part). *)
Definition noAt (k : bytes) : Prop := exists a b, k = a ++ b /\
  Forall (fun x => x <> 64 /\ x <> 62 /\ rfcLWSchar x = false) a /\
  (b = [] \/ exists x t, b = x :: t /\ (x = 62 \/ rfcLWSchar x = true)).
(** At the end of the input an empty value of the last header is not seen. *)
Definition lastHeaderSeen (u : sipuri) (k : bytes) : Prop :=
  k = [] -> forall hs h, uHeaders u = hs ++ [h] -> upValue h <> Some [].
Definition uriFollow (u : sipuri) (k : bytes) : Prop :=
  uriEnds k /\ (uUser u = None -> noAt k) /\ lastHeaderSeen u k.
