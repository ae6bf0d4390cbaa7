(** Which addresses the round trip speaks about, and what may follow them. *)
From Verif Require Import Base Charset CharsetSpec BaseLemmas LwsSpec StrSpec Monad Host HostSpec Uri UriSpec Tel TelSpec GenParam GenParamSpec Addr.

(** An unquoted display name: tokens, each followed by white space (possibly folded); after the last one it is optional. *)
Inductive TokenSeq : bytes -> Prop :=
| TokOne t : wfToken t -> TokenSeq t
| TokLast t w : wfToken t -> LWS w -> TokenSeq (t ++ w)
| TokMore t w b : wfToken t -> LWS w -> TokenSeq b -> TokenSeq (t ++ w ++ b).
Definition wfDisplay (n : option (bool * bytes)) : Prop :=
  match n with None => True | Some (true, q) => quotable q | Some (false, t) => TokenSeq t end.
Definition wfAUri (e : env) (u : auri) : Prop := match u with ASip x => wfSipUri e x | ATel t => wfTelUri e t end.
(** Without parameters and headers. *)
Definition bareUri (u : auri) : Prop :=
  match u with
  | ASip x => uKnown x = None /\ uParams x = [] /\ uHeaders x = []
  | ATel t => tContext t = None /\ tKnown t = None /\ tParams t = []
  end.
Definition wfAddr (e : env) (a : addr) : Prop := wfDisplay (aName a) /\ wfAUri e (aUri a) /\ (aAngle a = false -> aName a = None).
(** After ">": nothing that separating white space could swallow. *)
Definition noSws (k : bytes) : Prop := lineEnds k \/ exists x t, k = x :: t /\ rfcLWSchar x = false.
(** After a bare URI without parameters. *)
Definition bareEnds (u : auri) (k : bytes) : Prop :=
  match u with
  | ASip x => hostEnds k /\ (uUser x = None -> noAt k)
  | ATel _ => stops (fun b => rfcHEXDIG b || rfcVisualSep b) k = true
  end.
Definition specEnds (u : auri) (k : bytes) : Prop := match u with ASip x => uriFollow x k | ATel _ => telEnds k end.
(** What may follow an address in the form it is written. *)
Definition addrFollow (e : env) (ps : bool) (a : addr) (k : bytes) : Prop :=
  if aAngle a || eNameSpace e then noSws k else if ps then specEnds (aUri a) k else bareUri (aUri a) /\ bareEnds (aUri a) k.
