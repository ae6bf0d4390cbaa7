(** Which parameters the round trip speaks about, and what may follow them. *)
From Verif Require Import Base Charset CharsetSpec LwsSpec StrSpec Monad GenParam UriSpec.

Definition wfToken (b : bytes) : Prop := b <> [] /\ forallb rfcToken b = true.
(** qdtext without white space; of the non-ASCII bytes only the UTF-8 lead bytes (the others are rejected, C01). *)
Definition qdChar (x : N) : bool := (x =? 33) || rng 35 91 x || rng 93 126 x || rfcUTF8lead x.
(** The inside of a quoted string: qdtext, quoted pairs and blanks, no line folding. *)
Definition quotable (b : bytes) : Prop := QuotedBody qdChar rfcWSP b.
Definition wfGenValue (v : gvalue) : Prop :=
  match v with
  | GToken t => wfToken t
  | GQuoted t => quotable t
  | GBracket t => exists x, t = 91 :: x ++ [93] /\ ~ In 93 x
  end.
Definition wfGenParam (p : gparam) : Prop := wfToken (gpName p) /\ match gpValue p with Some v => wfGenValue v | None => True end.
(** The end of a header line: CRLF not followed by white space, or the end of the input. *)
Definition lineEnds (k : bytes) : Prop := k = [] \/ exists t, k = 13 :: 10 :: t /\ ~ startsWsp t.
(** What may follow a parameter list: a line end, or a byte that cannot continue it. *)
Definition gpEnds (sep : N) (k : bytes) : Prop :=
  lineEnds k \/ exists x t, k = x :: t /\ rfcToken x = false /\ rfcLWSchar x = false /\ x <> 61 /\ x <> sep.
Definition wfGenParams (on : bool) (names : list bytes) (t : known gparam) (ps : list gparam) : Prop :=
  wfKnown on names gpName wfGenParam t ps /\ Forall wfGenParam ps.
