(** Quoted strings: the text between the quotes and what is stored for it; where reading stops. Independent of the model. *)
From Verif Require Import Base.

(** [qd] is the class of plain bytes, [ws] of blanks. Text, blanks and quoted pairs are stored as written; of a folded line
    end (CRLF and a blank) the LF is stored as a second CR. *)
Inductive QText (qd ws : N -> bool) : bytes -> bytes -> Prop :=
| QTNil : QText qd ws [] []
| QTText x s t : qd x = true -> QText qd ws s t -> QText qd ws (x :: s) (x :: t)
| QTWs x s t : ws x = true -> QText qd ws s t -> QText qd ws (x :: s) (x :: t)
| QTFold z s t : ws z = true -> QText qd ws s t -> QText qd ws (13 :: 10 :: z :: s) (13 :: 13 :: z :: t)
| QTPair x s t : QText qd ws s t -> QText qd ws (92 :: x :: s) (92 :: x :: t).

(** A line break that is not CRLF. *)
Definition loneBreakAt (k : bytes) : Prop :=
  (exists t, k = 10 :: t) \/ (exists t, k = 13 :: t /\ ~ (exists t', t = 10 :: t')).
(** The places where reading fails: the input ends, a backslash at the end, a byte that is not allowed ... *)
Definition badByteAt (qd ws : N -> bool) (k : bytes) : Prop :=
  k = [] \/ k = [92] \/ exists x t, k = x :: t /\ qd x = false /\ ws x = false /\ x <> 92 /\ x <> 34 /\ x <> 13 /\ x <> 10.
(** ... or a line end that is not folded. *)
Definition lineEndAt (ws : N -> bool) (k : bytes) : Prop :=
  exists t, k = 13 :: 10 :: t /\ (forall z t', t = z :: t' -> ws z = false).
(** What is copied while reading: text as above, and also a CRLF before it is known whether it is folded. *)
Inductive QStart (qd ws : N -> bool) : bytes -> Prop :=
| QSNil : QStart qd ws []
| QSBreak : QStart qd ws [13; 10]
| QSText x s : qd x = true -> QStart qd ws s -> QStart qd ws (x :: s)
| QSWs x s : ws x = true -> QStart qd ws s -> QStart qd ws (x :: s)
| QSFold z s : ws z = true -> QStart qd ws s -> QStart qd ws (13 :: 10 :: z :: s)
| QSPair x s : QStart qd ws s -> QStart qd ws (92 :: x :: s).
