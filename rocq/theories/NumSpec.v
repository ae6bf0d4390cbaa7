(** What a decimal numeral means. *)
From Verif Require Import Base.

Definition isDec (b : N) : bool := (48 <=? b) && (b <=? 57).
(** The number denoted by a digit string (most significant digit first), unbounded. *)
Fixpoint decVal (ds : bytes) : N :=
  match ds with
  | [] => 0
  | d :: ds' => (d - 48) * 10 ^ N.of_nat (List.length ds') + decVal ds'
  end.
(** Canonical decimal numeral: non-empty, digits only, no leading zero unless it is "0". *)
Definition canonical (ds : bytes) : Prop :=
  ds <> [] /\ forallb isDec ds = true /\ (forall t, ds = 48 :: t -> t = []).
(** [n] is the number written at the start of [r], read into a field of [w] values, and [r'] is what follows: the maximal run of digits, its value modulo [w]. *)
Definition numberAt (w : N) (r : bytes) (n : N) (r' : bytes) : Prop :=
  exists ds, r = ds ++ r' /\ ds <> [] /\ forallb isDec ds = true /\ (forall d t, r' = d :: t -> isDec d = false) /\ n = decVal ds mod w.
