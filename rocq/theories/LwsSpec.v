(** Declarative white space grammar (RFC 3261 25.1: LWS = [*WSP CRLF] 1*WSP, SWS = [LWS]). *)
From Verif Require Import Base.

Definition wsp (x : N) : Prop := x = 32 \/ x = 9.
Definition startsWsp (r : bytes) : Prop := exists x t, r = x :: t /\ wsp x.
Definition startsCRLF (r : bytes) : Prop := exists t, r = 13 :: 10 :: t.

Inductive LWS : bytes -> Prop :=
| LWS_plain w : w <> [] -> Forall wsp w -> LWS w
| LWS_fold w1 w2 : Forall wsp w1 -> w2 <> [] -> Forall wsp w2 -> LWS (w1 ++ 13 :: 10 :: w2).

(** What skipping separating white space may do to the input: the blanks that do not lead to a line
    end are skipped, a folded line end is skipped with all blanks around it, and at a real line
    end nothing is skipped. *)
Inductive SWS : bytes -> bytes -> Prop :=
| SWS_plain w r : Forall wsp w -> ~ startsWsp r -> ~ startsCRLF r -> SWS (w ++ r) r
| SWS_fold w1 w2 r : Forall wsp w1 -> w2 <> [] -> Forall wsp w2 -> ~ startsWsp r ->
    SWS (w1 ++ 13 :: 10 :: w2 ++ r) r
| SWS_eol w r : Forall wsp w -> ~ startsWsp r -> SWS (w ++ 13 :: 10 :: r) (w ++ 13 :: 10 :: r).
