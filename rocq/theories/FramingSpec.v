(** Where the header section of a message ends. *)
From Verif Require Import Base LwsSpec.

(** An ordinary header section: its lines end with CRLF, never with a bare LF; and where a "[" is not closed before the end of its line, the line goes on (a blank follows). *)
Definition ordinary (a : bytes) : Prop :=
  (forall p q, a = p ++ 10 :: q -> exists p', p = p' ++ [13]) /\
  (forall p x y q, a ++ [13; 10; 13; 10] = p ++ 91 :: x ++ 10 :: y :: q -> ~ In 93 x -> wsp y).
