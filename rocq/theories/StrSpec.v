(** Specifications used by the string properties, independent of the model's loops. *)
From Verif Require Import Base Charset CharsetSpec.

(** [Decodes cls run tok]: [run] is a sequence of plain bytes of the class and escapes "%" HEXDIG HEXDIG, and [tok]
    is what it denotes (an escape denotes the byte with that hexadecimal value). *)
Definition hexDigitValue (x v : N) : Prop :=
  (48 <= x <= 57 /\ v = x - 48) \/ (65 <= x <= 70 /\ v = x - 55) \/ (97 <= x <= 102 /\ v = x - 87).
Inductive Decodes (cls : N -> bool) : bytes -> bytes -> Prop :=
| DecNil : Decodes cls [] []
| DecPlain x r t : cls x = true -> Decodes cls r t -> Decodes cls (x :: r) (x :: t)
| DecEsc h1 h2 v1 v2 r t : cls 37 = false -> hexDigitValue h1 v1 -> hexDigitValue h2 v2 ->
    Decodes cls r t -> Decodes cls (37 :: h1 :: h2 :: r) (16 * v1 + v2 :: t).
(** The run cannot be continued at [r]: end of input, or a byte that is neither in the class nor "%". *)
Definition endsRun (cls : N -> bool) (r : bytes) : Prop :=
  match r with [] => True | x :: _ => cls x = false /\ x <> 37 end.
(** A "%" that does not start an escape. *)
Definition badEscape (cls : N -> bool) (r : bytes) : Prop :=
  match r with
  | 37 :: r1 => cls 37 = false /\
      match r1 with
      | h1 :: h2 :: _ => ~ ((exists v, hexDigitValue h1 v) /\ (exists v, hexDigitValue h2 v))
      | _ => True
      end
  | _ => False
  end.

(** Case-insensitive equality of byte strings: equal after mapping A-Z to a-z. *)
Definition asciiLower (x : N) : N := if (65 <=? x) && (x <=? 90) then x + 32 else x.
Definition sameNoCase (a b : bytes) : Prop := map asciiLower a = map asciiLower b.

(** The inside of a quoted string, RFC 3261 25.1: qdtext and quoted pairs, and white space. *)
Inductive QuotedBody (qd : N -> bool) (ws : N -> bool) : bytes -> Prop :=
| QBNil : QuotedBody qd ws []
| QBText x r : qd x = true -> QuotedBody qd ws r -> QuotedBody qd ws (x :: r)
| QBWs x r : ws x = true -> QuotedBody qd ws r -> QuotedBody qd ws (x :: r)
| QBPair x r : QuotedBody qd ws r -> QuotedBody qd ws (92 :: x :: r).
