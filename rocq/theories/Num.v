(** Decimal numbers: AbnfBasic.go ParseUInt*, EncodeUInt*, and SipHostPort.go WriteByteAsString. *)
From Verif Require Import Base Charset.

Definition two64 : N := 18446744073709551616.
Definition two32 : N := 4294967296.
Definition two16 : N := 65536.
Definition two8 : N := 256.

(** The digit loop shared by AbnfBasic.go:212-230 (ParseUInt), AbnfBasic.go:260-278 (ParseUInt32), AbnfBasic.go:280-298 (ParseUInt16),
    AbnfBasic.go:300-318 (ParseUInt8): [digit = digit*10 + uint(src[newPos]) - '0'] in 64-bit arithmetic
    ([uint] is taken to be 64 bits wide). Returns the value and the unread suffix. *)
Fixpoint uintLoop (acc : N) (r : bytes) : N * bytes :=
  match r with
  | x :: r' => if IsDigit x then uintLoop ((acc * 10 + x - 48) mod two64) r' else (acc, r)
  | [] => (acc, [])
  end.

(** AbnfBasic.go:212-230 (ParseUInt): value, number of digits, unread suffix; [None] is [ok = false]
    (position unchanged). *)
Definition ParseUInt (r : bytes) : option (N * N * bytes) :=
  match r with
  | x :: _ => if IsDigit x then let '(v, r') := uintLoop 0 r in Some (v, len r - len r', r') else None
  | [] => None
  end.

(** AbnfBasic.go:232-258 (ParseUInt_2): the loop tests the byte inside the loop body. *)
Fixpoint uintLoop_2 (acc : N) (r : bytes) : N * bytes :=
  match r with
  | [] => (acc, [])
  | v :: r' => if negb (IsDigit v) then (acc, v :: r') else uintLoop_2 ((acc * 10 + v - 48) mod two64) r'
  end.
Definition ParseUInt_2 (r : bytes) : option (N * bytes) :=
  match r with
  | [] => None
  | v :: _ => if negb (IsDigit v) then None else Some (uintLoop_2 0 r)
  end.

(** AbnfBasic.go:260-278 (ParseUInt32) and ParseUInt16, ParseUInt8 below it: same loop in 64 bits, then a Go integer conversion. *)
Definition ParseUIntW (w : N) (r : bytes) : option (N * N * bytes) :=
  match ParseUInt r with
  | Some (v, n, r') => Some (v mod w, n, r')
  | None => None
  end.
Definition ParseUInt32 := ParseUIntW two32.
Definition ParseUInt16 := ParseUIntW two16.
Definition ParseUInt8 := ParseUIntW two8.

(** The digit-producing loop of AbnfBasic.go:796-812 (EncodeUInt): fills a fixed array of [cap] bytes from the right;
    an index below zero would be a panic ([None]). *)
Fixpoint encLoop (cap : nat) (n : N) (acc : bytes) : option bytes :=
  if n =? 0 then Some acc else
  match cap with
  | O => None
  | S cap' => encLoop cap' (n / 10) ((48 + (n - n / 10 * 10)) :: acc)
  end.

(** AbnfBasic.go:796-812 (EncodeUInt), array of 32. *)
Definition EncodeUInt (n : N) : option bytes :=
  if n =? 0 then Some [48] else encLoop 32 n [].

(** AbnfBasic.go:776-794 (EncodeUInt2): fills the array from the left, least significant digit
    first, then writes it backwards. *)
Fixpoint encLoop2 (cap : nat) (n : N) (acc : bytes) : option bytes :=
  if n =? 0 then Some acc else
  match cap with
  | O => None
  | S cap' => encLoop2 cap' (n / 10) (acc ++ [48 + (n - n / 10 * 10)])
  end.
Definition EncodeUInt2 (n : N) : option bytes :=
  if n =? 0 then Some [48] else option_map (@rev N) (encLoop2 32 n []).

(** AbnfBasic.go:841-856 (EncodeUInt32), array of 16. *)
Definition EncodeUInt32 (n : N) : option bytes :=
  if n =? 0 then Some [48] else encLoop 16 n [].

(** [for i := k; i > 0; i-- { WriteByte(' ') }] for a possibly negative [k]. *)
Definition blanks (k : Z) : bytes := repeat 32 (Z.to_nat k).

(** AbnfBasic.go:814-839 (EncodeUIntWithWidth) and AbnfBasic.go:858-882 (EncodeUInt32WithWidth): with [num] the last
    array index written minus one, [width - cap + num + 1 = width - digits]. *)
Definition EncodeWithWidth (cap : nat) (n : N) (width : Z) : option bytes :=
  if n =? 0 then Some (blanks (width - 1) ++ [48]) else
  match encLoop cap n [] with
  | Some ds => let num := (Z.of_nat cap - 1 - Z.of_nat (List.length ds))%Z in
               Some (blanks (width - Z.of_nat cap + num + 1) ++ ds)
  | None => None
  end.
Definition EncodeUIntWithWidth := EncodeWithWidth 32.
Definition EncodeUInt32WithWidth := EncodeWithWidth 16.

(** Total versions used by the encoders (equal to the above on every 64-bit number: Num lemmas). *)
Definition encUInt (n : N) : bytes := match EncodeUInt n with Some b => b | None => [] end.
Definition encUInt32W (n : N) (w : Z) : bytes := match EncodeUInt32WithWidth n w with Some b => b | None => [] end.

(** SipHostPort.go:104-126 (WriteByteAsString) (byte arithmetic; no operation below overflows a byte). *)
Definition WriteByteAsString (v : N) : bytes :=
  if v =? 0 then [48] else
  let x2 := v / 10 in
  let x1 := v - x2 * 10 in
  let x3 := x2 / 10 in
  let x2 := x2 - x3 * 10 in
  (if negb (x3 =? 0) then [48 + x3; 48 + x2] else if negb (x2 =? 0) then [48 + x2] else [])
  ++ [48 + x1].
