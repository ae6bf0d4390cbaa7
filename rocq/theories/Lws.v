(** White space, marks and line ends: AbnfBasic.go. Functions that take [(src, pos)] or a context
    are modelled on the unread suffix; a boolean is the Go [ok]. *)
From Verif Require Import Base Charset.

Definition isWsp (x : N) : bool := (x =? 32) || (x =? 9).

(** AbnfBasic.go:622-630 (eatWsp) and the loops [for ; newPos < len1; newPos++ { if not SP/HTAB break }]. *)
Fixpoint skipWsp (r : bytes) : bytes :=
  match r with
  | x :: r' => if isWsp x then skipWsp r' else r
  | [] => []
  end.

(** AbnfBasic.go:541-579 (ParseLWS). Result: new suffix and [ok]. *)
Definition ParseLWS (r : bytes) : bytes * bool :=
  let r1 := skipWsp r in
  match r1 with
  | a :: b :: r2 =>
      if (a =? 13) && (b =? 10) then
        match r2 with
        | [] => (r2, false)
        | x :: _ => if negb (isWsp x) then (r2, false) else (skipWsp r2, true)
        end
      else (r1, true)
  | _ => (r1, true)             (* (newPos + 1) >= len1 *)
  end.

(** AbnfBasic.go:581-620 (ParseLWS_2): the second loop is written with an early return. *)
Fixpoint lwsTail_2 (r : bytes) : bytes * bool :=
  match r with
  | x :: r' => if negb (isWsp x) then (r, true) else lwsTail_2 r'
  | [] => ([], true)
  end.
Definition ParseLWS_2 (r : bytes) : bytes * bool :=
  let newPos := skipWsp r in
  match newPos with
  | [] => (newPos, true)
  | [_] => (newPos, true)
  | a :: b :: r2 =>
      if (a =? 13) && (b =? 10) then
        match r2 with
        | [] => (r2, false)
        | x :: _ => if negb (isWsp x) then (r2, false) else lwsTail_2 r2
        end
      else (newPos, true)
  end.

(** AbnfBasic.go:482-501 (ParseSWS_2): always [ok]; on a failed LWS the position is restored. *)
Definition ParseSWS_2 (r : bytes) : bytes :=
  match r with
  | [] => r
  | x :: _ => if negb (IsLwsChar x) then r
              else match ParseLWS r with (r', true) => r' | (_, false) => r end
  end.
(** AbnfBasic.go:503-522 (ParseSWS): same with ParseLWS_2 and a fresh position variable. *)
Definition ParseSWS (r : bytes) : bytes :=
  match r with
  | [] => r
  | x :: _ => if negb (IsLwsChar x) then r
              else let '(newPos1, ok) := ParseLWS_2 r in if ok then newPos1 else r
  end.

(** AbnfBasic.go:324-350 (ParseHcolon). *)
Definition ParseHcolon (r : bytes) : bytes * bool :=
  match skipWsp r with
  | [] => ([], false)
  | x :: r' => if negb (x =? 58) then (x :: r', false) else (ParseSWS_2 r', true)
  end.
(** AbnfBasic.go:352-377 (ParseHcolon2). *)
Definition ParseHcolon2 (r : bytes) : bytes * bool :=
  let newPos := skipWsp r in
  match newPos with
  | [] => (newPos, false)
  | x :: r' => if negb (x =? 58) then (newPos, false) else (ParseSWS r', true)
  end.

(** AbnfBasic.go:432-453 (ParseSWSMark). *)
Definition ParseSWSMark (mark : N) (r : bytes) : bytes * bool :=
  let r1 := ParseSWS_2 r in
  match r1 with
  | [] => (r1, false)
  | x :: r' => if negb (x =? mark) then (r1, false) else (ParseSWS_2 r', true)
  end.
(** AbnfBasic.go:455-474 (ParseSWSMark_2). *)
Definition ParseSWSMark_2 (mark : N) (r : bytes) : bytes * bool :=
  let r1 := ParseSWS r in
  match r1 with
  | [] => (r1, false)
  | x :: r' => if negb (x =? mark) then (r1, false) else (ParseSWS r', true)
  end.

(** AbnfBasic.go:379-399 (ParseSWSMarkCanOmmit): result (suffix, matchMark, ok). Without the mark the
    position stays after the white space. *)
Definition ParseSWSMarkCanOmmit (mark : N) (r : bytes) : bytes * bool * bool :=
  let r1 := ParseSWS_2 r in
  match r1 with
  | [] => (r1, false, false)
  | x :: r' => if negb (x =? mark) then (r1, false, true) else (ParseSWS_2 r', true, true)
  end.
(** AbnfBasic.go:401-419 (ParseSWSMarkCanOmmit_2): without the mark the position is the original one. *)
Definition ParseSWSMarkCanOmmit_2 (mark : N) (r : bytes) : bytes * bool * bool :=
  let r1 := ParseSWS r in
  match r1 with
  | [] => (r1, false, false)
  | x :: r' => if negb (x =? mark) then (r, false, true) else (ParseSWS r', true, true)
  end.

(** AbnfBasic.go:637-663 (ParseLeftAngleQuote). *)
Definition ParseLeftAngleQuote (r : bytes) : bytes * bool :=
  match r with
  | [] => (r, false)
  | _ => match ParseSWS_2 r with
         | [] => ([], false)
         | x :: r' => if negb (x =? 60) then (x :: r', false) else (r', true)
         end
  end.
(** AbnfBasic.go:670-696 (ParseLeftAngleQuote2). *)
Definition ParseLeftAngleQuote2 (r : bytes) : bytes * bool :=
  match r with
  | [] => (r, false)
  | _ => match ParseSWS r with
         | [] => ([], false)
         | x :: r' => if negb (x =? 60) then (x :: r', false) else (r', true)
         end
  end.
(** AbnfBasic.go:703-719 (ParseRightAngleQuote). *)
Definition ParseRightAngleQuote (r : bytes) : bytes * bool :=
  match r with
  | [] => (r, false)
  | x :: r' => if negb (x =? 62) then (r, false) else (ParseSWS_2 r', true)
  end.
(** AbnfBasic.go:726-740 (ParseRightAngleQuote2). *)
Definition ParseRightAngleQuote2 (r : bytes) : bytes * bool :=
  match r with
  | [] => (r, false)
  | x :: r' => if negb (x =? 62) then (r, false) else (ParseSWS r', true)
  end.

(** AbnfBasic.go:742-744 (IsCRLF). *)
Definition IsCRLF (r : bytes) : bool :=
  match r with a :: b :: _ => (a =? 13) && (b =? 10) | _ => false end.
(** AbnfBasic.go:750-756 (IsOnlyCRLF): CRLF not followed by white space. *)
Definition IsOnlyCRLF (r : bytes) : bool :=
  match r with
  | a :: b :: x :: _ => (a =? 13) && (b =? 10) && negb (IsWspChar x)
  | [a; b] => (a =? 13) && (b =? 10)
  | _ => false
  end.
(** AbnfBasic.go:758-766 (ParseCRLF). *)
Definition ParseCRLF (r : bytes) : bytes * bool :=
  match r with
  | a :: b :: r' => if (a =? 13) && (b =? 10) then (r', true) else (r, false)
  | _ => (r, false)
  end.
(** AbnfBasic.go:768-774 (ParseCRLF2). *)
Definition ParseCRLF2 (r : bytes) : bytes * bool :=
  if negb (IsCRLF r) then (r, false) else (tl (tl r), true).

(** SipHeaders.go:315-372 (FindCrlfByRFC3261) is in SipHeaders.v. *)

(** Lifting to the parser monad. *)
Definition liftB (f : bytes -> bytes * bool) : P unit := fun _ s =>
  let '(r, ok) := f (rest s) in if ok then Ok tt (mkst r (used s)) else Fail (mkst r (used s)).
Definition pSWS : P unit := fun _ s => Ok tt (mkst (ParseSWS_2 (rest s)) (used s)).
Definition pLWS : P unit := liftB ParseLWS.
Definition pHcolon : P unit := liftB ParseHcolon.
Definition pSWSMark (m : N) : P unit := liftB (ParseSWSMark m).
Definition pSWSMarkCanOmmit (m : N) : P bool := fun _ s =>
  let '(r, mt, ok) := ParseSWSMarkCanOmmit m (rest s) in
  if ok then Ok mt (mkst r (used s)) else Fail (mkst r (used s)).
Definition pLeftAngleQuote : P unit := liftB ParseLeftAngleQuote.
Definition pRightAngleQuote : P unit := liftB ParseRightAngleQuote.
Definition pCRLF : P unit := liftB ParseCRLF.
