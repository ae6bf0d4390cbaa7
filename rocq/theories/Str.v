(** Storing strings in the arena, value layer: the result is the stored byte string, [used] grows by the
    stored length plus 2 (the length prefix). AbnfMem.go ParseAndAlloc*, AbnfBasic.go AllocCString*.
    The byte-level versions (memory writes, pointers) are in Arena.v and are proved to refine these.
    The 16-bit pointer and length arithmetic is exact for arenas of at most 65536 bytes. *)
From Verif Require Import Base Charset Lws.

(** Writing [n] bytes at index [u] does not panic. *)
Definition fits (e : env) (u n : N) : bool := (n =? 0) || leMem e (u + n).

(** AbnfMem.go:134-177 (ParseAndAllocCString). *)
Definition paCString (cs : charset) : P bytes := fun e s =>
  let u := used s + 2 in
  if negb (ltMem e u) then Fail s else
  let '(tok, r) := span (inset cs) (rest s) in
  if negb (fits e u (len tok)) then Panic else
  match tok with
  | [] => Fail s
  | _ => if negb (ltMem e (u + len tok)) then Fail s else Ok tok (mkst r (u + len tok))
  end.

(** AbnfMem.go:300-338 (ParseAndAllocCStringEnableEmpty). *)
Definition paCStringEmpty (cs : charset) : P bytes := fun e s =>
  let u := used s + 2 in
  if negb (ltMem e u) then Fail s else
  let '(tok, r) := span (inset cs) (rest s) in
  if negb (fits e u (len tok)) then Panic else
  if negb (ltMem e (u + len tok)) then Fail s else Ok tok (mkst r (u + len tok)).

(** AbnfMem.go:237-298 (ParseAndAllocCStringFromPos): [mid] is the suffix at [pos] ([pos >= parsePos], as in all callers). *)
Definition paCStringFromPos (mid : bytes) (cs : charset) : P bytes := fun e s =>
  let u := used s + 2 in
  let pre := firstn (List.length (rest s) - List.length mid) (rest s) in
  if negb (beq pre []) && negb (ltMem e (u + len pre)) then Fail s else
  if negb (ltMem e (u + len pre)) then Fail (mkst mid (used s)) else
  let '(tok, r) := span (inset cs) mid in
  if negb (fits e (u + len pre) (len tok)) then Panic else
  match pre ++ tok with
  | [] => Fail (mkst r (used s))
  | _ => if negb (ltMem e (u + len pre + len tok)) then Fail (mkst r (used s))
         else Ok (pre ++ tok) (mkst r (u + len pre + len tok))
  end.

(** AbnfMem.go:179-235 (ParseAndAllocTelNumberRemoveVisualSeperator). *)
Definition paTelNumber (cs : charset) : P bytes := fun e s =>
  let u := used s + 2 in
  if negb (ltMem e u) then Fail s else
  let '(plus, r0) := match rest s with x :: r => if x =? 43 then ([43], r) else ([], rest s) | [] => ([], rest s) end in
  let '(run, r) := span (inset cs) r0 in
  let num := filter (fun v => negb (IsTelVisualSperator v)) run in
  let tok := plus ++ num in
  if negb (fits e u (len tok)) then Panic else
  match num with
  | [] => Fail (mkst r (used s))
  | _ => if negb (ltMem e (u + len tok)) then Fail (mkst r (used s)) else Ok tok (mkst r (u + len tok))
  end.

(** Value of a hex digit; goutil chars.UnescapeToByteEx(v1, v2) = 16*hex v1 + hex v2 (external, assumed). *)
Definition hexVal (x : N) : N :=
  if (48 <=? x) && (x <=? 57) then x - 48
  else if (97 <=? x) && (x <=? 102) then x - 87
  else if (65 <=? x) && (x <=? 70) then x - 55 else 0.
Definition unescapeToByte (v1 v2 : N) : N := hexVal v1 * 16 + hexVal v2.

Inductive escOut :=
| EStop (tok r : bytes)       (* run ended at [r] *)
| EBad (r : bytes)            (* malformed escape at [r] *)
| ENoMem                      (* no room for a decoded byte *)
| EPanic.                     (* write past the arena *)
Definition escCons (x : N) (o : escOut) : escOut :=
  match o with EStop tok r => EStop (x :: tok) r | _ => o end.

(** The double loop of AbnfMem.go:340-454 (ParseAndAllocCStringEscapable); [u] is the local [used]. *)
Fixpoint escLoop (cs : charset) (e : env) (u : N) (r : bytes) : escOut :=
  match r with
  | [] => EStop [] []
  | v :: r1 =>
      if inset cs v then
        if ltMem e u then escCons v (escLoop cs e (u + 1) r1) else EPanic
      else if v =? 37 then
        match r1 with
        | v1 :: v2 :: r2 =>
            if negb (IsHex v1) || negb (IsHex v2) then EBad r
            else if ltMem e u then escCons (unescapeToByte v1 v2) (escLoop cs e (u + 1) r2) else ENoMem
        | _ => EBad r           (* (newPos + 2) >= len1 *)
        end
      else EStop [] r
  end.

(** AbnfMem.go:340-454 (ParseAndAllocCStringEscapable): "empty" is tested on the consumed input. *)
Definition paEscapable (cs : charset) : P bytes := fun e s =>
  let u := used s + 2 in
  if negb (ltMem e u) then Fail s else
  match escLoop cs e u (rest s) with
  | EPanic => Panic
  | ENoMem => Fail s
  | EBad r => Fail (mkst r (used s))
  | EStop [] r => Fail s
  | EStop tok r => if negb (ltMem e (u + len tok)) then Fail s else Ok tok (mkst r (u + len tok))
  end.
(** AbnfMem.go:456-554 (ParseAndAllocCStringEscapableEnableEmpty). *)
Definition paEscapableEmpty (cs : charset) : P bytes := fun e s =>
  let u := used s + 2 in
  if negb (ltMem e u) then Fail s else
  match escLoop cs e u (rest s) with
  | EPanic => Panic
  | ENoMem => Fail s
  | EBad r => Fail (mkst r (used s))
  | EStop tok r => if negb (ltMem e (u + len tok)) then Fail s else Ok tok (mkst r (u + len tok))
  end.

(** AbnfMem.go:641-693 (ParseAndCopyLWS) from suffix [r] with [this.used = u]: the copied bytes, the new suffix
    and [ok]; [None] is a panic. Note that the two bytes written for CRLF are both [src[newPos]] = CR. *)
Definition copyLWS (e : env) (u : N) (r : bytes) : option (bytes * bytes * bool) :=
  let '(w1, r1) := span isWsp r in
  if negb (fits e u (len w1)) then None else
  match r1 with
  | a :: b :: r2 =>
      if (a =? 13) && (b =? 10) then
        if negb (fits e (u + len w1) 2) then None else
        match r2 with
        | [] => Some (w1 ++ [a; a], r2, false)
        | x :: _ =>
            if negb (isWsp x) then Some (w1 ++ [a; a], r2, false)
            else let '(w2, r3) := span isWsp r2 in
                 if negb (fits e (u + len w1 + 2) (len w2)) then None
                 else Some (w1 ++ [a; a] ++ w2, r3, true)
        end
      else Some (w1, r1, true)
  | _ => Some (w1, r1, true)
  end.

Inductive qOut := QOk (tok r : bytes) | QFail (r : bytes) (u : N) | QPanic | QLoop.
Definition qApp (x : bytes) (o : qOut) : qOut := match o with QOk tok r => QOk (x ++ tok) r | _ => o end.

(** The loop of AbnfMem.go:566-639 (ParseAndAllocSipQuotedString); [u] is the local [used], [U] is [this.used]. *)
Fixpoint qLoop (fuel : nat) (e : env) (u U : N) (r : bytes) : qOut :=
  match fuel with
  | O => QLoop
  | S f =>
    match r with
    | [] => QFail [] U
    | v :: r1 =>
        if v =? 34 then QOk [] r1
        else if IsLwsChar v then
          match copyLWS e u r with
          | None => QPanic
          | Some (w, r', true) => qApp w (qLoop f e (u + len w) (u + len w) r')
          | Some (w, r', false) => QFail r' (u + len w)
          end
        else if IsSipQuotedText v then
          if ltMem e u then qApp [v] (qLoop f e (u + 1) U r1) else QPanic
        else if v =? 92 then
          match r1 with
          | [] => QFail r U
          | x :: r2 => if leMem e (u + 2) then qApp [v; x] (qLoop f e (u + 2) U r2) else QPanic
          end
        else QFail r U
    end
  end.

(** AbnfMem.go:566-639 (ParseAndAllocSipQuotedString). The fuel exceeds the number of iterations of every
    terminating run (QuotedProofs: one byte is consumed per iteration, or the loop does not terminate). *)
Definition paQuoted : P bytes := fun e s =>
  let r0 := ParseSWS_2 (rest s) in
  match r0 with
  | [] => Panic
  | x :: r1 =>
      if negb (x =? 34) then Fail (mkst r0 (used s)) else
      match qLoop (S (List.length r1)) e (used s + 2) (used s) r1 with
      | QLoop => Loop
      | QPanic => Panic
      | QFail r U => Fail (mkst r U)
      | QOk tok r => if negb (leMem e (used s + 2)) then Panic else Ok tok (mkst r (used s + 2 + len tok))
      end
  end.

(** AbnfBasic.go:72-93 (AllocCString) of a slice of the input: [Alloc(len+2)], copy. *)
Definition allocCString (b : bytes) : P bytes := fun e s =>
  if leMem e (used s + (len b + 2)) then Ok b (mkst (rest s) (used s + (len b + 2))) else Fail s.

(** goutil chars.ToUpperHex(v): the upper-case hex digit of the low nibble (external, assumed). *)
Definition upperHex (v : N) : N := let n := N.land v 15 in if n <? 10 then 48 + n else 55 + n.

(** AbnfPtr.go:190-210 (WriteCStringEscape) of a non-nil string. *)
Definition escape (cs : charset) (b : bytes) : bytes :=
  flat_map (fun v => if inset cs v then [v] else [37; upperHex (N.shiftr v 4); upperHex v]) b.

(** AbnfPtr.go:77-91 (RemoveTelUriVisualSeperator): in-place filter, then the length prefix is rewritten. *)
Definition removeVisual (b : bytes) : bytes := filter (fun v => negb (IsTelVisualSperator v)) b.

(** goutil chars.ToLower (external, assumed ASCII). *)
Definition toLower (x : N) : N := if (65 <=? x) && (x <=? 90) then x + 32 else x.
Fixpoint eqNoCaseTail (a b : bytes) : bool :=
  match a, b with
  | x :: a', y :: b' => if negb (toLower x =? toLower y) then false else eqNoCaseTail a' b'
  | _, _ => true
  end.
(** AbnfPtr.go:93-180 (CStringEqualNoCase): equal lengths, then three loops (8-byte words while equal,
    bytes while equal, lower-cased bytes). The word loop compares 8 bytes at a time. *)
Fixpoint eqWords (n : nat) (a b : bytes) : bytes * bytes :=
  match n with
  | O => (a, b)
  | S n' => if beq (firstn 8 a) (firstn 8 b) then eqWords n' (skipn 8 a) (skipn 8 b) else (a, b)
  end.
Fixpoint eqBytes (a b : bytes) : bytes * bytes :=
  match a, b with
  | x :: a', y :: b' => if negb (x =? y) then (a, b) else eqBytes a' b'
  | _, _ => (a, b)
  end.
(** [name[0]] panics on an empty name when the stored string is empty too: [None]. *)
Definition CStringEqualNoCase (a name : bytes) : option bool :=
  if negb (Nat.eqb (List.length name) (List.length a)) then Some false else
  match name with
  | [] => None
  | _ => let '(a1, b1) := eqWords (Nat.div (List.length name) 8) a name in
         let '(a2, b2) := eqBytes a1 b1 in Some (eqNoCaseTail a2 b2)
  end.
Definition equalNoCase (a name : bytes) : bool :=
  match CStringEqualNoCase a name with Some b => b | None => false end.
