(** Byte-level model of the arena (AbnfMem.go MemAllocator, AbnfPtr.go, AbnfBasic.go AllocCString and memory
    primitives). Memory is a function from indices to bytes with an explicit length [cap];
    every Go index expression is guarded by an explicit bounds check. *)
From Verif Require Import Base Charset Lws Str Num.

Definition u32 (x : N) : N := x mod two32.
Definition u16 (x : N) : N := x mod two16.

(** AbnfMem.go:64-68 (type MemAllocator) and AbnfMem.go:24-31 (type MemAllocatorStat) (allocBytes is never written and is left out). *)
Record arena := mkA {
  mem : N -> N;
  cap : N;                  (* cap(this.mem) = len(this.mem) *)
  aused : N;                (* this.used, uint32 *)
  allocNum : N; allocNumOk : N; freeAllNum : N; freePartNum : N; allocReqBytes : N }.

Definition upd (m : N -> N) (i v : N) : N -> N := fun a => if a =? i then v else m a.
Definition setMem (a : arena) (m : N -> N) : arena :=
  mkA m (cap a) (aused a) (allocNum a) (allocNumOk a) (freeAllNum a) (freePartNum a) (allocReqBytes a).

Definition PREFIX_LEN : N := 8.
Definition NILPTR : N := 0.

(** AbnfMem.go:33-40 (Init): [make([]byte, int(capacity+ABNF_MEM_PREFIX_LEN))] with the sum in uint32. *)
Definition Init (capacity : N) : arena :=
  mkA (fun _ => 0) (u32 (capacity + PREFIX_LEN)) PREFIX_LEN 0 0 0 0 0.

(** AbnfMem.go:87-89 (Used), AbnfMem.go:119-121 (Capacity), AbnfMem.go:123-125 (Left): uint32 subtractions. *)
Definition Used (a : arena) : N := u32 (aused a + two32 - PREFIX_LEN).
Definition Capacity (a : arena) : N := u32 (cap a + two32 - PREFIX_LEN).
Definition Left (a : arena) : N := u32 (cap a + two32 - aused a).

(** AbnfMem.go:20-22 (RoundToAlign) with align = 1. *)
Definition RoundToAlign1 (x : N) : N := N.land (u32 (x + 1 - 1)) (two32 - 1).

(** AbnfMem.go:695-713 (MemAllocator.Alloc). *)
Definition Alloc (size : N) (a : arena) : N * arena :=
  let a1 := mkA (mem a) (cap a) (aused a) (u32 (allocNum a + 1)) (allocNumOk a) (freeAllNum a) (freePartNum a)
                (u32 (allocReqBytes a + size)) in
  if size <=? 0 then (NILPTR, a1) else
  let newSize := RoundToAlign1 (u32 (aused a + size)) in
  if cap a <? newSize then (NILPTR, a1) else
  (u16 (aused a),
   mkA (mem a) (cap a) newSize (u32 (allocNum a + 1)) (u32 (allocNumOk a + 1)) (freeAllNum a) (freePartNum a)
       (u32 (allocReqBytes a + size))).

(** AbnfBasic.go:912-941 (ZeroMem) / AbnfBasic.go:943-950 (ZeroMem2): zero [n] bytes from [p]: 8-byte words, then single bytes
    (for [size > 32] the plain byte loop of ZeroMem2). *)
Fixpoint zeroBytes (m : N -> N) (p : N) (n : nat) : N -> N :=
  match n with O => m | S n' => zeroBytes (upd m p 0) (p + 1) n' end.
Fixpoint zeroWords (m : N -> N) (p : N) (n : nat) : N -> N :=
  match n with O => m | S n' => zeroWords (zeroBytes m p 8) (p + 8) n' end.
Definition ZeroMem2 (m : N -> N) (p size : N) : N -> N := zeroBytes m p (N.to_nat size).
Definition ZeroMem (m : N -> N) (p size : N) : N -> N :=
  if size =? 0 then m else
  if 32 <? size then ZeroMem2 m p size else
  let words := N.shiftr size 3 in
  zeroBytes (zeroWords m p (N.to_nat words)) (p + N.shiftl words 3) (N.to_nat (size - N.shiftl words 3)).
(** AbnfBasic.go:884-903 (ZeroByteSlice): words then bytes over the slice [p, p+len). *)
Definition ZeroByteSlice (m : N -> N) (p len1 : N) : N -> N :=
  if len1 =? 0 then m else
  let words := N.shiftr len1 3 in
  zeroBytes (zeroWords m p (N.to_nat words)) (p + N.shiftl words 3) (N.to_nat (len1 - N.shiftl words 3)).
(** AbnfBasic.go:905-910 (ZeroByteSlice2). *)
Definition ZeroByteSlice2 (m : N -> N) (p len1 : N) : N -> N := zeroBytes m p (N.to_nat len1).
(** AbnfBasic.go:951-975 (Memcpy) within one address space: [copyBytes m p1 p2 n] copies forward byte by byte;
    the word loop copies 8 bytes read before any of them is written. *)
Fixpoint copyBytes (m : N -> N) (p1 p2 : N) (n : nat) : N -> N :=
  match n with O => m | S n' => copyBytes (upd m p1 (m p2)) (p1 + 1) (p2 + 1) n' end.
Definition copyWord (m : N -> N) (p1 p2 : N) : N -> N :=
  fun a => if (p1 <=? a) && (a <? p1 + 8) then m (p2 + (a - p1)) else m a.
Fixpoint copyWords (m : N -> N) (p1 p2 : N) (n : nat) : N -> N :=
  match n with O => m | S n' => copyWords (copyWord m p1 p2) (p1 + 8) (p2 + 8) n' end.
Definition Memcpy (m : N -> N) (p1 p2 size : N) : N -> N :=
  let words := N.shiftr size 3 in
  let k := N.shiftl words 3 in
  copyBytes (copyWords m p1 p2 (N.to_nat words)) (p1 + k) (p2 + k) (N.to_nat (size - k)).

(** AbnfMem.go:715-737 (AllocWithClear): as Alloc, then [ZeroMem(&mem[used], newSize-used)]. *)
Definition AllocWithClear (size : N) (a : arena) : N * arena :=
  let '(p, a') := Alloc size a in
  if aused a' =? aused a then (p, a')   (* not allocated *)
  else (p, setMem a' (ZeroMem (mem a') (aused a) (u32 (aused a' + two32 - aused a)))).

(** AbnfMem.go:739-758 (AllocEx). *)
Definition AllocEx (size : N) (a : arena) : N * N * arena :=
  let '(p, a') := Alloc size a in
  if aused a' =? aused a then (NILPTR, 0, a') else (p, u32 (aused a' + two32 - aused a), a').

(** AbnfMem.go:760-763 (FreeAll). *)
Definition FreeAll (a : arena) : arena :=
  mkA (mem a) (cap a) PREFIX_LEN (allocNum a) (allocNumOk a) (u32 (freeAllNum a + 1)) (freePartNum a) (allocReqBytes a).
(** AbnfMem.go:765-774 (MemAllocator.FreePart). *)
Definition FreePart (remain : N) (a : arena) : arena :=
  let a1 u := mkA (mem a) (cap a) u (allocNum a) (allocNumOk a) (freeAllNum a) (u32 (freePartNum a + 1)) (allocReqBytes a) in
  if aused a <=? remain then a1 (aused a) else
  let u := u32 (remain + PREFIX_LEN) in
  if u <? PREFIX_LEN then a1 PREFIX_LEN else a1 u.
(** AbnfMem.go:91-93 (MemAllocator.ClearAllocNum). *)
Definition ClearAllocNum (a : arena) : arena :=
  mkA (mem a) (cap a) (aused a) 0 (allocNumOk a) (freeAllNum a) (freePartNum a) (allocReqBytes a).

(** Reading a stored string: AbnfPtr.go:262-322 (Strlen), AbnfPtr.go:212-219 (GetCStringAsByteSlice), AbnfPtr.go:57-64 (CString).
    [None] = index panic ([this-2] is uint16 arithmetic). *)
Fixpoint readBytes (m : N -> N) (p : N) (n : nat) : bytes :=
  match n with O => [] | S n' => m p :: readBytes m (p + 1) n' end.
Definition Strlen (a : arena) (p : N) : option N :=
  if p =? NILPTR then Some 0 else
  let q := u16 (p + two16 - 2) in
  if cap a <? q + 2 then None else Some (mem a q + 256 * mem a (q + 1)).
Definition readCString (a : arena) (p : N) : option bytes :=
  if p =? NILPTR then Some [] else
  match Strlen a p with
  | None => None
  | Some n => if cap a <=? p then None else Some (readBytes (mem a) p (N.to_nat n))
  end.

(** Results of the byte-level string parsers. *)
Inductive ares :=
| AOk (p : N) (a : arena) (r : bytes)
| AFail (a : arena) (r : bytes)
| APanic
| ALoop.

(** [binary.LittleEndian.PutUint16(mem[i:], uint16(n))]; [None] = out of range. *)
Definition putUint16 (a : arena) (i n : N) : option (N -> N) :=
  if cap a <? i + 2 then None
  else Some (upd (upd (mem a) i (u16 n mod 256)) (i + 1) (u16 n / 256)).

(** The common epilogue: statistics, length prefix, [this.used = used], result pointer
    (e.g. AbnfMem.go:166-173). [base] is [this.used] at entry, [u] the local [used]. *)
Definition finish (a : arena) (base u : N) (r : bytes) : ares :=
  match putUint16 a base (u - base - 2) with
  | None => APanic
  | Some m => AOk (u16 (base + 2))
      (mkA m (cap a) (RoundToAlign1 u) (u32 (allocNum a + 1)) (u32 (allocNumOk a + 1)) (freeAllNum a) (freePartNum a) (u - base - 2)) r
  end.

(** Byte loop: copy the run of class [cs] to memory (AbnfMem.go:147-154). [None] = index panic. *)
Fixpoint runLoop (cs : charset) (cap : N) (m : N -> N) (u : N) (r : bytes) : option ((N -> N) * N * bytes) :=
  match r with
  | [] => Some (m, u, [])
  | v :: r' => if inset cs v then (if u <? cap then runLoop cs cap (upd m u v) (u + 1) r' else None) else Some (m, u, r)
  end.

(** AbnfMem.go:134-177 (ParseAndAllocCString). *)
Definition ParseAndAllocCString (cs : charset) (a : arena) (r : bytes) : ares :=
  let u := aused a + 2 in
  if cap a <=? u then AFail a r else
  match runLoop cs (cap a) (mem a) u r with
  | None => APanic
  | Some (m, u', r') =>
      if Nat.eqb (List.length r') (List.length r) then AFail (setMem a m) r
      else if cap a <=? u' then AFail (setMem a m) r
      else finish (setMem a m) (aused a) u' r'
  end.
(** AbnfMem.go:300-338 (ParseAndAllocCStringEnableEmpty). *)
Definition ParseAndAllocCStringEnableEmpty (cs : charset) (a : arena) (r : bytes) : ares :=
  let u := aused a + 2 in
  if cap a <=? u then AFail a r else
  match runLoop cs (cap a) (mem a) u r with
  | None => APanic
  | Some (m, u', r') =>
      if cap a <=? u' then AFail (setMem a m) r else finish (setMem a m) (aused a) u' r'
  end.

(** Copying a given byte string to memory at [u] (AbnfMem.go:244-247, [copy] in AllocCString). *)
Fixpoint writeBytes (cap : N) (m : N -> N) (u : N) (b : bytes) : option ((N -> N) * N) :=
  match b with
  | [] => Some (m, u)
  | v :: b' => if u <? cap then writeBytes cap (upd m u v) (u + 1) b' else None
  end.

(** AbnfMem.go:237-298 (ParseAndAllocCStringFromPos); [mid] is the suffix at [pos]. *)
Definition ParseAndAllocCStringFromPos (mid : bytes) (cs : charset) (a : arena) (r : bytes) : ares :=
  let u := aused a + 2 in
  let pre := firstn (List.length r - List.length mid) r in
  if negb (beq pre []) && (cap a <=? len pre + u) then AFail a r else
  match writeBytes (cap a) (mem a) u pre with
  | None => APanic
  | Some (m, u1) =>
      if cap a <=? u1 then AFail (setMem a m) mid else
      match runLoop cs (cap a) m u1 mid with
      | None => APanic
      | Some (m', u', r') =>
          if Nat.eqb (List.length r') (List.length r) then AFail (setMem a m') r'
          else if cap a <=? u' then AFail (setMem a m') r'
          else finish (setMem a m') (aused a) u' r'
      end
  end.

(** Digit loop of AbnfMem.go:179-235 (ParseAndAllocTelNumberRemoveVisualSeperator); also counts the digits. *)
Fixpoint telLoop (cs : charset) (cap : N) (m : N -> N) (u : N) (num : N) (r : bytes) : option ((N -> N) * N * N * bytes) :=
  match r with
  | [] => Some (m, u, num, [])
  | v :: r' =>
      if inset cs v then
        if IsTelVisualSperator v then telLoop cs cap m u num r'
        else if u <? cap then telLoop cs cap (upd m u v) (u + 1) (num + 1) r' else None
      else Some (m, u, num, r)
  end.
Definition ParseAndAllocTelNumber (cs : charset) (a : arena) (r : bytes) : ares :=
  let u := aused a + 2 in
  if cap a <=? u then AFail a r else
  let '(m0, u0, r0) := match r with
                       | x :: r1 => if x =? 43 then (upd (mem a) u x, u + 1, r1) else (mem a, u, r)
                       | [] => (mem a, u, r) end in
  match telLoop cs (cap a) m0 u0 0 r0 with
  | None => APanic
  | Some (m, u', num, r') =>
      if num =? 0 then AFail (setMem a m) r'
      else if cap a <=? u' then AFail (setMem a m) r'
      else finish (setMem a m) (aused a) u' r'
  end.

Inductive escA := EAStop (m : N -> N) (u : N) (r : bytes) | EABad (m : N -> N) (r : bytes) | EANoMem (m : N -> N) | EAPanic.
(** Loops of AbnfMem.go:340-454 (ParseAndAllocCStringEscapable). *)
Fixpoint escLoopA (cs : charset) (cap : N) (m : N -> N) (u : N) (r : bytes) : escA :=
  match r with
  | [] => EAStop m u []
  | v :: r1 =>
      if inset cs v then
        if u <? cap then escLoopA cs cap (upd m u v) (u + 1) r1 else EAPanic
      else if v =? 37 then
        match r1 with
        | v1 :: v2 :: r2 =>
            if negb (IsHex v1) || negb (IsHex v2) then EABad m r
            else if u <? cap then escLoopA cs cap (upd m u (unescapeToByte v1 v2)) (u + 1) r2 else EANoMem m
        | _ => EABad m r
        end
      else EAStop m u r
  end.
Definition ParseAndAllocCStringEscapable (cs : charset) (a : arena) (r : bytes) : ares :=
  let u := aused a + 2 in
  if cap a <=? u then AFail a r else
  match escLoopA cs (cap a) (mem a) u r with
  | EAPanic => APanic
  | EANoMem m => AFail (setMem a m) r
  | EABad m r' => AFail (setMem a m) r'
  | EAStop m u' r' =>
      if Nat.eqb (List.length r') (List.length r) then AFail (setMem a m) r
      else if cap a <=? u' then AFail (setMem a m) r
      else finish (setMem a m) (aused a) u' r'
  end.
(** AbnfMem.go:456-554 (ParseAndAllocCStringEscapableEnableEmpty). *)
Definition ParseAndAllocCStringEscapableEnableEmpty (cs : charset) (a : arena) (r : bytes) : ares :=
  let u := aused a + 2 in
  if cap a <=? u then AFail a r else
  match escLoopA cs (cap a) (mem a) u r with
  | EAPanic => APanic
  | EANoMem m => AFail (setMem a m) r
  | EABad m r' => AFail (setMem a m) r'
  | EAStop m u' r' =>
      if cap a <=? u' then AFail (setMem a m) r else finish (setMem a m) (aused a) u' r'
  end.

(** AbnfMem.go:641-693 (ParseAndCopyLWS): writes memory from [u]; result (memory, used, suffix, ok), [None] = index panic. *)
Definition ParseAndCopyLWS (cap : N) (m : N -> N) (u : N) (r : bytes) : option ((N -> N) * N * bytes * bool) :=
  match runLoop WSP_CHAR cap m u r with
  | None => None
  | Some (m1, u1, r1) =>
      match r1 with
      | x :: y :: r2 =>
          if (x =? 13) && (y =? 10) then
            match writeBytes cap m1 u1 [x; x] with
            | None => None
            | Some (m2, u2) =>
                match r2 with
                | [] => Some (m2, u2, r2, false)
                | z :: _ =>
                    if negb (isWsp z) then Some (m2, u2, r2, false)
                    else match runLoop WSP_CHAR cap m2 u2 r2 with
                         | None => None
                         | Some (m3, u3, r3) => Some (m3, u3, r3, true)
                         end
                end
            end
          else Some (m1, u1, r1, true)
      | _ => Some (m1, u1, r1, true)
      end
  end.
Inductive qA := QAOk (m : N -> N) (u : N) (r : bytes) | QAFail (m : N -> N) (U : N) (r : bytes) | QAPanic | QALoop.
(** Loop of AbnfMem.go:566-639 (ParseAndAllocSipQuotedString). *)
Fixpoint qLoopA (fuel : nat) (cap : N) (m : N -> N) (u U : N) (r : bytes) : qA :=
  match fuel with
  | O => QALoop
  | S f =>
    match r with
    | [] => QAFail m U []
    | v :: r1 =>
        if v =? 34 then QAOk m u r1
        else if IsLwsChar v then
          match ParseAndCopyLWS cap m u r with
          | None => QAPanic
          | Some (m', u', r', true) => qLoopA f cap m' u' u' r'
          | Some (m', u', r', false) => QAFail m' u' r'
          end
        else if IsSipQuotedText v then
          match writeBytes cap m u [v] with
          | None => QAPanic
          | Some (m', u') => qLoopA f cap m' u' U r1
          end
        else if v =? 92 then
          match r1 with
          | [] => QAFail m U r
          | x :: r2 => match writeBytes cap m u [v; x] with
                       | None => QAPanic
                       | Some (m', u') => qLoopA f cap m' u' U r2
                       end
          end
        else QAFail m U r
    end
  end.
Definition setUsed (a : arena) (u : N) : arena :=
  mkA (mem a) (cap a) u (allocNum a) (allocNumOk a) (freeAllNum a) (freePartNum a) (allocReqBytes a).
Definition ParseAndAllocSipQuotedString (a : arena) (r : bytes) : ares :=
  match ParseSWS r with
  | [] => APanic
  | x :: r1 =>
      if negb (x =? 34) then AFail a (x :: r1) else
      match qLoopA (S (List.length r1)) (cap a) (mem a) (aused a + 2) (aused a) r1 with
      | QALoop => ALoop
      | QAPanic => APanic
      | QAFail m U r' => AFail (setUsed (setMem a m) U) r'
      | QAOk m u r' => finish (setMem a m) (aused a) u r'
      end
  end.

(** AbnfBasic.go:72-93 (AllocCString): [Alloc(len+2)], [copy(mem[addr+2:], buf)], length prefix; [addr] is uint16. *)
Definition AllocCString (b : bytes) (a : arena) : ares :=
  let '(p, a') := Alloc (u32 (len b + 2)) a in
  if p =? NILPTR then AFail a' [] else
  match writeBytes (cap a') (mem a') (u16 (p + 2)) b with
  | None => APanic              (* [copy] itself truncates; unreachable when the allocation succeeded *)
  | Some (m, _) =>
      match putUint16 (setMem a' m) p (len b) with
      | None => APanic
      | Some m' => AOk (u16 (p + 2)) (setMem a' m') []
      end
  end.

(** AbnfPtr.go:77-91 (RemoveTelUriVisualSeperator): read/write indices over [p, p+n). *)
Fixpoint visLoop (m : N -> N) (rd wr : N) (n : nat) : (N -> N) * N :=
  match n with
  | O => (m, wr)
  | S n' => if negb (IsTelVisualSperator (m rd)) then visLoop (upd m wr (m rd)) (rd + 1) (wr + 1) n'
            else visLoop m (rd + 1) wr n'
  end.
Definition RemoveTelUriVisualSeperator (p : N) (a : arena) : option arena :=
  match Strlen a p with
  | None => None
  | Some n => let '(m, wr) := visLoop (mem a) p p (N.to_nat n) in
              match putUint16 (setMem a m) (p - 2) (wr - p) with
              | None => None
              | Some m' => Some (setMem a m')
              end
  end.
