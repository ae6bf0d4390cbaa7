(** AbnfRef.go and the two-step string parses of AbnfBasic.go: first delimit a slice of the input, then copy
    (and unescape) it into the arena. As everywhere, a parser is given the unread suffix [src[pos:]]; a reference
    [Begin,End) is the slice itself. *)
From Verif Require Import Base Charset Lws Num Str Arena.

(** AbnfRef.go:15-17 (Len). *)
Definition refLen (tok : bytes) : N := len tok.

(** AbnfRef.go:19-38 (Parse): the slice and what follows it. *)
Definition refParse (cs : charset) (r : bytes) : bytes * bytes :=
  match r with
  | [] => ([], r)
  | x :: r1 => if negb (inset cs x) then ([], r)
               else let '(a, b) := span (inset cs) r1 in (x :: a, b)
  end.

(** Outcome of the escapable scans: number of escapes, slice and suffix; or the number of escapes before
    the malformed one and the suffix at it ([End] is then not set). *)
Inductive refOut :=
| RStop (n : N) (run r : bytes)
| RBad (n : N) (r : bytes)
| RPanic.
Definition refCons (x : bytes) (o : refOut) : refOut :=
  match o with RStop n run r => RStop n (x ++ run) r | _ => o end.

(** AbnfRef.go:40-77 (ParseEscapable); [n] is escapeNum. *)
Fixpoint refEscapable (cs : charset) (n : N) (r : bytes) : refOut :=
  match r with
  | [] => RStop n [] []
  | v :: r1 =>
      if negb (inset cs v) then
        if v =? 37 then
          match r1 with
          | v1 :: v2 :: r2 =>
              if negb (IsHex v1) || negb (IsHex v2) then RBad n r
              else refCons [v; v1; v2] (refEscapable cs (n + 1) r2)
          | _ => RBad n r
          end
        else RStop n [] r
      else refCons [v] (refEscapable cs n r1)
  end.

(** AbnfRef.go:79-153 (ParseEscapable3): the same loops over raw pointers; [&src[pos]] panics at the end of the input. *)
Fixpoint refEscapable3Loop (cs : charset) (n : N) (r : bytes) : refOut :=
  match r with
  | [] => RStop n [] []
  | v :: r1 =>
      if inset cs v then refCons [v] (refEscapable3Loop cs n r1)
      else if negb (v =? 37) then RStop n [] r
      else match r1 with
           | v1 :: v2 :: r2 =>
               if IsHex v1 && IsHex v2 then refCons [v; v1; v2] (refEscapable3Loop cs (n + 1) r2) else RBad n r
           | _ => RBad n r
           end
  end.
Definition refEscapable3 (cs : charset) (r : bytes) : refOut :=
  match r with [] => RPanic | _ => refEscapable3Loop cs 0 r end.

(** AbnfRef.go:153-185 (ParseEscapable2): a first loop up to the first "%" outside the class, then a loop that tests
    for "%" before the class. *)
Fixpoint refEscapable2b (cs : charset) (n : N) (r : bytes) : refOut :=
  match r with
  | [] => RStop n [] []
  | v :: r1 =>
      if v =? 37 then
        match r1 with
        | v1 :: v2 :: r2 =>
            if negb (IsHex v1) || negb (IsHex v2) then RBad n r
            else refCons [v; v1; v2] (refEscapable2b cs (n + 1) r2)
        | _ => RBad n r
        end
      else if negb (inset cs v) then RStop n [] r
      else refCons [v] (refEscapable2b cs n r1)
  end.
Fixpoint refEscapable2 (cs : charset) (r : bytes) : refOut :=
  match r with
  | [] => RStop 0 [] []
  | v :: r1 =>
      if negb (inset cs v) then
        if v =? 37 then refEscapable2b cs 0 r else RStop 0 [] r
      else refCons [v] (refEscapable2 cs r1)
  end.

(** The copying loops of AbnfBasic.go:114-157 (AllocCStringWithUnescapeNum): [j] is the next index of [dest], whose
    length is [size]; a "%" that does not start an escape is copied. [None] = index out of range. A negative
    length (more escapes announced than fit) never fails the unsigned bounds check: [size = None].
    The loop of AbnfBasic.go:159-202 (AllocCStringWithUnescapeNum2) is the same one without bounds checks. *)
Fixpoint unescLoop (size : option N) (m : N -> N) (dst j : N) (b : bytes) : option ((N -> N) * N) :=
  match b with
  | [] => Some (m, j)
  | v :: b1 =>
      if (match size with Some k => j <? k | None => true end) then
        if negb (v =? 37) then unescLoop size (upd m (dst + j) v) dst (j + 1) b1
        else match b1 with
             | v1 :: v2 :: b2 =>
                 if IsHex v1 && IsHex v2 then unescLoop size (upd m (dst + j) (unescapeToByte v1 v2)) dst (j + 1) b2
                 else unescLoop size (upd m (dst + j) v) dst (j + 1) b1
             | _ => unescLoop size (upd m (dst + j) v) dst (j + 1) b1
             end
      else None
  end.

(** [uint32(len1 - 2*escapeNum + k)]. *)
Definition unescSize (l n k : N) : N := Z.to_N ((Z.of_N l - 2 * Z.of_N n + Z.of_N k) mod 4294967296)%Z.

(** AbnfBasic.go:114-157 (AllocCStringWithUnescapeNum). *)
Definition AllocCStringWithUnescapeNum (b : bytes) (n : N) (a : arena) : ares :=
  if n =? 0 then AllocCString b a else
  let '(p, a') := Alloc (unescSize (len b) n 2) a in
  if p =? NILPTR then AFail a' [] else
  if cap a' <=? u16 (p + 2) then APanic else       (* &mem[addr+2] *)
  let size := if len b <? 2 * n then None else Some (len b - 2 * n) in
  match unescLoop size (mem a') (u16 (p + 2)) 0 b with
  | None => APanic
  | Some (m, j) =>
      match putUint16 (setMem a' m) p j with
      | None => APanic
      | Some m' => AOk (u16 (p + 2)) (setMem a' m') []
      end
  end.

(** AbnfBasic.go:159-202 (AllocCStringWithUnescapeNum2): no room for the length prefix, and none is written. *)
Definition AllocCStringWithUnescapeNum2 (b : bytes) (n : N) (a : arena) : ares :=
  if n =? 0 then AllocCString b a else
  let '(p, a') := Alloc (unescSize (len b) n 0) a in
  if p =? NILPTR then AFail a' [] else
  match b with
  | [] => APanic                                   (* &buf[0] *)
  | _ =>
    if cap a' <=? p then APanic else               (* &mem[addr] *)
    match unescLoop None (mem a') p 0 b with
    | None => APanic
    | Some (m, _) => AOk p (setMem a' m) []
    end
  end.

(** AbnfBasic.go:204-210 (AllocCStringWithUnescape); bytes.IndexByte is external. *)
Definition AllocCStringWithUnescape (b : bytes) (a : arena) : ares :=
  if negb (existsb (fun x => x =? 37) b) then AllocCString b a
  else AllocCStringWithUnescapeNum b (len b) a.

(** The rest of the input after a two-step parse (AllocCString* do not touch the input). *)
Definition withRest (r : bytes) (x : ares) : ares :=
  match x with AOk p a _ => AOk p a r | AFail a _ => AFail a r | _ => x end.

(** AbnfBasic.go:13-32 (ParseEscapable2). *)
Definition ParseEscapable2 (cs : charset) (a : arena) (r : bytes) : ares :=
  match refEscapable cs 0 r with
  | RPanic => APanic
  | RBad _ r' => AFail a r'
  | RStop n run r' =>
      if refLen run =? 0 then AFail a r'
      else withRest r' (AllocCStringWithUnescapeNum run n a)
  end.
(** AbnfBasic.go:34-43 (ParseEscapable). *)
Definition ParseEscapable (cs : charset) (a : arena) (r : bytes) : ares := ParseAndAllocCStringEscapable cs a r.
(** AbnfBasic.go:45-59 (ParseEscapableEnableEmpty2). *)
Definition ParseEscapableEnableEmpty2 (cs : charset) (a : arena) (r : bytes) : ares :=
  match refEscapable cs 0 r with
  | RPanic => APanic
  | RBad _ r' => AFail a r'
  | RStop n run r' => withRest r' (AllocCStringWithUnescapeNum run n a)
  end.
(** AbnfBasic.go:61-70 (ParseEscapableEnableEmpty). *)
Definition ParseEscapableEnableEmpty (cs : charset) (a : arena) (r : bytes) : ares :=
  ParseAndAllocCStringEscapableEnableEmpty cs a r.

(** AbnfRef.go:187-200 (ParseAndAllocSipToken): the second component is [ok]; the pointer is nil ([None]) when the
    allocation fails, and [ok] is then still true. The class is SIP_USER. *)
Definition ParseAndAllocSipToken (a : arena) (r : bytes) : option (N * bool * arena * bytes) :=
  let '(tok, r') := refParse SIP_USER r in
  if refLen tok =? 0 then Some (NILPTR, false, a, r')
  else match AllocCString tok a with
       | AOk p a' _ => Some (p, true, a', r')
       | AFail a' _ => Some (NILPTR, true, a', r')
       | _ => None
       end.
(** AbnfRef.go:202-204 (ParseAndAllocSipToken2). *)
Definition ParseAndAllocSipToken2 (a : arena) (r : bytes) : ares := ParseAndAllocCString SIP_USER a r.
