(** Histories of arena operations. *)
From Verif Require Import Base Charset BaseLemmas Lws Str Num Arena.

Inductive op :=
| OAlloc (n : N)                  (* Alloc(n) *)
| OAllocClear (n : N)             (* AllocWithClear(n) *)
| OAllocEx (n : N)                (* AllocEx(n) *)
| OString (b : bytes)             (* AllocCString(b) *)
| OToken (cs : charset) (r : bytes)       (* ParseAndAllocCString on unread input r *)
| OTokenEmpty (cs : charset) (r : bytes)
| OEscapable (cs : charset) (r : bytes)
| OEscapableEmpty (cs : charset) (r : bytes)
| OTel (cs : charset) (r : bytes)
| OQuoted (r : bytes)
| OFreeAll
| OFreePart (n : N)
| OClearNum.

(** The arena, the blocks handed out and not freed (start, size), and the strings stored and not freed (pointer, bytes the
    caller is entitled to read there). *)
Record hist := mkH { ar : arena; live : list (N * N); strs : list (N * bytes) }.

(** The value layer says which bytes a successful string parse denotes. *)
Definition tokOf (p : P bytes) (a : arena) (r : bytes) : bytes :=
  match p (defaultEnv (Some (cap a))) (mkst r (aused a)) with Ok t _ => t | _ => [] end.

Definition strStep (res : ares) (tok : bytes) (h : hist) : option hist :=
  match res with
  | AOk p a' _ => Some (mkH a' ((p - 2, len tok + 2) :: live h) ((p, tok) :: strs h))
  | AFail a' _ => Some (mkH a' (live h) (strs h))
  | APanic => None
  | ALoop => None
  end.
Definition blkStep (pa : N * arena) (n : N) (h : hist) : hist :=
  mkH (snd pa) (if fst pa =? NILPTR then live h else (fst pa, n) :: live h) (strs h).

Definition step (h : hist) (o : op) : option hist :=
  let a := ar h in
  match o with
  | OAlloc n => Some (blkStep (Alloc n a) n h)
  | OAllocClear n => Some (blkStep (AllocWithClear n a) n h)
  | OAllocEx n => let '(p, k, a') := AllocEx n a in Some (blkStep (p, a') k h)
  | OString b => strStep (AllocCString b a) b h
  | OToken cs r => strStep (ParseAndAllocCString cs a r) (tokOf (paCString cs) a r) h
  | OTokenEmpty cs r => strStep (ParseAndAllocCStringEnableEmpty cs a r) (tokOf (paCStringEmpty cs) a r) h
  | OEscapable cs r => strStep (ParseAndAllocCStringEscapable cs a r) (tokOf (paEscapable cs) a r) h
  | OEscapableEmpty cs r => strStep (ParseAndAllocCStringEscapableEnableEmpty cs a r) (tokOf (paEscapableEmpty cs) a r) h
  | OTel cs r => strStep (ParseAndAllocTelNumber cs a r) (tokOf (paTelNumber cs) a r) h
  | OQuoted r => strStep (ParseAndAllocSipQuotedString a r) (tokOf paQuoted a r) h
  | OFreeAll => Some (mkH (FreeAll a) [] [])
  | OFreePart n => Some (mkH (FreePart n a)
        (filter (fun b => fst b + snd b <=? n + PREFIX_LEN) (live h))
        (filter (fun b => fst b + len (snd b) <=? n + PREFIX_LEN) (strs h)))
  | OClearNum => Some (mkH (ClearAllocNum a) (live h) (strs h))
  end.

(** [None]: some operation panicked or did not terminate. *)
Fixpoint run (h : hist) (os : list op) : option hist :=
  match os with [] => Some h | o :: os' => match step h o with Some h' => run h' os' | None => None end end.

Definition initH (capacity : N) : hist := mkH (Init capacity) [] [].

(** Requests that are sane: a block size below 2^31, and FreePart with at most Used() (the documented
    "bytes to keep"). *)
Definition saneOp (h : hist) (o : op) : Prop :=
  match o with
  | OAlloc n | OAllocClear n | OAllocEx n => n < 2147483648
  | OString b => len b < 2147483640
  | OFreePart n => n <= Used (ar h)
  | _ => True
  end.
Fixpoint saneRun (h : hist) (os : list op) : Prop :=
  match os with
  | [] => True
  | o :: os' => saneOp h o /\ match step h o with Some h' => saneRun h' os' | None => True end
  end.

Definition disjoint (b1 b2 : N * N) : Prop := fst b1 + snd b1 <= fst b2 \/ fst b2 + snd b2 <= fst b1.
