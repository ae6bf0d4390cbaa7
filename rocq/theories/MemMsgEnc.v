(** SipMsg.Encode, SipMsgBody.Encode and EncodeRawHeaders on the arena. These methods write to the arena too. *)
From Verif Require Import Base Charset Num Lws Str Monad MethodTree HeaderTree Lookup Host Uri Tel GenParam Addr StartLine Headers RawHeaders Msg Arena Layout Mem MemUri MemEnc MemTel MemGen MemAddr MemStart MemHdr MemBlocks MemMsg.

(** An Encode method: the arena and the buffer, the result (false: [EFail]). *)
Inductive eres (X : Type) := EOk (x : X) (a : arena) (b : bytes) | EFail (a : arena) (b : bytes) | EPanic | ELoop.
Arguments EOk {X} x a b.
Arguments EFail {X} a b.
Arguments EPanic {X}.
Arguments ELoop {X}.
Definition E (X : Type) := env -> arena -> bytes -> eres X.
Definition eret {X} (x : X) : E X := fun _ a b => EOk x a b.
Definition ebind {X Y} (m : E X) (f : X -> E Y) : E Y := fun e a b =>
  match m e a b with EOk x a' b' => f x e a' b' | EFail a' b' => EFail a' b' | EPanic => EPanic | ELoop => ELoop end.
Notation "x <== m ;; f" := (ebind m (fun x => f)) (at level 100, m at next level, right associativity).
Notation "m ;= f" := (ebind m (fun _ => f)) (at level 100, right associativity).
(** An encoder that only reads the arena. *)
Definition ePut (f : Enc) : E unit := fun e a b => match f e a with WOk t => EOk tt a (b ++ t) | WPanic => EPanic | WLoop => ELoop end.
Definition eText (t : bytes) : E unit := ePut (eOut t).
(** Operations on the arena. *)
Definition eMemory {X} (m : M X) : E X := fun e a b =>
  match m e a [] with MOk x a' _ => EOk x a' b | MFail a' _ => EFail a' b | MPanic => EPanic | MLoop => ELoop end.
(** [len(buf.Bytes())]. *)
Definition eBuf : E bytes := fun _ a b => EOk b a b.

(** One round of SipHeaders.go:120-141 (EncodeRawHeaders). *)
Definition mEncRaw (p : N) : Enc := eMem (fun m =>
  (match (if g16 m p =? SIP_HDR_UNKNOWN then None else infoOf (g16 m p)) with
   | Some x => eOut (hiName x)
   | None => eCStr (g16 m (p + 2))
   end) +++ eOut (s2b ": ") +++
  (let v := g16 m (p + 4) in if negb (v =? NILPTR) then eCStr v else eOut []) +++ eOut CRLF).
(** SipHeaders.go:120-141 (EncodeRawHeaders). *)
Definition mEncRawHeaders (p : N) : Enc := eList 6 mEncRaw [] p.

(** SipHeaderContentLength.go:38-42 (SipHeaderContentLength.EncodeValue). *)
Definition mEncLength (p : N) : E unit :=
  ePut (eDeref p (mEncHVal KContentLength p)) ;= b <== eBuf ;; eMemory (set32 (p + 4) (len b mod two32)).
(** EncodeFunc of a table entry with [AllowMulti] false. *)
Definition mEncOne (k : hkind) (p : N) : E unit := match k with KContentLength => mEncLength p | _ => ePut (eDeref p (mEncHVal k p)) end.
(** One round of the loop of SipMsg.go:161-186 (SipMsg.EncodeHeaders), SipMsgBody.go:98-123 (SipMsgBody.EncodeHeaders). A table entry has EncodeFunc. *)
Definition mEncSlot (o : owner) (this : N) (s : nat) : E unit :=
  v <== eMemory (get16 (slotAt o this s)) ;;
  if v =? NILPTR then eret tt else
  let info := slotInfo (nth s (slotIndexes o) 0) in
  eText (hiName info) ;= eText (s2b ": ") ;=
  (match hiKind info with
   | None => ePut ePanic
   | Some k => if hiMulti info then ePut (eList (nextOff k) (mEncHVal k) (s2b ", ") v) else mEncOne k v
   end) ;=
  eText CRLF.
Fixpoint mEncSlots (o : owner) (this : N) (ss : list nat) : E unit :=
  match ss with [] => eret tt | s :: ss' => mEncSlot o this s ;= mEncSlots o this ss' end.
(** SipMsg.go:161-186 (SipMsg.EncodeHeaders), SipMsgBody.go:98-123 (SipMsgBody.EncodeHeaders). *)
Definition mEncHdrs (o : owner) (this : N) : E unit :=
  mEncSlots o this (seq 1 (slotsNum o - 1)) ;=
  h <== eMemory (get16 (this + rawOff o)) ;; if h =? NILPTR then eret tt else ePut (mEncRawHeaders h).

(** SipMsgBody.go:87-96 (SipMsgBody.Encode). *)
Definition mStrlen (p : N) : M N := fun _ a r => match Strlen a p with None => MPanic | Some n => MOk n a r end.
Definition mEncBody (this : N) : E unit :=
  p <== eMemory (get16 (slotAt OBody this 1)) ;;
  (if p =? NILPTR then eret tt else eMemory (deref p ;~ d <~ get16 (this + 4) ;; n <~ mStrlen d ;; set32 p (n mod two32))) ;=
  mEncHdrs OBody this ;= eText CRLF ;=
  d <== eMemory (get16 (this + 4)) ;; ePut (eCStr d).

(** The entries of the array commonBodies. *)
Definition commonBodies (this : N) : list N := [this + 58; this + 60; this + 62].
(** SipMsg.go:345-356 (SipMsg.EncodeSingleMsgBody). *)
Fixpoint mEncSingle (this : N) (cs : list N) : E unit :=
  match cs with
  | [] => p <== eMemory (get16 (this + 66)) ;; if p =? NILPTR then eret tt else d <== eMemory (deref p ;~ get16 (p + 4)) ;; ePut (eCStr d)
  | c :: cs' => v <== eMemory (get16 c) ;; if v =? NILPTR then mEncSingle this cs' else d <== eMemory (deref v ;~ get16 (v + 4)) ;; ePut (eCStr d)
  end.
(** SipMsg.go:358-387 (SipMsg.EncodeMultiMsgBody): one part; the loops; the whole. The fuel is more than the number of addresses. *)
Definition mEncPart (bd : bytes) (p : N) : E unit :=
  eText (s2b "--") ;= eText bd ;= eText CRLF ;= eMemory (deref p) ;= mEncBody p ;= eText CRLF.
Fixpoint mEncParts (bd : bytes) (fuel : nat) (p : N) : E unit :=
  match fuel with
  | O => fun _ _ _ => ELoop
  | S f => if p =? NILPTR then eret tt else mEncPart bd p ;= n <== eMemory (deref p ;~ get16 (p + 8)) ;; mEncParts bd f n
  end.
Fixpoint mEncCommon (bd : bytes) (cs : list N) : E unit :=
  match cs with [] => eret tt | c :: cs' => v <== eMemory (get16 c) ;; (if v =? NILPTR then eret tt else mEncPart bd v) ;= mEncCommon bd cs' end.
Definition mEncMulti (this : N) (bd : bytes) : E unit :=
  mEncCommon bd (commonBodies this) ;=
  p <== eMemory (get16 (this + 66)) ;; (fun e a b => mEncParts bd (S (N.to_nat (cap a))) p e a b) ;=
  eText (s2b "--") ;= eText bd ;= eText (s2b "--").
(** SipMsg.go:389-409 (SipMsg.HasMultiBody): the two loops, counting. *)
Fixpoint mCountBodies (count : nat) (fuel : nat) (p : N) : M bool :=
  match fuel with
  | O => fun _ _ _ => MLoop
  | S f => if p =? NILPTR then mret false else if Nat.ltb 1 (S count) then mret true else deref p ;~ n <~ get16 (p + 8) ;; mCountBodies (S count) f n
  end.
Fixpoint mHasMulti (this : N) (count : nat) (cs : list N) : M bool :=
  match cs with
  | [] => p <~ get16 (this + 66) ;; (fun e a r => mCountBodies count (S (N.to_nat (cap a))) p e a r)
  | c :: cs' => v <~ get16 c ;; let n := if v =? NILPTR then count else S count in if Nat.ltb 1 n then mret true else mHasMulti this n cs'
  end.
(** SipMsg.go:293-309 (SipMsg.GetHeaderByIndex) compared with NIL. *)
Fixpoint mFindCommon (this : N) (i : N) (ss : list nat) : M bool :=
  match ss with
  | [] => mret false
  | s :: ss' => v <~ get16 (slotAt OMsg this s) ;; if negb (v =? NILPTR) && (nth s (slotIndexes OMsg) 0 =? i) then mret true else mFindCommon this i ss'
  end.
Fixpoint mFindRaw (i : N) (fuel : nat) (p : N) : M bool :=
  match fuel with
  | O => fun _ _ _ => MLoop
  | S f => if p =? NILPTR then mret false else deref p ;~ j <~ get16 p ;; if j =? i then mret true else n <~ get16 (p + 6) ;; mFindRaw i f n
  end.
Definition mHasHeader (this i : N) : M bool :=
  c <~ mFindCommon this i (seq 0 19) ;; if c : bool then mret true else p <~ get16 (this + 64) ;; (fun e a r => mFindRaw i (S (N.to_nat (cap a))) p e a r).
(** SipMsg.go:256-291 (SipMsg.FindOrCreateBoundary) of a message that has a Content-Type with a boundary; the creation of one, which no message built by Parse needs
    (see [parsed_boundary]), is left out. The slice is read when it is taken: nothing written later is in it. *)
Definition mFindBoundary (this : N) : M bytes :=
  p <~ get16 (slotAt OMsg this 10) ;;
  if p =? NILPTR then mfail else
  deref p ;~ q <~ mBoundaryParam p ;;
  if q =? NILPTR then mfail else
  deref q ;~ v <~ get16 (q + 2) ;; if v =? NILPTR then mfail else mReadStr v.
(** [copy(buf.Bytes()[end-len(d):end], d)]: the slice expression panics if the bounds are wrong. *)
Definition ePatch (endPos : N) (d : bytes) : E unit := fun _ a b =>
  if (len d <=? endPos) && (endPos <=? len b) then EOk tt a (patch b (N.to_nat endPos) d) else EPanic.
(** SipMsg.go:194-254 (SipMsg.Encode). *)
Definition mEncMsg (this : N) : E unit :=
  multi <== eMemory (mHasMulti this 0 (commonBodies this)) ;;
  p <== eMemory (get16 (slotAt OMsg this 7)) ;;
  (if p =? NILPTR then eMemory (c <~ mNew 8 ;; set16 (slotAt OMsg this 7) c) else eret tt) ;=
  ePut (mEncStartLine this) ;=
  bd <== (if multi : bool then eMemory (mFindBoundary this) else eret []) ;;
  mEncHdrs OMsg this ;=
  (if multi then h <== eMemory (mHasHeader this SIP_HDR_MIME_VERSION) ;; if h : bool then eret tt else eText (s2b "MIME-Version: 1.0" ++ CRLF) else eret tt) ;=
  eText CRLF ;=
  bs <== eMemory (get16 (this + 66)) ;;
  if bs =? NILPTR then eret tt else
  b0 <== eBuf ;;
  (if negb multi then mEncSingle this (commonBodies this) else mEncMulti this bd) ;=
  b1 <== eBuf ;;
  c <== eMemory (get16 (slotAt OMsg this 7)) ;;
  n <== eMemory (deref c ;~ get32 (c + 4)) ;;
  ePatch n (encUInt (len b1 - len b0)).
