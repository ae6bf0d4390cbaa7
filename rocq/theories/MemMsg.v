(** SipHeaders.go, SipMsg.go and SipMsgBody.go on the arena. SipHeader: id +0, hname +2, hvalue +4, next +6; 8 bytes. SipMsg: startLine +0, commonHeaders +20 (19 pointers),
    commonBodies +58 (3 pointers), headers +64, bodies +66; 68 bytes. SipMsgBody: id +0 (4 bytes), body +4, headers +6, next +8, commonHeaders +10 (3 pointers); 16 bytes. *)
From Verif Require Import Base Charset Num Lws Str Monad MethodTree HeaderTree Lookup Host Uri Tel GenParam Addr StartLine Headers RawHeaders Msg Arena Layout Mem MemUri MemEnc MemTel MemGen MemAddr MemStart MemHdr MemBlocks.

(** The offset of the array commonHeaders, its number of entries, the offset of the field [headers]. *)
Definition slotsOff (o : owner) : N := match o with OMsg => 20 | OBody => 10 end.
Definition slotsNum (o : owner) : nat := match o with OMsg => 19%nat | OBody => 3%nat end.
Definition rawOff (o : owner) : N := match o with OMsg => 64 | OBody => 6 end.
(** [&this.commonHeaders[s]]. *)
Definition slotAt (o : owner) (this : N) (s : nat) : N := this + slotsOff o + 2 * N.of_nat s.

(** SipHeaders.go:173-196 (ParseHeaderName): hname and headerIndex. *)
Definition mHeaderName : M (N * N) := mOnRest (fun r => match GetSipHeaderIndex r with
  | None => mpanic
  | Some (i, mid) =>
      n <~ (if i =? SIP_HDR_UNKNOWN then mStr (ParseAndAllocCStringFromPos mid SIP_TOKEN) else mGoto mid ;~ mret NILPTR) ;;
      mPos pHcolon ;~ mret (n, i)
  end).
(** SipHeaders.go:300-313 (parseRawHeaderValue). *)
Definition mRawValue : M N := mOnRest (fun r => match FindCrlf r with
  | None => mGoto [] ;~ mfail
  | Some (v, r') => mGoto r' ;~ mCString v
  end).
(** SipHeaders.go:283-298 (parseRawHeaderEx). *)
Definition mRawEx (n i : N) : M N := p <~ mNew 8 ;; set16 p i ;~ set16 (p + 2) n ;~ mInto (p + 4) mRawValue ;~ mret p.
(** The last part of SipHeaders.go:198-259 (parseKnownHeader), before SetHeaders. *)
Definition mKnownRaw (i : N) : M N := p <~ mNew 8 ;; set16 p i ;~ mInto (p + 4) mRawValue ;~ mret p.
(** SipHeaders.go:261-281 (parseUnknownHeader), before SetHeaders. *)
Definition mUnknownRaw (n : N) : M N := p <~ mNew 8 ;; set16 p SIP_HDR_UNKNOWN ;~ set16 (p + 2) n ;~ mInto (p + 4) mRawValue ;~ mret p.

(** The first branch of SipMsg.go:133-159 (SipMsg.SetHeaders), SipMsgBody.go:61-85 (SipMsgBody.SetHeaders): a parsed header [h] of the type [k]. The answer of AppendFunc
    is not looked at. *)
Definition mSetCommon (o : owner) (i : N) (multi : bool) (k : hkind) (this h : N) : M unit :=
  let f := slotAt o this (slotOf o i) in
  if multi then c <~ get16 f ;; if c =? NILPTR then set16 f h else mAppendTo (nextOff k) c h ;~ mret tt
  else set16 f h.
(** The second branch: a raw header. *)
Definition mAddRaw (o : owner) (this h : N) : M unit :=
  c <~ get16 (this + rawOff o) ;;
  if c =? NILPTR then set16 (this + rawOff o) h
  else ok <~ mAppendTo 6 c h ;; if ok : bool then mret tt else mfail.

(** One round of the loop over the values in SipHeaders.go:198-259 (parseKnownHeader): the state is the local [header]. *)
Definition mMultiBody (o : owner) (i : N) (k : hkind) (this h : N) : M (N + unit) := mOnRest (fun r => match r with
  | [] => mSetCommon o i true k this h ;~ mret (inr tt)
  | _ :: r1 =>
      mSetCommon o i true k this h ;~
      if IsOnlyCRLF r then mGoto (tl r1) ;~ mret (inr tt)
      else match ParseSWSMarkCanOmmit 44 r with
           | (r', true, true) => mGoto r' ;~ h' <~ mSipX k ;; mret (inl h')
           | _ => mPos pCRLF ;~ mret (inr tt)
           end
  end).
(** SipHeaders.go:198-259 (parseKnownHeader) and SipHeaders.go:261-281 (parseUnknownHeader). *)
Definition mOneHeader (o : owner) (this n i : N) : M unit := mWithEnv (fun e =>
  match needParse o e i with
  | Some (k, multi) =>
      h <~ mSipX k ;;
      if multi : bool then loopM (mMultiBody o i k this) h
      else mPos pCRLF ;~ mSetCommon o i false k this h
  | None => h <~ (if i =? SIP_HDR_UNKNOWN then mUnknownRaw n else mKnownRaw i) ;; mAddRaw o this h
  end).
(** One round of the loops of SipHeaders.go:51-82 (ParseHeaders) and SipHeaders.go:84-118 (ParseRawHeaders). *)
Definition mHeadersBody {X} (hdr : X -> N -> N -> M X) (x : X) : M (X + X) := mOnRest (fun r => match r with
  | [] => mret (inr x)
  | _ :: r1 =>
      if IsCRLF r then mGoto (tl r1) ;~ mret (inr x)
      else ni <~ mHeaderName ;; x' <~ hdr x (fst ni) (snd ni) ;; mret (inl x')
  end).
(** SipHeaders.go:51-82 (ParseHeaders). *)
Definition mParseHeaders (o : owner) (this : N) : M unit := loopM (mHeadersBody (fun _ n i => mOneHeader o this n i)) tt.
(** SipHeaders.go:84-118 (ParseRawHeaders): the state is the locals [headers] and [prev]. *)
Definition mParseRawHeaders : M N :=
  hp <~ loopM (mHeadersBody (fun hp n i => h <~ mRawEx n i ;; mAppend 6 hp h)) (NILPTR, NILPTR) ;; mret (fst hp).

(** AbnfPtr.go:212-219 (AbnfPtr.GetCStringAsByteSlice). *)
Definition mReadStr (p : N) : M bytes := fun _ a r => match readCString a p with None => MPanic | Some b => MOk b a r end.
(** [AllocCString(context, b)] without a test of the result: NIL if it failed. *)
Definition mCStringX (b : bytes) : M N := fun e a r => match mCString b e a r with MFail a' r' => MOk NILPTR a' r' | x => x end.

(** SipMsg.go:465-499 (SipMsg.ParseSingleBody). *)
Definition mSingleBody (this : N) : M unit := mOnRest (fun r =>
  p <~ get16 (slotAt OMsg this 7) ;;
  size <~ (if negb (p =? NILPTR) then deref p ;~ n <~ get32 p ;; mret (N.min n (len r)) else mret 0) ;;
  if size =? 0 then mret tt else
  addr <~ mNew 16 ;;
  d <~ mCString (firstn (N.to_nat size) r) ;;
  deref addr ;~ set16 (addr + 4) d ;~ set16 (this + 66) addr).
(** One round of the loop of SipMsg.go:652-724 (SipMsg.ParseMultiBody): the state is the local [prevBody]. *)
Definition mMultipart (this : N) (delimiter : bytes) (prev : N) : M (N + unit) := mOnRest (fun r => match r with
  | [] => mfail
  | [_] => mfail
  | x :: y :: r2 =>
      if (x =? 45) || (y =? 45) then mGoto r2 ;~ mret (inr tt)
      else match FindCrlf r with
           | None => mGoto [] ;~ mfail
           | Some (_, r1) =>
               mGoto r1 ;~
               addr <~ mNew 16 ;;
               mParseHeaders OBody addr ;~
               mOnRest (fun r3 => match splitAt delimiter r3 with
                 | None => mfail
                 | Some (d, r4) =>
                     q <~ mCStringX d ;;
                     set16 (addr + 4) q ;~
                     (if prev =? NILPTR then set16 (this + 66) addr else set16 (prev + 8) addr) ;~
                     mGoto r4 ;~ mret (inl addr)
                 end)
           end
  end).
(** SipMsg.go:652-724 (SipMsg.ParseMultiBody). *)
Definition mMultiMsgBody (this boundary : N) : M unit :=
  b <~ mReadStr boundary ;;
  mOnRest (fun r => match stripPrefix (45 :: 45 :: b) r with
    | None => mfail
    | Some r' => mGoto r' ;~ loopM (mMultipart this (13 :: 10 :: 45 :: 45 :: b)) NILPTR
    end).
(** SipHeaderContentType.go:189-196 (SipHeaderContentType.GetKnownParam) for the boundary. *)
Definition mBoundaryParam (this : N) : M N :=
  t <~ get16 (this + knownOff KContentType) ;; if t =? NILPTR then mret NILPTR else deref t ;~ get16 t.
(** SipMsg.go:441-463 (SipMsg.ParseMsgBody). *)
Definition mMsgBody (this : N) : M unit :=
  p <~ get16 (slotAt OMsg this 10) ;;
  if p =? NILPTR then mret tt else
  deref p ;~
  mt <~ get16 p ;;
  multi <~ mEqualNoCase mt (s2b "multipart") ;;
  if multi : bool then
    q <~ mBoundaryParam p ;;
    if q =? NILPTR then mfail else deref q ;~ v <~ get16 (q + 2) ;; mMultiMsgBody this v
  else mSingleBody this.
(** SipMsg.go:411-439 (SipMsg.Parse). *)
Definition mMsgParse (this : N) : M unit :=
  mInit this 68 ;~ mStartLineParse this ;~
  mOnRest (fun r => match r with [] => mfail | _ => mParseHeaders OMsg this ;~ mMsgBody this end).
