(** The structured headers on the arena (the files SipHeaderFrom.go ... SipHeaderCallID.go); [this] is the address of the header struct, with the field offsets of
    Layout.v. *)
From Verif Require Import Base Charset Num Lws Str Monad MethodTree Lookup Host Uri Tel GenParam Addr StartLine Headers Arena Layout Mem MemUri MemEnc MemTel MemGen MemAddr MemStart.

(** The offset of the field [addr]: SipHeaderContact has isStar first. *)
Definition addrOff (k : hkind) : N := match k with KContact => 2 | _ => 0 end.
(** The offset of the field [params]; [knownParams] follows it. *)
Definition paramsOff (k : hkind) : N := match k with KContact => 12 | KContentType => 4 | KContentDisposition => 2 | _ => 10 end.
Definition knownOff (k : hkind) : N := paramsOff k + 2.

(** The offset of the field [next], the last one of SipHeaderVia, SipHeaderContact, SipHeaderRoute, SipHeaderRecordRoute, SipHeaderPath, SipHeaderServiceRoute and
    SipHeaderPAssertedIdentity; the size of the struct for the types that have no such field. *)
Definition nextOff (k : hkind) : N := match k with KVia => 14 | KContact => 16 | KRoute | KRecordRoute | KPath | KServiceRoute => 14 | KPai => 10 | _ => hvalSize k end.

(** [this.params, ok = ParseSipGenericParams(context, ';', this or nil)], e.g. SipHeaderFrom.go:111-119. The SetKnownParams of the Route family answers false
    (SipHeaderRoute.go:101-103 (SipHeaderRoute.SetKnownParams)). *)
Definition mParams (k : hkind) (this : N) : M unit := mWithEnv (fun e =>
  mInto (this + paramsOff k) (mGenParams 59 (if knownOn k e then Some (mSetKnown (knownNames k) (this + knownOff k)) else Some (fun _ _ => mret false)))).
(** EncodeSipGenericParams(context, buf, this.params, ';', this); the EncodeKnownParams of the Route family does nothing
    (SipHeaderRoute.go:97-99 (SipHeaderRoute.EncodeKnownParams)). *)
Definition mEncParams (k : hkind) (this : N) : Enc := eMem (fun m =>
  match knownNames k with
  | [] => eList 4 (fun p => eOut [59] +++ mEncGenParam p) [] (g16 m (this + paramsOff k))
  | names => mEncGenParams 59 names (g16 m (this + knownOff k)) (g16 m (this + paramsOff k))
  end).

(** SipHeaderFrom.go:104-122 (SipHeaderFrom.ParseValueWithoutInit), SipHeaderTo.go:102-120 (SipHeaderTo.ParseValueWithoutInit). *)
Definition mFromTo (k : hkind) (this : N) : M unit := mAddr false (this + addrOff k) ;~ mParams k this.
(** The general branch of SipHeaderVia.go:196-250 (SipHeaderVia.parseSentProtocol). *)
Definition mOtherProtocol (this : N) : M unit :=
  mInto this (mNew 4) ;~
  q <~ get16 this ;;
  mInto q (mStr (ParseAndAllocCString SIP_TOKEN)) ;~ mPos (pSWSMark 47) ;~
  mInto (q + 2) (mStr (ParseAndAllocCString SIP_TOKEN)) ;~ mPos (pSWSMark 47).
(** SipHeaderVia.go:196-250 (SipHeaderVia.parseSentProtocol). *)
Definition mSentProtocol (this : N) : M unit := mOnRest (fun r => match r with
  | a :: b :: c :: d :: x :: y :: z :: ((w :: _) as r7) =>
      if lc a 115 && lc b 105 && lc c 112 && (d =? 47) && (x =? 50) && (y =? 46) && (z =? 48) && negb (IsDigit w)
      then mGoto r7 ;~ mPos (pSWSMark 47) ;~ set16 this (setTag 1)
      else mOtherProtocol this
  | _ => mOtherProtocol this
  end).
(** SipHeaderVia.go:161-194 (SipHeaderVia.ParseValueWithoutInit). *)
Definition mVia (this : N) : M unit :=
  mSentProtocol this ;~ mInto (this + 2) (mStr (ParseAndAllocCString SIP_TOKEN)) ;~ mPos pLWS ;~ mHostPort (this + 4) ;~ mParams KVia this.
(** SipHeaderContact.go:166-200 (SipHeaderContact.ParseValueWithoutInit). *)
Definition mContact (this : N) : M unit :=
  mPos pSWS ;~ mOnRest (fun r => match r with
    | [] => mfail
    | x :: r1 => if x =? 42 then mGoto r1 ;~ set8 this 1 ;~ mPos pSWS else mFromTo KContact this
    end).
(** SipHeaderRoute.go:77-95 (SipHeaderRoute.ParseValueWithoutInit), SipHeaderRecordRoute.go:77-95 (SipHeaderRecordRoute.ParseValueWithoutInit),
    SipHeaderPath.go:77-95 (SipHeaderPath.ParseValueWithoutInit), SipHeaderServiceRoute.go:77-95 (SipHeaderServiceRoute.ParseValueWithoutInit). *)
Definition mRoute (k : hkind) (this : N) : M unit := mNameAddr this ;~ mParams k this.
(** [digit, _, newPos, ok := ParseUInt(...); this.id = uint32(digit)]. *)
Definition mNum32 (p : N) : M unit := n <~ mUInt ;; set32 p n.
(** SipHeaderCSeq.go:75-99 (SipHeaderCSeq.ParseValueWithoutInit). *)
Definition mCSeq (this : N) : M unit := mNum32 this ;~ mPos pLWS ;~ mMethod (this + 4).
(** SipHeaderRAck.go:80-120 (SipHeaderRAck.ParseValueWithoutInit). *)
Definition mRAck (this : N) : M unit := mNum32 this ;~ mPos pLWS ;~ mNum32 (this + 4) ;~ mPos pLWS ;~ mMethod (this + 8).
(** SipHeaderContentType.go:116-145 (SipHeaderContentType.ParseValueWithoutInit). *)
Definition mContentType (this : N) : M unit :=
  mInto this (mStr (ParseAndAllocCString SIP_TOKEN)) ;~ mPos (pSWSMark 47) ;~ mInto (this + 2) (mStr (ParseAndAllocCString SIP_TOKEN)) ;~ mParams KContentType this.
(** SipHeaderContentDisposition.go:110-128 (SipHeaderContentDisposition.ParseValueWithoutInit). *)
Definition mContentDisposition (this : N) : M unit := mInto this (mStr (ParseAndAllocCString SIP_TOKEN)) ;~ mParams KContentDisposition this.
(** [this.id, _ = ParseAndAllocCString(...); if this.id == ABNF_PTR_NIL { return false }]. *)
Definition mWord (p : N) : M unit := mInto p (mStr (ParseAndAllocCString SIP_WORD)) ;~ q <~ get16 p ;; if q =? NILPTR then mfail else mret tt.
(** SipHeaderCallID.go:77-98 (SipHeaderCallID.ParseValueWithoutInit). *)
Definition mCallID (this : N) : M unit :=
  mWord this ;~
  mOnRest (fun r => match r with
    | x :: r1 => if x =? 64 then mGoto r1 ;~ mWord (this + 2) else mret tt
    | [] => mret tt
    end).
(** ParseValueWithoutInit of each type: the above, SipHeaderPAssertedIdentity.go:74-82 (SipHeaderPAssertedIdentity.ParseValueWithoutInit),
    SipHeaderRSeq.go:72-83 (SipHeaderRSeq.ParseValueWithoutInit), SipHeaderExpires.go:72-83 (SipHeaderExpires.ParseValueWithoutInit),
    SipHeaderMaxForwards.go:72-83 (SipHeaderMaxForwards.ParseValueWithoutInit), SipHeaderContentLength.go:74-85 (SipHeaderContentLength.ParseValueWithoutInit). *)
Definition mHVal (k : hkind) (this : N) : M unit :=
  match k with
  | KFrom | KTo => mFromTo k this
  | KVia => mVia this
  | KContact => mContact this
  | KRoute | KRecordRoute | KPath | KServiceRoute => mRoute k this
  | KPai => mAddr false this
  | KCSeq => mCSeq this
  | KRAck => mRAck this
  | KRSeq | KExpires | KContentLength => mNum32 this
  | KMaxForwards => n <~ mUInt ;; set8 this (n mod 256)
  | KContentType => mContentType this
  | KContentDisposition => mContentDisposition this
  | KCallID => mCallID this
  end.
(** What Init clears: the size of the struct, except that SipHeaderVia.go:76-78 (SipHeaderVia.Init) clears the size of a SipHeaderTo. *)
Definition hInit (k : hkind) : N := match k with KVia => 14 | _ => hvalSize k end.
(** SipHeaderFrom.go:78-81 (SipHeaderFrom.Parse), SipHeaderFrom.go:83-97 (SipHeaderFrom.ParseWithoutInit) and the methods of the same shape. *)
Definition mHeaderParse (k : hkind) (this : N) : M unit := mInit this (hInit k) ;~ mPos (parseHName k) ;~ mPos pHcolon ;~ mHVal k this.
(** SipHeaderFrom.go:99-102 (SipHeaderFrom.ParseValue) and the methods of the same shape. *)
Definition mHValParse (k : hkind) (this : N) : M unit := mInit this (hInit k) ;~ mHVal k this.
(** SipHeaderFrom.go:203-211 (ParseSipFrom) and the functions of the same shape: the address is returned in any case. *)
Definition mSipX (k : hkind) : M N := p <~ mNew (hvalSize k) ;; mHVal k p ;~ mret p.

(** SipHeaderVia.go:89-103 (SipHeaderVia.EncodeValue), first part. *)
Definition mEncProto (this : N) : Enc := eMem (fun m =>
  let q := g16 m this in
  if negb (isPtr q) then eOut (s2b "SIP/2.0/") else eDeref q (eCStr (g16 m q) +++ eOut [47] +++ eCStr (g16 m (q + 2)) +++ eOut [47])).
(** EncodeValue of each type (see [encHVal]). The assignment of [encodeEnd] in SipHeaderContentLength.go:38-42 (SipHeaderContentLength.EncodeValue), a field that no
    function of the header reads, is left out. *)
Definition mEncHVal (k : hkind) (this : N) : Enc := eMem (fun m =>
  match k with
  | KFrom | KTo | KRoute | KRecordRoute | KPath | KServiceRoute => mEncAddr this +++ mEncParams k this
  | KPai => mEncAddr this
  | KVia => mEncProto this +++ eCStr (g16 m (this + 2)) +++ eOut [32] +++ mEncHostPort (this + 4) +++ mEncParams KVia this
  | KContact => if negb (m this =? 0) then eOut [42] else mEncAddr (this + 2) +++ mEncParams KContact this
  | KCSeq => eOut (encUInt (g32 m this)) +++ eOut [32] +++ mEncMethod (this + 4)
  | KRAck => eOut (encUInt (g32 m this)) +++ eOut [32] +++ eOut (encUInt (g32 m (this + 4))) +++ eOut [32] +++ mEncMethod (this + 8)
  | KRSeq | KExpires => eOut (encUInt (g32 m this))
  | KMaxForwards => eOut (encUInt (m this))
  | KContentLength => eOut (encContentLength (g32 m this))
  | KContentType => eCStr (g16 m this) +++ eOut [47] +++ eCStr (g16 m (this + 2)) +++ mEncParams KContentType this
  | KContentDisposition => eCStr (g16 m this) +++ mEncParams KContentDisposition this
  | KCallID => eCStr (g16 m this) +++ (if negb (g16 m (this + 2) =? NILPTR) then eOut [64] +++ eCStr (g16 m (this + 2)) else eOut [])
  end).
(** SipHeaderFrom.go:60-63 (SipHeaderFrom.Encode) and the methods of the same shape. *)
Definition mEncHeader (k : hkind) (this : N) : Enc := eOut (hName k) +++ eOut (s2b ": ") +++ mEncHVal k this.
