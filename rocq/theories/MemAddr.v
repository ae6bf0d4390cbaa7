(** SipAddr.go on the arena. [this] is the address of the receiver's struct: addrType +0, uriType +1, displayNameIsQuotedString +2, scheme +4, displayName +6,
    addr +8; 10 bytes. *)
From Verif Require Import Base Charset Num Lws Str Monad Host Uri Tel GenParam Addr Arena Layout Mem MemUri MemEnc MemTel MemGen.

(** The last part of SipAddr.go:299-384 (SipAddr.ParseScheme), from its start position. *)
Definition mOtherScheme (this : N) : M unit := mOnRest (fun r => match r with
  | [] => mfail
  | x :: _ =>
      if IsAlpha x then
        mInto (this + 4) (mStr (ParseAndAllocCString URI_SCHEME)) ;~
        mOnRest (fun r1 => match r1 with
          | [] => mfail
          | y :: r2 => if negb (y =? 58) then mfail else mGoto r2 ;~ set8 (this + 1) 1
          end)
      else mfail
  end).
(** SipAddr.go:299-384 (SipAddr.ParseScheme). *)
Definition mScheme (this : N) : M unit := mOnRest (fun r => match r with
  | a :: b :: c :: d :: r4 =>
      if lc a 115 && (lc b 105 && lc c 112) && (d =? 58) then mGoto r4 ;~ set8 (this + 1) 2
      else if lc a 115 && (lc b 105 && lc c 112) && lc d 115 then
        match r4 with
        | [] => mGoto [] ;~ mfail
        | x :: r5 => if x =? 58 then mGoto r5 ;~ set8 (this + 1) 3 else mOtherScheme this
        end
      else if lc a 116 && (lc b 101 && lc c 108) && (d =? 58) then mGoto r4 ;~ set8 (this + 1) 4
      else if lc a 117 && (lc b 114 && lc c 110) && (d =? 58) then mGoto r4 ;~ set8 (this + 1) 5
      else mOtherScheme this
  | _ => mOtherScheme this
  end).
(** SipAddr.go:197-239 (SipAddr.parsAddrSpecAfterScheme) with SipUri.go:88-88 (SipUri.SetSipUri) and SipUri.go:89-89 (SipUri.SetSipsUri). *)
Definition mSpec (params : bool) (this : N) : M unit :=
  t <~ get8 (this + 1) ;;
  if (t =? 2) || (t =? 3) then
    mInto (this + 8) (mNew 18) ;~
    q <~ get16 (this + 8) ;;
    set8 q (if t =? 3 then 1 else 0) ;~
    (if params then mUriAfterScheme q else mUriAfterSchemeNoParam q)
  else if t =? 4 then
    mInto (this + 8) (mNew 10) ;~
    q <~ get16 (this + 8) ;;
    (if params then mTelAfterScheme q else mTelAfterSchemeNoParam q)
  else mfail.
(** SipAddr.go:265-297 (SipAddr.parseTokens): the loop only moves the position. *)
Definition mTokens (this : N) : M unit := mOnRest (fun r0 =>
  set8 (this + 2) 0 ;~
  mPos (loopP tokensBody tt) ;~
  mOnRest (fun r1 => mInto (this + 6) (mCString (firstn (List.length r0 - List.length r1) r0)))).
(** SipAddr.go:245-263 (SipAddr.parseDisplayName). *)
Definition mDisplayName (this : N) : M unit := mOnRest (fun r => match r with
  | [] => mret tt
  | x :: _ => if IsSipToken x then mTokens this else mInto (this + 6) (mStr ParseAndAllocSipQuotedString) ;~ set8 (this + 2) 1
  end).
(** SipAddr.go:136-179 (SipAddr.ParseNameAddrWithoutInit). *)
Definition mNameAddr (this : N) : M unit :=
  mPos pSWS ;~
  mOnRest (fun r => match r with
    | [] => mfail
    | x :: r1 => if negb (x =? 60) then mDisplayName this ;~ mPos pLeftAngleQuote else mGoto r1
    end) ;~
  mScheme this ;~ mSpec true this ;~ mPos pRightAngleQuote ;~ set8 this 1.
(** SipAddr.go:115-134 (SipAddr.ParseWithoutInit). *)
Definition mAddr (params : bool) (this : N) : M unit := mOnRest (fun r => match r with
  | [] => mfail
  | x :: _ =>
      if (x =? 60) || (x =? 34) then mNameAddr this
      else o <~ mOrRestore (mScheme this ;~ mret true) (mNameAddr this ;~ mret false) ;;
           if o : bool then mSpec params this else mret tt
  end).
(** SipAddr.go:105-108 (SipAddr.Parse). *)
Definition mAddrParse (params : bool) (this : N) : M unit := mInit this 10 ;~ mAddr params this.
(** SipAddr.go:181-195 (SipAddr.parsAddrSpecWithoutInit). *)
Definition mAddrSpec (this : N) : M unit := mScheme this ;~ mSpec true this ;~ set8 this 0.

(** The switch shared by SipAddr.go:55-83 (SipAddr.Encode). *)
Definition mEncAUri (this : N) : Enc := eMem (fun m =>
  let q := g16 m (this + 8) in
  if negb (q =? NILPTR) then
    if (m (this + 1) =? 2) || (m (this + 1) =? 3) then eDeref q (mEncSipUri q) else if m (this + 1) =? 4 then eDeref q (mEncTelUri q) else eOut []
  else eOut []).
(** SipAddr.go:55-83 (SipAddr.Encode). *)
Definition mEncAddr (this : N) : Enc := eMem (fun m => eEnv (fun e =>
  if (m this =? 1) || eNameSpace e then
    (let n := g16 m (this + 6) in
     if negb (n =? NILPTR) then (if negb (m (this + 2) =? 0) then mEncQuoted n else eCStr n) else eOut []) +++
    eOut [60] +++ mEncAUri this +++ eOut [62]
  else mEncAUri this)).
(** SipAddr.go:85-94 (SipAddr.EncodeAddrSpec). *)
Definition mEncAddrSpec (this : N) : Enc := eMem (fun m =>
  let q := g16 m (this + 8) in
  if negb (q =? NILPTR) then if (m (this + 1) =? 2) || (m (this + 1) =? 3) then eDeref q (mEncSipUri q) else eOut [] else eOut []).
