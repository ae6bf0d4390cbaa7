(** SipMethod.go, SipVersion.go and SipStartLine.go on the arena. SipMethod and SipVersion are one 16-bit word; SipStartLine: isRequest +0, statusCode +2,
    method +4, version +6, addr +8, reasonPhrase +18; 20 bytes. *)
From Verif Require Import Base Charset Num Lws Str Monad MethodTree Lookup Host Uri Tel GenParam Addr StartLine Arena Layout Mem MemUri MemEnc MemTel MemGen MemAddr.

(** AbnfPtr.go:23-25 (AbnfPtr.IsAbnfPtr). *)
Definition isPtr (w : N) : bool := N.land w 32768 =? 0.
(** AbnfPtr.go:27-29 (AbnfPtr.GetValue). *)
Definition tagValue (w : N) : N := N.land w 32767.
(** AbnfPtr.go:31-33 (AbnfPtrSetValue). *)
Definition setTag (v : N) : N := N.lor v 32768.

(** SipMethod.go:65-79 (SipMethod.Parse). *)
Definition mMethod (this : N) : M unit := mOnRest (fun r => match GetSipMethodIndex r with
  | None => mpanic
  | Some (i, mid) => if i =? SIP_METHOD_UNKNOWN then mInto this (mStr (ParseAndAllocCStringFromPos mid SIP_TOKEN)) else mGoto mid ;~ set16 this (setTag i)
  end).
(** SipMethod.go:51-57 (SipMethod.Encode). *)
Definition mEncMethod (this : N) : Enc := eMem (fun m =>
  let w := g16 m this in
  if negb (isPtr w) then match nth_error methodTable (N.to_nat (tagValue w)) with Some b => eOut b | None => ePanic end else eCStr w).

(** The part of SipVersion.go:59-101 (SipVersion.ParseAfterStart) after the test for "2.0". *)
Definition mVersionDigits (this : N) (r : bytes) : M unit :=
  let '(major, r1) := span (inset DIGIT) r in
  match major with
  | [] => mfail
  | _ => match r1 with
         | [] => mpanic
         | x :: mid =>
             if negb (x =? 46) then mGoto r1 ;~ mfail
             else mInto this (mStr (ParseAndAllocCStringFromPos mid DIGIT)) ;~
                  mOnRest (fun r2 => if Nat.leb (List.length mid) (List.length r2) then mfail else mret tt)
         end
  end.
(** SipVersion.go:59-101 (SipVersion.ParseAfterStart), with SIP_VERSION_2_0 (SipVersion.go:8-10). *)
Definition mVersionAfter (this : N) : M unit := mOnRest (fun r => match r with
  | [] => mpanic
  | a :: r1 => if a =? 50 then
      match r1 with
      | [] => mpanic
      | b :: r2 => if b =? 46 then
          match r2 with
          | [] => mpanic
          | c :: r3 => if c =? 48 then
              match r3 with
              | [] => mGoto r3 ;~ set16 this (setTag 1)
              | d :: _ => if negb (IsDigit d) then mGoto r3 ;~ set16 this (setTag 1) else mVersionDigits this r
              end else mVersionDigits this r
          end else mVersionDigits this r
      end else mVersionDigits this r
  end).
(** SipVersion.go:49-57 (SipVersion.Parse). *)
Definition mVersion (this : N) : M unit := mOnRest (fun r => match versionStart r with Some r4 => mGoto r4 ;~ mVersionAfter this | None => mfail end).
(** SipVersion.go:36-43 (SipVersion.Encode). *)
Definition mEncVersion (this : N) : Enc := eMem (fun m =>
  let w := g16 m this in if negb (isPtr w) then eOut (s2b "SIP/2.0") else eOut (s2b "SIP/") +++ eCStr w).

(** SipStartLine.go:96-146 (SipStartLine.ParseRequestLine). *)
Definition mRequestLine (this : N) : M unit :=
  mMethod (this + 4) ;~ mPos (expect 32) ;~ mAddrSpec (this + 8) ;~ mPos (expect 32) ;~ mVersion (this + 6) ;~ mPos pCRLF ;~ set8 this 1.
(** SipStartLine.go:163-215 (SipStartLine.ParseStatusLineAfterVersionStart); ParseUInt16 of AbnfBasic.go:280-297 (a failed one assigns 0 to the field). *)
Definition mStatusLine (this : N) : M unit :=
  mVersionAfter (this + 6) ;~ mPos (expect 32) ;~
  mOnRest (fun r => match ParseUInt r with None => set16 (this + 2) 0 ;~ mfail | Some (v, _, r') => mGoto r' ;~ set16 (this + 2) (u16 v) end) ;~
  mPos (expect 32) ;~ mInto (this + 18) (mStr (ParseAndAllocCStringEscapableEnableEmpty SIP_REASON_PHRASE)) ;~ mPos pCRLF ;~ set8 this 0.
(** SipStartLine.go:82-88 (SipStartLine.ParseWithoutInit). *)
Definition mStartLine (this : N) : M unit := mOnRest (fun r => match versionStart r with Some r4 => mGoto r4 ;~ mStatusLine this | None => mRequestLine this end).
(** SipStartLine.go:77-80 (SipStartLine.Parse). *)
Definition mStartLineParse (this : N) : M unit := mInit this 20 ;~ mStartLine this.
(** SipStartLine.go:37-46 (SipStartLine.Encode), SipStartLine.go:48-54 (SipStartLine.EncodeRequestLine), SipStartLine.go:56-66 (SipStartLine.EncodeStatusLine). *)
Definition mEncStartLine (this : N) : Enc := eMem (fun m =>
  (if negb (m this =? 0)
   then mEncMethod (this + 4) +++ eOut [32] +++ mEncAddrSpec (this + 8) +++ eOut [32] +++ mEncVersion (this + 6)
   else mEncVersion (this + 6) +++ eOut [32] +++ eOut (encUInt (g16 m (this + 2))) +++ eOut [32] +++
        eEnv (fun e => if negb (eReasonNoEscape e) then eEscape SIP_REASON_PHRASE (g16 m (this + 18)) else eCStr (g16 m (this + 18)))) +++
  eOut CRLF).
