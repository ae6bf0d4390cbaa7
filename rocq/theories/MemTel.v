(** TelUri.go on the arena. [this] is the address of the receiver's struct: IsGlobalNumber +0, ContextIsDomain +1, number +2, context +4, params +6,
    knownParams +8; 10 bytes. *)
From Verif Require Import Base Charset Num Lws Str Monad Host Uri Tel Arena Layout Mem MemUri MemEnc.

(** AbnfPtr.go:93-136 (AbnfPtr.CStringEqualNoCase). *)
Definition mEqualNoCase (p : N) (name : bytes) : M bool := fun _ a r =>
  if p =? NILPTR then MOk false a r else match readCString a p with None => MPanic | Some b => MOk (equalNoCase b name) a r end.
(** AbnfPtr.go:212-219 (AbnfPtr.GetCStringAsByteSlice), then its element 0. *)
Definition mFirstByte (p : N) : M N := fun _ a r =>
  if p =? NILPTR then MPanic else match readCString a p with Some (x :: _) => MOk x a r | _ => MPanic end.
(** AbnfPtr.go:77-91 (AbnfPtr.RemoveTelUriVisualSeperator). *)
Definition mRemoveVisual (p : N) : M unit := fun _ a r => match RemoveTelUriVisualSeperator p a with None => MPanic | Some a' => MOk tt a' r end.

(** TelUri.go:108-141 (TelUri.SetKnownParams). *)
Definition mTelSet (this name param : N) : M bool :=
  c <~ mEqualNoCase name (s2b "phone-context") ;;
  if c : bool then
    set16 (this + 4) param ;~
    deref param ;~
    v <~ get16 (param + 2) ;;
    x <~ mFirstByte v ;;
    set8 (this + 1) (if negb (x =? 43) then 1 else 0) ;~
    (if negb (x =? 43) then mret tt else mRemoveVisual v) ;~
    mret true
  else mWithEnv (fun e => if fTelUriKnown e then mSetKnown telKnownNames (this + 8) name param else mret false).
(** TelUri.go:189-211 (TelUri.parseNumber) with TelUri.go:213-220 (TelUri.parseGlobalNumber) and TelUri.go:222-229 (TelUri.parseLocalNumber). *)
Definition mTelNumber (this : N) : M unit := mOnRest (fun r => match r with
  | [] => mfail
  | x :: _ => if x =? 43
      then mInto (this + 2) (mStr (ParseAndAllocTelNumber TEL_PHONE_DIGIT)) ;~ set8 this 1
      else mInto (this + 2) (mStr (ParseAndAllocTelNumber TEL_PHONE_DIGIT_HEX)) ;~ set8 this 0
  end).
(** TelUri.go:161-183 (TelUri.ParseAfterSchemeWithoutInit). *)
Definition mTelAfterScheme (this : N) : M unit :=
  mTelNumber this ;~
  mOnRest (fun r => match r with
    | x :: r1 => if x =? 59 then mGoto r1 ;~ mInto (this + 6) (mUriParams SIP_PNAME SIP_PVALUE (Some (mTelSet this))) else mret tt
    | [] => mret tt
    end).
(** TelUri.go:185-187 (TelUri.ParseAfterSchemeWithoutParam). *)
Definition mTelAfterSchemeNoParam (this : N) : M unit := mTelNumber this.
(** TelUri.go:231-253 (TelUri.parseScheme). *)
Definition mTelScheme : M unit := mOnRest (fun r => match r with
  | a :: b :: c :: d :: r1 => if lc a 116 && lc b 101 && lc c 108 && lc d 58 then mGoto r1 else mfail
  | _ => mfail
  end).
(** TelUri.go:148-155 (TelUri.ParseWithoutInit) and TelUri.go:143-146 (TelUri.Parse). *)
Definition mTelUriWithoutInit (this : N) : M unit := mTelScheme ;~ mTelAfterScheme this.
Definition mTelUriParse (this : N) : M unit := mInit this 10 ;~ mTelUriWithoutInit this.

(** TelUri.go:73-89 (TelUri.Encode) with TelUri.go:91-106 (TelUri.EncodeKnownParams). *)
Definition mEncTelUri (this : N) : Enc := eMem (fun m =>
  eOut (s2b "tel:") +++ eCStr (g16 m (this + 2)) +++
  (let c := g16 m (this + 4) in
   if m this =? 0 then (if negb (c =? NILPTR) then eOut (s2b ";phone-context") +++ eDeref c (mEncUriValue TEL_PVALUE c) else eOut []) else eOut []) +++
  (let k := g16 m (this + 8) in let p := g16 m (this + 6) in
   if negb (k =? NILPTR)
   then mEncUriKnown TEL_PVALUE telKnownNames k +++ mEncUriParams TEL_PNAME TEL_PVALUE p
   else mEncUriParams TEL_PNAME TEL_PVALUE p)).
