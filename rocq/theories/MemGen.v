(** SipGenericParam.go on the arena: name +0, value +2, next +4, valueType +6; 8 bytes. *)
From Verif Require Import Base Charset Num Lws Str Monad Host Uri GenParam Arena Layout Mem MemUri MemEnc.

(** SipGenericParam.go:101-141 (SipGenericParam.ParseValue). *)
Definition mGenValue (this : N) : M unit := mOnRest (fun r => match r with
  | [] => mfail
  | v :: _ =>
      if IsSipToken v then mInto (this + 2) (mStr (ParseAndAllocCString SIP_TOKEN)) ;~ set8 (this + 6) 0
      else if (v =? 34) || IsLwsChar v then mInto (this + 2) (mStr ParseAndAllocSipQuotedString) ;~ set8 (this + 6) 1
      else if v =? 91 then match cutAfter 93 r with None => mfail | Some (tok, r') => mInto (this + 2) (mCString tok) ;~ mGoto r' ;~ set8 (this + 6) 2 end
      else mfail
  end).
(** SipGenericParam.go:70-99 (SipGenericParam.Parse). *)
Definition mGenParam (this : N) : M unit :=
  mInto this (mStr (ParseAndAllocCStringEscapable SIP_TOKEN)) ;~
  mOnRest (fun r => match r with
    | [] => mret tt
    | v :: _ =>
        if negb (v =? 61) && negb (IsLwsChar v) then mret tt
        else m <~ mPos (pSWSMarkCanOmmit 61) ;; if m : bool then mGenValue this else mret tt
    end).
(** One round of the loop of SipGenericParam.go:171-222 (ParseSipGenericParams); [known] is knownParams.SetKnownParams(param.name, addr) ([None] = nil). The locals are
    [params] and [prev]. *)
Definition mGpBody (sep : N) (known : option (N -> N -> M bool)) (hp : N * N) : M ((N * N) + (N * N)) := mOnRest (fun r => match r with
  | [] => mret (inr hp)
  | x :: _ =>
      if IsOnlyCRLF r then mret (inr hp)
      else if negb (x =? sep) && negb (IsLwsChar x) then mret (inr hp)
      else match ParseSWSMarkCanOmmit sep r with
           | (r', _, false) => mGoto r' ;~ mfail
           | (_, false, true) => mret (inr hp)
           | (r', true, true) =>
               mGoto r' ;~
               p <~ mNew 8 ;;
               mGenParam p ;~
               done <~ match known with None => mret false | Some set => n <~ get16 p ;; set n p end ;;
               hp' <~ (if done : bool then mret hp else mAppend 4 hp p) ;;
               mret (inl hp')
           end
  end).
(** SipGenericParam.go:171-222 (ParseSipGenericParams). *)
Definition mGenParams (sep : N) (known : option (N -> N -> M bool)) : M N :=
  hp <~ loopM (mGpBody sep known) (NILPTR, NILPTR) ;; mret (fst hp).

(** SipQuotedString.go:7-11 (EncodeSipQuotedString). *)
Definition mEncQuoted (p : N) : Enc := eOut [34] +++ eCStr p +++ eOut [34].
(** SipGenericParam.go:54-63 (SipGenericParam.EncodeValue). *)
Definition mEncGenValue (this : N) : Enc := eMem (fun m =>
  let v := g16 m (this + 2) in
  if negb (v =? NILPTR) then
    eOut [61] +++
    (if (m (this + 6) =? 0) || (m (this + 6) =? 2) then eCStr v
     else if m (this + 6) =? 1 then mEncQuoted v
     else eOut [])
  else eOut []).
(** SipGenericParam.go:47-52 (SipGenericParam.Encode). *)
Definition mEncGenParam (this : N) : Enc := eMem (fun m => let n := g16 m this in if negb (n =? NILPTR) then eCStr n +++ mEncGenValue this else eOut []).
(** The EncodeKnownParams of the headers, e.g. SipHeaderFrom.go:124-139 (SipHeaderFrom.EncodeKnownParams). *)
Definition mEncGenKnown (names : list bytes) (t : N) : Enc :=
  if t =? NILPTR then eOut [] else eDeref t (eTable (fun n p => eOut (59 :: n) +++ eDeref p (mEncGenValue p)) names t).
(** SipGenericParam.go:224-241 (EncodeSipGenericParams) with [knownParams] the receiver, whose field [knownParams] is [t]. *)
Definition mEncGenParams (sep : N) (names : list bytes) (t p : N) : Enc :=
  mEncGenKnown names t +++ eList 4 (fun p => eOut [sep] +++ mEncGenParam p) [] p.
