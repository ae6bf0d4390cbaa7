(** SipHostPort.go, UriParam.go, UriHeader.go and SipUri.go on the arena. [this] is the address of the receiver's struct;
    field offsets are those of Layout.v. *)
From Verif Require Import Base Charset Num Lws Str Monad Host Uri Arena Layout Mem.

(** ** SipHostPort: id +0, hasPort +1, port +2, data +4; 6 bytes. *)
(** SipHostPort.go:315-346 (SipHostPort.SetIpv4). *)
Definition mSetIpv4 (this : N) (ip : bytes) : M unit :=
  q <~ mAlloc 4 ;; mCopy q 4 ip ;~ set8 this 1 ;~ set16 (this + 4) q.
(** SipHostPort.go:348-378 (SipHostPort.SetIpv6). *)
Definition mSetIpv6 (this : N) (ip : bytes) : M unit :=
  q <~ mAlloc 16 ;; mCopy q 16 ip ;~ set8 this 2 ;~ set16 (this + 4) q.
(** SipHostPort.go:380-389 (SipHostPort.SetHostname). *)
Definition mSetHostname (this : N) (name : bytes) : M unit :=
  q <~ mCString name ;; set8 this 3 ;~ set16 (this + 4) q.
(** SipHostPort.go:44-47 (SipHostPort.SetPort). *)
Definition mSetPort (this port : N) : M unit := set8 (this + 1) 1 ;~ set16 (this + 2) port.
(** SipHostPort.go:200-227 (SipHostPort.parseIpv6). *)
Definition mIpv6 (this : N) : M unit := mOnRest (fun r =>
  let '(txt, r1) := span (fun x => negb (x =? 93)) r in
  mGoto r1 ;~
  match r1 with
  | [] => mfail
  | _ :: r2 => mWithEnv (fun e => match ipParse e txt with
      | None => mfail
      | Some ip => mSetIpv6 this ip ;~ mGoto r2
      end)
  end).
(** SipHostPort.go:279-313 (SipHostPort.parseHostname). *)
Definition mHostname (this : N) : M unit := mInto (this + 4) (mStr (ParseAndAllocCString HOSTNAME)) ;~ set8 this 3.
(** SipHostPort.go:168-198 (SipHostPort.ParseHost). *)
Definition mHost (this : N) : M unit := mOnRest (fun r => match r with
  | [] => mfail
  | x :: r1 =>
      if x =? 91 then mGoto r1 ;~ mIpv6 this
      else if IsAlpha x then mHostname this
      else match parseIpv4 r with
           | None => mHostname this
           | Some (a, b, c, d, r2) => mGoto r2 ;~ mSetIpv4 this [a; b; c; d]
           end
  end).
(** SipHostPort.go:133-166 (SipHostPort.ParseWithoutInit). *)
Definition mHostPort (this : N) : M unit :=
  mHost this ;~
  mOnRest (fun r => match r with
    | x :: r1 => if x =? 58 then mGoto r1 ;~ (n <~ mUInt ;; if 65535 <? n then mfail else mSetPort this n) else mret tt
    | [] => mret tt
    end).
(** SipHostPort.go:128-131 (SipHostPort.Parse). *)
Definition mHostPortParse (this : N) : M unit := mInit this 6 ;~ mHostPort this.

(** ** UriParam and UriHeader: name +0, value +2, next +4; 6 bytes. *)
(** UriParam.go:77-106 (UriParam.Parse). *)
Definition mUriParam (cn cv : charset) (this : N) : M unit :=
  n <~ mStr (ParseAndAllocCStringEscapable cn) ;;
  set16 this n ;~
  mOnRest (fun r => match r with
    | x :: r1 => if x =? 61 then mGoto r1 ;~ (v <~ mStr (ParseAndAllocCStringEscapable cv) ;; set16 (this + 2) v) else mret tt
    | [] => mret tt
    end).
(** The loop of UriParam.go:149-191 (ParseUriParamsEx); [known] is knownParams.SetKnownParams(param.name, addr) ([None] = nil). The locals are
    [params] and [prev]. UriParam.go:108-147 (ParseUriParams) is the same loop with [known = None]. *)
Definition mContIf {A} (c : N) (x : A) : M (A + A) := mOnRest (fun r => match r with
  | y :: r1 => if y =? c then mGoto r1 ;~ mret (inl x) else mret (inr x)
  | [] => mret (inr x)
  end).
Definition mUriParamOne (cn cv : charset) (known : option (N -> N -> M bool)) (hp : N * N) : M (N * N) :=
  p <~ mNew 6 ;;
  mUriParam cn cv p ;~
  done <~ match known with None => mret false | Some set => n <~ get16 p ;; set n p end ;;
  if done : bool then mret hp else mAppend 4 hp p.
Definition mUriParams (cn cv : charset) (known : option (N -> N -> M bool)) : M N :=
  mOnRest (fun r => match r with
    | [] => mfail
    | _ => hp <~ loopM (fun hp => mOnRest (fun r => match r with [] => mret (inr hp) | _ => mbind (mUriParamOne cn cv known hp) (mContIf 59) end)) (NILPTR, NILPTR) ;;
           mret (fst hp)
    end).
(** UriHeader.go:41-79 (UriHeader.Parse). *)
Definition mUriHeader (this : N) : M unit :=
  n <~ mStr (ParseAndAllocCStringEscapable SIP_HNAME) ;;
  set16 this n ;~
  mOnRest (fun r => match r with
    | x :: r1 => if x =? 61
        then mGoto r1 ;~ match r1 with [] => mret tt | _ => v <~ mStr (ParseAndAllocCStringEscapableEnableEmpty SIP_HVALUE) ;; set16 (this + 2) v end
        else mfail
    | [] => mfail
    end).
(** UriHeader.go:81-120 (ParseUriHeaders). *)
Definition mUriHeaderOne (hp : N * N) : M (N * N) := p <~ mNew 6 ;; mUriHeader p ;~ mAppend 4 hp p.
Definition mUriHeaders : M N :=
  mOnRest (fun r => match r with
    | [] => mfail
    | _ => hp <~ loopM (fun hp => mOnRest (fun r => match r with [] => mret (inr hp) | _ => mbind (mUriHeaderOne hp) (mContIf 38) end)) (NILPTR, NILPTR) ;;
           mret (fst hp)
    end).

(** ** SipUri: isSecure +0, user +2, password +4, hostport +6, params +12, headers +14, knownParams +16; 18 bytes. *)
(** SipUri.go:324-345 (SipUri.parsePassword). *)
Definition mPassword (this : N) : M unit := mOnRest (fun r => match r with
  | x :: r1 => if x =? 58
      then mGoto r1 ;~ match r1 with [] => mfail | _ => v <~ mStr (ParseAndAllocCStringEscapableEnableEmpty SIP_PASSWORD) ;; set16 (this + 4) v end
      else mret tt
  | [] => mpanic
  end).
(** SipUri.go:283-322 (SipUri.parseUserinfo). *)
Definition mUserinfo (this : N) : M unit := mOnRest (fun r =>
  if findUserinfo r then
    u <~ mStr (ParseAndAllocCStringEscapable SIP_USER) ;;
    mOnRest (fun r1 => match r1 with
      | [] => mfail
      | _ => set16 (this + 2) u ;~
             mPassword this ;~
             mOnRest (fun r2 => match r2 with
               | x :: r3 => if x =? 64 then mGoto r3 else mfail
               | [] => mfail
               end)
      end)
  else mret tt).
(** SipUri.go:164-191 (SipUri.SetKnownParams). *)
Definition mSipUriSet (this name param : N) : M bool :=
  mWithEnv (fun e => if fSipUriKnown e then mSetKnown sipUriKnownNames (this + 16) name param else mret false).
(** SipUri.go:219-264 (SipUri.ParseAfterSchemeWithoutInit). *)
Definition mUriAfterScheme (this : N) : M unit :=
  mUserinfo this ;~
  mHostPort (this + 6) ;~
  mOnRest (fun r => match r with
    | [] => mret tt
    | x :: r1 =>
        (if x =? 59 then mGoto r1 ;~ mInto (this + 12) (mUriParams SIP_PNAME SIP_PVALUE (Some (mSipUriSet this))) else mret tt) ;~
        mOnRest (fun r2 => match r2 with
          | y :: r3 => if y =? 63 then mGoto r3 ;~ mInto (this + 14) mUriHeaders else mret tt
          | [] => mret tt
          end)
    end).
(** SipUri.go:266-281 (SipUri.ParseAfterSchemeWithoutParam). *)
Definition mUriAfterSchemeNoParam (this : N) : M unit := mUserinfo this ;~ mHostPort (this + 6).
(** SipUri.go:450-466 (SipUri.parseScheme): [this.isSecure] is set. *)
Definition mSipScheme (this : N) : M unit := mOnRest (fun r => match r with
  | a :: b :: c :: d :: r1 =>
      if lc a 115 && lc b 105 && lc c 112 then
        if d =? 58 then mGoto r1 ;~ set8 this 0 else
        match r1 with
        | x :: r2 => if lc d 115 && (x =? 58) then mGoto r2 ;~ set8 this 1 else mfail
        | [] => mfail
        end
      else mfail
  | _ => mfail
  end).
(** SipUri.go:206-213 (SipUri.ParseWithoutInit) and SipUri.go:201-204 (SipUri.Parse). *)
Definition mSipUriWithoutInit (this : N) : M unit := mSipScheme this ;~ mUriAfterScheme this.
Definition mSipUriParse (this : N) : M unit := mInit this 18 ;~ mSipUriWithoutInit this.
(** SipUri.go:76-78 (NewSipUri), then Parse: the caller's view. *)
Definition mNewSipUri : M N := p <~ mNew 18 ;; mSipUriParse p ;~ mret p.
