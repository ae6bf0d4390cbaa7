(** Reading and changing parsed objects through the exported functions, on the arena's bytes and in the value layer. *)
From Verif Require Import Base Charset BaseLemmas Num Lws Str Monad Host Uri Arena ArenaProofs Layout Mem MemSim MemTac MemUri MemRep MemEnc MemHostProofs MemUriProofs MemSipUriProofs MemEncProofs MemHistory Tel MemTel MemTelProofs GenParam Addr MemGen MemGenProofs MemAddr MemAddrProofs MethodTree HeaderTree Lookup StartLine Headers RawHeaders Msg MemSteps MemStart MemStartProofs MemHdr MemHdrProofs MemBlocks MemMsg MemMsgProofs MemHeadersProofs MemBodyProofs MemMsgEnc MemMsgEncProofs MemMsgTop P18_Memory HeaderList MemWorld.

(** The questions. On a URI (and, for the first two, on an address): *)
Inductive ask :=
| QIsSipUri | QIsSipsUri
| QUser | QPassword
| QIsIpv4 | QIsIpv6 | QIsHostname | QHasPort | QPort
| QParam (name : bytes)
(** On an address: *)
| QHasDisplayName
(** On the result of ParseRawHeaders: *)
| QFindKnown (i : N) | QFindUnknown (name : bytes)
(** On a message: *)
| QHeader (i : N) | QMultiBody.
(** The answers: a truth value, a number, a text; nothing found; a URI parameter (its value, if it has one); a header kept as text (the name, if it is kept, and the value);
    a parsed header (all its values, as Encode writes them). *)
Inductive answer := ABool (b : bool) | ANum (n : N) | AText (t : bytes) | ANothing | AParam (value : option bytes) | ARaw (name : option bytes) (value : bytes) | AParsed (text : bytes).

(** ** On the bytes *)
(** A string field: NIL, or what AbnfPtr.go:57-64 (AbnfPtr.CString) gives. *)
Definition mStrOpt (p : N) : M (option bytes) := if p =? NILPTR then mret None else b <~ mReadStr p ;; mret (Some b).
(** AbnfPtr.go:93-136 (AbnfPtr.CStringEqualNoCase) with a name that the caller gives: [&name[0]] is taken when the lengths are equal. *)
Definition mSameName (p : N) (name : bytes) : M bool := fun _ a r =>
  if p =? NILPTR then MOk false a r else
  match readCString a p with
  | None => MPanic
  | Some b => match CStringEqualNoCase b name with None => MPanic | Some x => MOk x a r end
  end.
(** UriParam.go:226-236 (GetUriParamByName), then the value of the parameter. The fuel is more than the number of addresses. *)
Fixpoint mFindParam (name : bytes) (fuel : nat) (p : N) : M answer :=
  match fuel with
  | O => fun _ _ _ => MLoop
  | S f =>
      if p =? NILPTR then mret ANothing else
      deref p ;~ n <~ get16 p ;; same <~ mSameName n name ;;
      if same : bool then v <~ get16 (p + 2) ;; x <~ mStrOpt v ;; mret (AParam x)
      else q <~ get16 (p + 4) ;; mFindParam name f q
  end.
(** SipUri.go:90-91 (SipUri.IsSipUri, SipUri.IsSipsUri); SipHostPort.go:35-40 (SipHostPort.IsIpv4, SipHostPort.IsIpv6, SipHostPort.IsHostname, SipHostPort.HasPort, SipHostPort.GetPort)
    of the field hostport; AbnfPtr.go:57-64 (AbnfPtr.CString) of the fields user and password; GetUriParamByName of the field params. *)
Definition mAskUri (this : N) (q : ask) : M answer :=
  match q with
  | QIsSipUri => x <~ get8 this ;; mret (ABool (x =? 0))
  | QIsSipsUri => x <~ get8 this ;; mret (ABool (negb (x =? 0)))
  | QUser => p <~ get16 (this + 2) ;; t <~ mReadStr p ;; mret (AText t)
  | QPassword => p <~ get16 (this + 4) ;; t <~ mReadStr p ;; mret (AText t)
  | QIsIpv4 => x <~ get8 (this + 6) ;; mret (ABool (x =? 1))
  | QIsIpv6 => x <~ get8 (this + 6) ;; mret (ABool (x =? 2))
  | QIsHostname => x <~ get8 (this + 6) ;; mret (ABool (x =? 3))
  | QHasPort => x <~ get8 (this + 7) ;; mret (ABool (negb (x =? 0)))
  | QPort => x <~ get16 (this + 8) ;; mret (ANum x)
  | QParam name => p <~ get16 (this + 12) ;; (fun e a r => mFindParam name (S (N.to_nat (cap a))) p e a r)
  | _ => mpanic
  end.
(** SipAddr.go:47-49 (SipAddr.hasDisplayName, SipAddr.IsSipUri, SipAddr.IsSipsUri). *)
Definition mAskAddr (this : N) (q : ask) : M answer :=
  match q with
  | QHasDisplayName => p <~ get16 (this + 6) ;; mret (ABool (p =? NILPTR))
  | QIsSipUri => x <~ get8 (this + 1) ;; mret (ABool (x =? 2))
  | QIsSipsUri => x <~ get8 (this + 1) ;; mret (ABool (x =? 3))
  | _ => mpanic
  end.
(** The name and the value of the header at [p] that a search has found. *)
Definition mRawAnswer (p : N) : M answer := n <~ get16 (p + 2) ;; name <~ mStrOpt n ;; v <~ get16 (p + 4) ;; t <~ mReadStr v ;; mret (ARaw name t).
(** SipHeaders.go:143-156 (FindKnownRawHeaderByIndex), and the second loop of SipMsg.go:293-309 (SipMsg.GetHeaderByIndex). *)
Fixpoint mFindKnown (i : N) (fuel : nat) (p : N) : M N :=
  match fuel with
  | O => fun _ _ _ => MLoop
  | S f => if p =? NILPTR then mret NILPTR else deref p ;~ j <~ get16 p ;; if j =? i then mret p else n <~ get16 (p + 6) ;; mFindKnown i f n
  end.
(** SipHeaders.go:158-171 (FindUnknownRawHeaderByName). *)
Fixpoint mFindUnknown (name : bytes) (fuel : nat) (p : N) : M N :=
  match fuel with
  | O => fun _ _ _ => MLoop
  | S f =>
      if p =? NILPTR then mret NILPTR else
      deref p ;~ n <~ get16 (p + 2) ;; same <~ mSameName n name ;;
      if same : bool then mret p else q <~ get16 (p + 6) ;; mFindUnknown name f q
  end.
Definition mFound (m : M N) : M answer := p <~ m ;; if p =? NILPTR then mret ANothing else deref p ;~ mRawAnswer p.
Definition mAskRaws (head : N) (q : ask) : M answer :=
  match q with
  | QFindKnown i => mFound (fun e a r => mFindKnown i (S (N.to_nat (cap a))) head e a r)
  | QFindUnknown name => mFound (fun e a r => mFindUnknown name (S (N.to_nat (cap a))) head e a r)
  | _ => mpanic
  end.
(** The first loop of SipMsg.go:293-309 (SipMsg.GetHeaderByIndex): the entry that is found. *)
Fixpoint mFindSlot (this i : N) (ss : list nat) : M (option nat) :=
  match ss with
  | [] => mret None
  | s :: ss' => v <~ get16 (slotAt OMsg this s) ;; if negb (v =? NILPTR) && (nth s (slotIndexes OMsg) 0 =? i) then mret (Some s) else mFindSlot this i ss'
  end.
(** SipMsg.go:293-309 (SipMsg.GetHeaderByIndex); of a parsed header the values are then written one after the other with its EncodeValue (walking the list with its GetNextXValue), as
    SipMsg.go:161-186 (SipMsg.EncodeHeaders) does; SipMsg.go:389-409 (SipMsg.HasMultiBody). The answer is written to an empty buffer: EncodeValue of Content-Length notes its length. *)
Definition mAskMsg (this : N) (q : ask) : E answer :=
  match q with
  | QMultiBody => b <== eMemory (mHasMulti this 0 (commonBodies this)) ;; eret (ABool b)
  | QHeader i =>
      s <== eMemory (mFindSlot this i (seq 0 19)) ;;
      match s with
      | Some s =>
          v <== eMemory (get16 (slotAt OMsg this s)) ;;
          let info := slotInfo (nth s (slotIndexes OMsg) 0) in
          (match hiKind info with
           | None => ePut ePanic
           | Some k => if hiMulti info then ePut (eList (nextOff k) (mEncHVal k) (s2b ", ") v) else mEncOne k v
           end) ;=
          t <== eBuf ;; eret (AParsed t)
      | None => eMemory (h <~ get16 (this + 64) ;; mFound (fun e a r => mFindKnown i (S (N.to_nat (cap a))) h e a r))
      end
  | _ => ePut ePanic ;= eret ANothing
  end.
Definition wAsk (k : wkind) (p : N) (q : ask) : E answer :=
  match k with
  | WKObj KSipUri => eMemory (mAskUri p q)
  | WKObj (KAddr _) => eMemory (mAskAddr p q)
  | WKRaws => eMemory (mAskRaws p q)
  | WKMsg => mAskMsg p q
  | _ => ePut ePanic ;= eret ANothing
  end.

(** AbnfPtr.go:66-75 (AbnfPtr.HasPrefixNoCase). *)
Definition mHasPrefix (p : N) (prefix : bytes) : M bool := t <~ mReadStr p ;; mret (hasPrefixNoCase (Some t) prefix).
(** The test of SipMsg.go:312-343 (SipMsg.RemoveContentHeaders). *)
Definition mIsContent (p : N) : M bool :=
  i <~ get16 p ;;
  if (i =? SIP_HDR_CONTENT_ENCODING) || (i =? SIP_HDR_CONTENT_TRANSFER_ENCODING) || (i =? SIP_HDR_CONTENT_ID) || (i =? SIP_HDR_CONTENT_DESCRIPTION) || (i =? SIP_HDR_CONTENT_LANGUAGE) then mret true
  else if i =? SIP_HDR_UNKNOWN then n <~ get16 (p + 2) ;; mHasPrefix n (s2b "Content-") else mret false.
(** The loop of SipMsg.go:312-343 (SipMsg.RemoveContentHeaders): [prev] is prevHeader (NIL: nil). *)
Fixpoint mRemoveLoop (this : N) (fuel : nat) (prev addr : N) : M unit :=
  match fuel with
  | O => fun _ _ _ => MLoop
  | S f =>
      if addr =? NILPTR then mret tt else
      deref addr ;~ c <~ mIsContent addr ;;
      if c : bool then
        n <~ get16 (addr + 6) ;;
        (if prev =? NILPTR then set16 (this + 64) n else set16 (prev + 6) n) ;~
        n' <~ get16 (addr + 6) ;; mRemoveLoop this f prev n'
      else n <~ get16 (addr + 6) ;; mRemoveLoop this f (if prev =? NILPTR then addr else prev) n
  end.
(** SipMsg.go:312-343 (SipMsg.RemoveContentHeaders): entry 12 of commonHeaders is Content-Disposition. *)
Definition mRemoveContent (this : N) : M unit :=
  set16 (slotAt OMsg this 12) NILPTR ;~ h <~ get16 (this + 64) ;; (fun e a r => mRemoveLoop this (S (N.to_nat (cap a))) NILPTR h e a r).

(** ** In the value layer *)
(** UriParam.go:226-236 (GetUriParamByName). *)
Definition findParam (name : bytes) (ps : list uparam) : answer := match find (fun x => equalNoCase (upName x) name) ps with Some x => AParam (upValue x) | None => ANothing end.
Definition orEmpty (t : option bytes) : bytes := match t with Some t => t | None => [] end.
(** [None]: a question for another type of object, the port when there is none, or a name that is empty. *)
Definition askUri (u : sipuri) (q : ask) : option answer :=
  match q with
  | QIsSipUri => Some (ABool (negb (uSecure u)))
  | QIsSipsUri => Some (ABool (uSecure u))
  | QUser => Some (AText (orEmpty (uUser u)))
  | QPassword => Some (AText (orEmpty (uPass u)))
  | QIsIpv4 => Some (ABool (match hpHost (uHost u) with HIpv4 _ _ _ _ => true | _ => false end))
  | QIsIpv6 => Some (ABool (match hpHost (uHost u) with HIpv6 _ => true | _ => false end))
  | QIsHostname => Some (ABool (match hpHost (uHost u) with HName _ => true | _ => false end))
  | QHasPort => Some (ABool (match hpPort (uHost u) with Some _ => true | None => false end))
  | QPort => match hpPort (uHost u) with Some n => Some (ANum n) | None => None end
  | QParam [] => None
  | QParam name => Some (findParam name (uParams u))
  | _ => None
  end.
(** SipAddr.go:47-49. *)
Definition askAddr (x : addr) (q : ask) : option answer :=
  match q with
  | QHasDisplayName => Some (ABool (match aName x with None => true | Some _ => false end))
  | QIsSipUri => Some (ABool (match aUri x with ASip u => negb (uSecure u) | ATel _ => false end))
  | QIsSipsUri => Some (ABool (match aUri x with ASip u => uSecure u | ATel _ => false end))
  | _ => None
  end.
Definition rawAnswer (x : option raw) : answer := match x with Some x => ARaw (rName x) (rValue x) | None => ANothing end.
Definition askRaws (l : list raw) (q : ask) : option answer :=
  match q with
  | QFindKnown i => Some (rawAnswer (findKnownRaw l i))
  | QFindUnknown name => match findUnknownRaw l name with Some x => Some (rawAnswer x) | None => None end
  | _ => None
  end.
(** The values of a parsed header, as Encode writes them (encSlot of Msg.v without the name and the line end). *)
Definition valuesText (e : env) (i : N) (vs : list hval) : bytes :=
  match vs with [] => [] | v :: vs' => encSlotValue e i v ++ if hiMulti (slotInfo i) then encMore e i vs' else [] end.
Definition askMsg (e : env) (x : msg) (q : ask) : option answer :=
  match q with
  | QMultiBody => Some (ABool (hasMulti x))
  | QHeader i => Some (match getHeaderByIndex (mHdrs x) i with Some (inl vs) => AParsed (valuesText e i vs) | Some (inr r) => rawAnswer (Some r) | None => ANothing end)
  | _ => None
  end.
Definition askValue (e : env) (o : wobj) (q : ask) : option answer :=
  match o with
  | WObj (OSipUri u) => askUri u q
  | WObj (OAddr x) => askAddr x q
  | WRaws l => askRaws l q
  | WMsg x => askMsg e x q
  | _ => None
  end.
(** SipMsg.go:312-343 (SipMsg.RemoveContentHeaders): what is left of the other headers. Leading Content-* headers go; after the first header that stays, everything up to the last
    Content-* header goes (prevHeader stays at the first header that is kept). *)
Fixpoint afterLastBy {A} (test : A -> bool) (l : list A) : option (list A) :=
  match l with
  | [] => None
  | x :: l' => match afterLastBy test l' with Some r => Some r | None => if test x then Some l' else None end
  end.
Fixpoint removeBy {A} (test : A -> bool) (l : list A) : list A :=
  match l with
  | [] => []
  | x :: l' => if test x then removeBy test l' else x :: match afterLastBy test l' with Some r => r | None => l' end
  end.
Definition removeRaws (l : list raw) : list raw := removeBy contentTest l.
Definition removeContent (x : msg) : msg := mkmsg (mStart x) (mkhset (setNth (hsCommon (mHdrs x)) 12 []) (removeRaws (hsRaw (mHdrs x)))) (mBodies x).
