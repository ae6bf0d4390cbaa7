(** What "the same" means for two parsed values, and which parsed values are written in a form that can be read again. *)
From Verif Require Import Base LwsSpec StrSpec Monad Host Uri UriSpec Tel GenParam GenParamSpec Addr AddrSpec StartLine StartLineSpec Headers HeadersSpec RawHeaders RawSpec Msg MsgSpec.

(** ** The same up to the letter case of the recognised parameter names (which are written in the library's own spelling) *)
(** Two entries of a table of recognised parameters: absent in both, or the same value under a name that differs in letter case at most. *)
Definition sameEntry {A V} (name : A -> bytes) (value : A -> V) (x y : option A) : Prop :=
  match x, y with
  | None, None => True
  | Some p, Some q => sameNoCase (name p) (name q) /\ value p = value q
  | _, _ => False
  end.
Definition sameKnown {A V} (name : A -> bytes) (value : A -> V) (s t : known A) : Prop :=
  match s, t with
  | None, None => True
  | Some a, Some b => Forall2 (sameEntry name value) a b
  | _, _ => False
  end.
Definition sameSip (x y : sipuri) : Prop :=
  uSecure x = uSecure y /\ uUser x = uUser y /\ uPass x = uPass y /\ uHost x = uHost y /\ sameKnown upName upValue (uKnown x) (uKnown y) /\
  uParams x = uParams y /\ uHeaders x = uHeaders y.
(** A global number (RFC 3966) has no context: one that was read is not written. *)
Definition sameTelUri (x y : teluri) : Prop :=
  tGlobal x = tGlobal y /\ tNumber x = tNumber y /\ sameKnown upName upValue (tKnown x) (tKnown y) /\ tParams x = tParams y /\
  (if tGlobal x then tContext y = None else tDomain x = tDomain y /\ sameEntry upName upValue (tContext x) (tContext y)).
Definition sameAUri (x y : auri) : Prop :=
  match x, y with ASip a, ASip b => sameSip a b | ATel a, ATel b => sameTelUri a b | _, _ => False end.
Definition sameAddr (a b : addr) : Prop := aAngle a = aAngle b /\ aName a = aName b /\ sameAUri (aUri a) (aUri b).
Definition sameParams (t t' : known gparam) (ps ps' : list gparam) : Prop := sameKnown gpName gpValue t t' /\ ps = ps'.
Definition sameLine (x y : startline) : Prop :=
  match x, y with
  | SRequest m a v, SRequest m' a' v' => m = m' /\ sameAddr a a' /\ v = v'
  | SStatus v c t, SStatus v' c' t' => v = v' /\ c = c' /\ t = t'
  | _, _ => False
  end.
Definition sameHVal (x y : hval) : Prop :=
  match x, y with
  | VAddr a t ps, VAddr a' t' ps' => sameAddr a a' /\ sameParams t t' ps ps'
  | VVia p tr h t ps, VVia p' tr' h' t' ps' => p = p' /\ tr = tr' /\ h = h' /\ sameParams t t' ps ps'
  | VType m s t ps, VType m' s' t' ps' => m = m' /\ s = s' /\ sameParams t t' ps ps'
  | VDisp d t ps, VDisp d' t' ps' => d = d' /\ sameParams t t' ps ps'
  | VAddr _ _ _, _ | VVia _ _ _ _ _, _ | VType _ _ _ _, _ | VDisp _ _ _, _ => False
  | _, _ => x = y
  end.

(** ** Values whose text can be read again *)
(** A stored quoted text in which no line was folded (of a folded line end the LF is stored as a second CR, C27). *)
Definition unfolded (t : bytes) : Prop := forall a b, t <> a ++ 13 :: 13 :: b.
Definition plainParam (p : gparam) : Prop := match gpValue p with Some (GQuoted t) => unfolded t | _ => True end.
Definition plainParams (t : known gparam) (ps : list gparam) : Prop :=
  Forall plainParam ps /\ match t with Some tbl => forall p, In (Some p) tbl -> plainParam p | None => True end.
(** A URI header whose value is missing (the input ended behind its "=", C23). *)
Definition plainUri (u : auri) : Prop := match u with ASip x => forall h, In h (uHeaders x) -> upValue h <> None | ATel _ => True end.
Definition plainAddr (a : addr) : Prop := match aName a with Some (true, t) => unfolded t | _ => True end /\ plainUri (aUri a).
(** A request to a telephone number is not written (C30). *)
Definition plainLine (e : env) (l : startline) : Prop :=
  match l with
  | SRequest _ a _ => plainAddr a /\ exists x, aUri a = ASip x
  | SStatus _ _ t => eReasonNoEscape e = true -> forallb (fun b => CharsetSpec.rfcReason b && negb (b =? 9)) t = true
  end.
(** "SIP / 2.0x" can be read and "SIP/2.0x" cannot (C29). *)
Definition plainProto (p : sentproto) : Prop :=
  match p with
  | Proto20 => True
  | ProtoOther n v => sameNoCase n (s2b "sip") -> forall w, v = s2b "2.0" ++ w -> exists d w', w = d :: w' /\ CharsetSpec.rfcDIGIT d = true
  end.
Definition plainHVal (k : hkind) (v : hval) : Prop :=
  match v with
  | VAddr a t ps => plainAddr a /\ plainParams t ps /\ (k = KContact -> notStarred a)
  | VVia p _ _ t ps => plainProto p /\ plainParams t ps
  | VType _ _ t ps | VDisp _ t ps => plainParams t ps
  | _ => True
  end.
(** A host without user part that is written without angle brackets (EncodeUriAsNameSpace off): no "@" in the header parameters behind it. *)
Definition plainAt (e : env) (v : hval) : Prop :=
  match v with
  | VAddr a t ps => bareForm e a -> match aUri a with ASip x => uUser x = None -> paramsNoAt t ps | ATel _ => True end
  | _ => True
  end.

(** ** Messages *)
Definition sameHdrs (h h' : hset) : Prop := Forall2 (Forall2 sameHVal) (hsCommon h) (hsCommon h') /\ hsRaw h = hsRaw h'.
Definition sameBody (b b' : body) : Prop := sameHdrs (bHdrs b) (bHdrs b') /\ bData b = bData b'.
Definition sameMsg (m m' : msg) : Prop := sameLine (mStart m) (mStart m') /\ sameHdrs (mHdrs m) (mHdrs m') /\ Forall2 sameBody (mBodies m) (mBodies m').
(** A header kept as text: its value is not empty and does not start with white space, and the library has a name to write (C35). *)
Definition plainRaw (x : raw) : Prop :=
  rValue x <> [] /\ ~ startsWsp (rValue x) /\ ~ startsCRLF (rValue x) /\ match rName x with Some n => ~ In 13 n | None => In (rId x) writtenHeaders end.
(** Entry 0 is never written: with ParseSipHeaderAsRaw set it holds the Content-Type of a body part (C38). *)
Definition plainHdrs (o : owner) (e : env) (h : hset) : Prop :=
  nth 0 (hsCommon h) [] = [] /\
  (forall i k several vs, In (i, vs) (combine (slotIndexes o) (hsCommon h)) -> In (i, (k, several)) structured -> Forall (fun v => plainHVal k v /\ plainAt e v) vs) /\
  Forall plainRaw (hsRaw h).
