(** Which header values the round trip speaks about, and what may follow them. *)
From Verif Require Import Base Charset CharsetSpec Num BaseLemmas LwsSpec StrSpec Monad Host HostSpec Uri UriSpec Tel TelSpec GenParam GenParamSpec Addr AddrSpec StartLine StartLineSpec Headers.

(** A word of a Call-ID; "/" is missing from the library's character class (C01). *)
Definition callChar (b : N) : bool := rfcWord b && negb (b =? 47).
Definition wfWord (w : bytes) : Prop := w <> [] /\ forallb callChar w = true.
(** A protocol other than SIP/2.0: two tokens. A version starting with "2.0" and then something other than a digit is excluded after the name SIP: the
    library commits to SIP/2.0 when it sees it. *)
Definition wfProto (p : sentproto) : Prop :=
  match p with
  | Proto20 => True
  | ProtoOther n v => wfToken n /\ wfToken v /\
      (sameNoCase n (s2b "sip") -> forall w, v = s2b "2.0" ++ w -> exists d w', w = d :: w' /\ rfcDIGIT d = true)
  end.
(** A display name that does not start with "*" (in a Contact header that is read as the wildcard). *)
Definition notStarred (a : addr) : Prop := match aName a with Some (false, n) => forall t, n <> 42 :: t | _ => True end.
(** The header parameters (RFC 3261 20, 25.1; RFC 2045; RFC 2183) that are recognised by name, and the setting that switches the recognition on. *)
Definition paramNames (k : hkind) : list bytes :=
  match k with
  | KFrom | KTo => [s2b "tag"]
  | KVia => [s2b "branch"; s2b "received"; s2b "rport"; s2b "ttl"; s2b "maddr"]
  | KContact => [s2b "expires"; s2b "q"]
  | KContentType => [s2b "boundary"]
  | KContentDisposition => [s2b "handling"]
  | _ => []
  end.
Definition recognise (k : hkind) (e : env) : bool :=
  match k with
  | KFrom => fFromKnown e
  | KTo => fToKnown e
  | KVia => fViaKnown e
  | KContact => fContactKnown e
  | KContentType => fContentTypeKnown e
  | KContentDisposition => fContentDispositionKnown e
  | _ => false
  end.
Definition wfParams (e : env) (k : hkind) (t : known gparam) (ps : list gparam) : Prop := wfGenParams (recognise k e) (paramNames k) t ps.

Definition wfHVal (e : env) (k : hkind) (v : hval) : Prop :=
  match k, v with
  | KFrom, VAddr a t ps | KTo, VAddr a t ps => wfAddr e a /\ wfParams e k t ps
  | KContact, VAddr a t ps => wfAddr e a /\ wfParams e k t ps /\ notStarred a
  | KContact, VStar => True
  | KRoute, VAddr a t ps | KRecordRoute, VAddr a t ps | KPath, VAddr a t ps | KServiceRoute, VAddr a t ps => wfAddr e a /\ aAngle a = true /\ wfParams e k t ps
  | KPai, VAddr a None [] => wfAddr e a
  | KVia, VVia p tr h t ps => wfProto p /\ wfToken tr /\ wfHostPort e h /\ wfParams e k t ps
  | KCSeq, VCSeq n m => n < two32 /\ wfMethod m
  | KRAck, VRAck r c m => r < two32 /\ c < two32 /\ wfMethod m
  | KRSeq, VNum n | KExpires, VNum n | KContentLength, VNum n => n < two32
  | KMaxForwards, VNum n => n < 256
  | KContentType, VType m s t ps => wfToken m /\ wfToken s /\ wfParams e k t ps
  | KContentDisposition, VDisp d t ps => wfToken d /\ wfParams e k t ps
  | KCallID, VCall w w2 => wfWord w /\ match w2 with Some x => wfWord x | None => True end
  | _, _ => False
  end.

(** The address is written without angle brackets (only when EncodeUriAsNameSpace is off). *)
Definition bareForm (e : env) (a : addr) : Prop := (aAngle a || eNameSpace e)%bool = false.
(** What may follow a header value. A line end always may, except that a method must be followed by something. *)
Definition hFollow (e : env) (k : hkind) (v : hval) (rest : bytes) : Prop :=
  match v with
  | VAddr a t ps =>
      match k with KPai => noSws rest | _ => gpEnds 59 rest end /\
      (bareForm e a -> bareUri (aUri a) /\ bareEnds (aUri a) (encGenParams 59 (knownNames k) t ps ++ rest))
  | VStar => noSws rest
  | VVia _ _ _ _ _ => gpEnds 59 rest /\ hostEnds rest
  | VCSeq _ _ | VRAck _ _ _ => rest <> [] /\ stops rfcToken rest = true
  | VNum _ => stops rfcDIGIT rest = true
  | VType _ _ _ _ | VDisp _ _ _ => gpEnds 59 rest
  | VCall _ w2 => stops callChar rest = true /\ (w2 = None -> stops (fun b => b =? 64) rest = true)
  end.
(** What comes back: an address written in angle brackets comes back in them. *)
Definition asWritten (e : env) (v : hval) : hval :=
  match v with
  | VAddr a t ps => VAddr (mkaddr (aAngle a || eNameSpace e) (aName a) (aUri a)) t ps
  | _ => v
  end.
