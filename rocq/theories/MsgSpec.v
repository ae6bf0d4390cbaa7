(** Which messages the theorems about SipMsg.go speak about. *)
From Verif Require Import Base Charset CharsetSpec Num LwsSpec StrSpec Monad MethodTree HeaderTree Host HostSpec Uri UriSpec Tel TelSpec GenParam GenParamSpec Addr AddrSpec
  StartLine StartLineSpec Headers HeadersSpec RawHeaders RawSpec Msg.

(** An address whose end can be told when it is read again: one that is written in angle brackets, or (EncodeUriAsNameSpace off) a URI without parameters or headers
    of its own and, if it has no user part, without "@" in the header parameters behind it. *)
Definition paramNoAt (p : gparam) : Prop := match gpValue p with Some (GToken t) | Some (GQuoted t) | Some (GBracket t) => ~ In 64 t | None => True end.
Definition paramsNoAt (t : known gparam) (ps : list gparam) : Prop :=
  Forall paramNoAt ps /\ match t with Some tbl => forall p, In (Some p) tbl -> paramNoAt p | None => True end.
Definition delimited (e : env) (v : hval) : Prop :=
  match v with
  | VAddr a t ps => (aAngle a || eNameSpace e)%bool = true \/
      bareUri (aUri a) /\ match aUri a with ASip x => uUser x = None -> paramsNoAt t ps | ATel _ => True end
  | _ => True
  end.
(** The structured headers: the type of their values, and whether there may be several. *)
Definition structured : list (N * (hkind * bool)) := [
  (SIP_HDR_VIA, (KVia, true)); (SIP_HDR_ROUTE, (KRoute, true)); (SIP_HDR_CONTACT, (KContact, true)); (SIP_HDR_FROM, (KFrom, false)); (SIP_HDR_TO, (KTo, false));
  (SIP_HDR_CALL_ID, (KCallID, false)); (SIP_HDR_CONTENT_LENGTH, (KContentLength, false)); (SIP_HDR_CSEQ, (KCSeq, false)); (SIP_HDR_RECORD_ROUTE, (KRecordRoute, true));
  (SIP_HDR_CONTENT_TYPE, (KContentType, false)); (SIP_HDR_MAX_FORWARDS, (KMaxForwards, false)); (SIP_HDR_CONTENT_DISPOSITION, (KContentDisposition, false));
  (SIP_HDR_EXPIRES, (KExpires, false)); (SIP_HDR_PATH, (KPath, true)); (SIP_HDR_SERVICE_ROUTE, (KServiceRoute, true)); (SIP_HDR_RSEQ, (KRSeq, false)); (SIP_HDR_RACK, (KRAck, false));
  (SIP_HDR_P_ASSERTED_IDENTITY, (KPai, true))].
(** The headers that are read into structured values: in a message the three content headers and those whose NeedParse is set (by default, all), in a body part only the length
    and the disposition (not the type); with ParseSipHeaderAsRaw set the three content headers, in both. *)
Definition isRead (o : owner) (e : env) (i : N) : Prop :=
  if fHeaderAsRaw e then In i [SIP_HDR_CONTENT_TYPE; SIP_HDR_CONTENT_LENGTH; SIP_HDR_CONTENT_DISPOSITION]
  else match o with OMsg => In i [SIP_HDR_CONTENT_TYPE; SIP_HDR_CONTENT_LENGTH; SIP_HDR_CONTENT_DISPOSITION] \/ eNeed e i = true | OBody => In i [SIP_HDR_CONTENT_LENGTH; SIP_HDR_CONTENT_DISPOSITION] end.
Definition readAs (o : owner) (e : env) (i : N) (k : hkind) (several : bool) : Prop := In (i, (k, several)) structured /\ isRead o e i.
(** The values of one structured header: none, or values of the type of that header, one unless the header may have several. *)
Definition wfSlot (o : owner) (e : env) (iv : N * list hval) : Prop :=
  snd iv = [] \/
  exists k several, readAs o e (fst iv) k several /\
    Forall (fun v => wfHVal e k v /\ delimited e v) (snd iv) /\ (several = false -> List.length (snd iv) = 1%nat).
(** A set of headers: one list of values for each structured header (none for entry 0, which is never written), and other headers that are not of a structured type. *)
Definition wfHdrs (o : owner) (e : env) (h : hset) : Prop :=
  List.length (hsCommon h) = List.length (slotIndexes o) /\
  nth 0 (hsCommon h) [] = [] /\
  Forall (wfSlot o e) (combine (slotIndexes o) (hsCommon h)) /\
  Forall (fun x => wfRaw x /\ forall k several, ~ readAs o e (rId x) k several) (hsRaw h).
(** What comes back. *)
Definition hdrsAsWritten (e : env) (h : hset) : hset := mkhset (map (map (asWritten e)) (hsCommon h)) (hsRaw h).

(** The message with another Content-Length. *)
Definition withLength (n : N) (h : hset) : hset := mkhset (setNth (hsCommon h) 7 [VNum n]) (hsRaw h).
(** [sub p t]: [p] occurs in [t]. *)
Definition occurs (p t : bytes) : Prop := exists a b, t = a ++ p ++ b.
(** A body part: its headers, and data in which the delimiter does not occur. *)
Definition wfPart (e : env) (boundary : bytes) (b : body) : Prop := wfHdrs OBody e (bHdrs b) /\ ~ occurs (CRLF ++ s2b "--" ++ boundary) (bData b).
(** A body part with the Content-Length header, if it has one, stating the length of its data; and as it comes back. *)
Definition partWithLength (b : body) : body :=
  match nth 1 (hsCommon (bHdrs b)) [] with
  | [] => b
  | _ => mkbody (mkhset (setNth (hsCommon (bHdrs b)) 1 [VNum (len (bData b))]) (hsRaw (bHdrs b))) (bData b)
  end.
Definition partAsWritten (e : env) (b : body) : body := mkbody (hdrsAsWritten e (bHdrs b)) (bData b).

(** [n0] has no more decimal digits than [n]. *)
Definition noLonger (n0 n : N) : Prop := n0 < 10 \/ exists k, n0 < 10 ^ k /\ 10 ^ k <= 10 * n.
(** The number in the Content-Length header of the message (0 if there is none: that is what Encode starts with). *)
Definition statedLength (h : hset) : N := match nth 7 (hsCommon h) [] with VNum n :: _ => n | _ => 0 end.
(** What Encode needs to know about the Content-Length: there is at most one, a 32-bit number. *)
Definition lengthSlot (h : hset) : Prop := List.length (hsCommon h) = 19%nat /\ (nth 7 (hsCommon h) [] = [] \/ exists n, nth 7 (hsCommon h) [] = [VNum n] /\ n < two32).
(** The message headers with the MIME-Version header that a message with several bodies gets. *)
Definition withMime (h : hset) : hset :=
  mkhset (hsCommon h) (hsRaw h ++ if existsb (fun x => rId x =? SIP_HDR_MIME_VERSION) (hsRaw h) then [] else [mkraw SIP_HDR_MIME_VERSION None (s2b "1.0")]).
Definition wfMsg (e : env) (m : msg) : Prop := wfStartLine e (mStart m) /\ wfHdrs OMsg e (mHdrs m).
(** The Content-Type of the message: none; of one body; of several bodies with that boundary. *)
Definition noType (h : hset) : Prop := nth 10 (hsCommon h) [] = [].
Definition singleType (h : hset) : Prop := exists m s t ps, nth 10 (hsCommon h) [] = [VType m s t ps] /\ ~ sameNoCase m (s2b "multipart").
Definition multipartType (h : hset) (boundary : bytes) : Prop := exists m s t ps p v, nth 10 (hsCommon h) [] = [VType m s t ps] /\ sameNoCase m (s2b "multipart") /\
  t = Some [Some p] /\ gpValue p = Some v /\ match v with GToken x | GQuoted x | GBracket x => x = boundary end.
(** The boundary in the Content-Type of the message, or the one of the library if there is none; and the message with that boundary in its Content-Type. *)
Definition boundaryOf (h : hset) : bytes :=
  match nth 10 (hsCommon h) [] with
  | [VType _ _ (Some [Some p]) _] => match gpValue p with Some (GToken x) | Some (GQuoted x) | Some (GBracket x) => x | None => [] end
  | _ => s2b "sip-unique-boundary-aasdasdewfd"
  end.
Definition withBoundary (h : hset) : hset :=
  let new := Some [Some (mkgp (s2b "boundary") (Some (GQuoted (s2b "sip-unique-boundary-aasdasdewfd"))))] in
  match nth 10 (hsCommon h) [] with
  | [VType m s None ps] => mkhset (setNth (hsCommon h) 10 [VType m s new ps]) (hsRaw h)
  | [] => mkhset (setNth (hsCommon h) 10 [VType (s2b "multipart") (s2b "mixed") new []]) (hsRaw h)
  | _ => h
  end.
(** A type under which several bodies can be sent: none yet, or multipart. *)
Definition manyType (h : hset) : Prop := noType h \/ exists m s t ps, nth 10 (hsCommon h) [] = [VType m s t ps] /\ sameNoCase m (s2b "multipart").

(** [readsAs e text m r u]: parsing [text] with [u] bytes of the arena in use gives the message [m] and stops in front of [r], in every arena that is larger than some
    [u'], and [u'] exceeds [u] by at most nine bytes for every byte of the text. *)
Definition readsAs (e : env) (text : bytes) (m : msg) (r : bytes) (u : N) : Prop :=
  exists u', u <= u' <= u + 9 * len text /\
    forall arena, match arena with Some n => u' < n | None => True end -> parseMsg (withMem arena e) (mkst text u) = Ok m (mkst r u').
