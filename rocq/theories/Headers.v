(** The structured headers: SipHeaderFrom.go, SipHeaderTo.go, SipHeaderVia.go, SipHeaderContact.go, SipHeaderRoute.go, SipHeaderRecordRoute.go,
    SipHeaderPath.go, SipHeaderServiceRoute.go, SipHeaderPAssertedIdentity.go, SipHeaderCSeq.go, SipHeaderRAck.go, SipHeaderRSeq.go, SipHeaderExpires.go,
    SipHeaderMaxForwards.go, SipHeaderContentLength.go, SipHeaderContentType.go, SipHeaderContentDisposition.go, SipHeaderCallID.go. Value layer. *)
From Verif Require Import Base Charset Num Lws Str Monad MethodTree Lookup Host Uri Tel GenParam Addr StartLine.

(** One constructor per Go header type. *)
Inductive hkind := KFrom | KTo | KVia | KContact | KRoute | KRecordRoute | KPath | KServiceRoute | KPai | KCSeq | KRAck | KRSeq | KExpires | KMaxForwards
  | KContentLength | KContentType | KContentDisposition | KCallID.

(** SipHeaderVia.go:55-62 (type SipHeaderVia) (sentProtocol: the constant SIP_VERSION_2_0 or a name and a version; told apart by the top bit, see DESIGN.md). *)
Inductive sentproto := Proto20 | ProtoOther (name ver : bytes).

(** The contents of the header structs (SipHeaderFrom.go:34-38 (type SipHeaderFrom) and the other [SipHeader...] types), without the [next] pointers of the
    multi-valued ones and without [encodeEnd] of SipHeaderContentLength.go:8-11 (type SipHeaderContentLength). *)
Inductive hval :=
| VAddr (a : addr) (t : known gparam) (ps : list gparam)
| VStar
| VVia (p : sentproto) (transport : bytes) (h : hostport) (t : known gparam) (ps : list gparam)
| VCSeq (n : N) (m : method)
| VRAck (r c : N) (m : method)
| VNum (n : N)
| VType (main sub : bytes) (t : known gparam) (ps : list gparam)
| VDisp (d : bytes) (t : known gparam) (ps : list gparam)
| VCall (w : bytes) (w2 : option bytes).

(** The recognised parameters (the [g_Sip...KnownParamInfo] tables at the top of the files; the Route family has none: its SetKnownParams
    answers false), and the context flag that switches them on. *)
Definition knownNames (k : hkind) : list bytes :=
  match k with
  | KFrom | KTo => [s2b "tag"]
  | KVia => [s2b "branch"; s2b "received"; s2b "rport"; s2b "ttl"; s2b "maddr"]
  | KContact => [s2b "expires"; s2b "q"]
  | KContentType => [s2b "boundary"]
  | KContentDisposition => [s2b "handling"]
  | _ => []
  end.
Definition knownOn (k : hkind) : env -> bool :=
  match k with
  | KFrom => fFromKnown
  | KTo => fToKnown
  | KVia => fViaKnown
  | KContact => fContactKnown
  | KContentType => fContentTypeKnown
  | KContentDisposition => fContentDispositionKnown
  | _ => noKnown
  end.
Definition parseParams (k : hkind) : P (known gparam * list gparam) := parseGenParams 59 (knownOn k) (knownNames k).

(** The general branch of SipHeaderVia.go:196-250 (SipHeaderVia.parseSentProtocol). *)
Definition otherProtocol : P sentproto :=
  allocStruct 4 ;;; (n <- paCString SIP_TOKEN ;; pSWSMark 47 ;;; (v <- paCString SIP_TOKEN ;; pSWSMark 47 ;;; ret (ProtoOther n v))).
(** SipHeaderVia.go:196-250 (SipHeaderVia.parseSentProtocol). *)
Definition parseSentProtocol : P sentproto := onRest (fun r => match r with
  | a :: b :: c :: d :: x :: y :: z :: ((w :: _) as r7) =>
      if lc a 115 && lc b 105 && lc c 112 && (d =? 47) && (x =? 50) && (y =? 46) && (z =? 48) && negb (IsDigit w)
      then goto r7 ;;; (pSWSMark 47 ;;; ret Proto20)
      else otherProtocol
  | _ => otherProtocol
  end).

(** SipHeaderFrom.go:104-122 (SipHeaderFrom.ParseValueWithoutInit), SipHeaderTo.go:102-120 (SipHeaderTo.ParseValueWithoutInit). *)
Definition parseFromTo (k : hkind) : P hval := a <- parseAddr false ;; tp <- parseParams k ;; ret (VAddr a (fst tp) (snd tp)).
(** SipHeaderVia.go:161-194 (SipHeaderVia.ParseValueWithoutInit). *)
Definition parseVia : P hval :=
  p <- parseSentProtocol ;; t <- paCString SIP_TOKEN ;; pLWS ;;; (h <- parseHostPort ;; tp <- parseParams KVia ;; ret (VVia p t h (fst tp) (snd tp))).
(** SipHeaderContact.go:166-200 (SipHeaderContact.ParseValueWithoutInit). *)
Definition parseContact : P hval :=
  pSWS ;;; onRest (fun r => match r with
    | [] => pfail
    | x :: r1 => if x =? 42 then goto r1 ;;; (pSWS ;;; ret VStar) else parseFromTo KContact
    end).
(** SipHeaderRoute.go:77-95 (SipHeaderRoute.ParseValueWithoutInit), SipHeaderRecordRoute.go:77-95 (SipHeaderRecordRoute.ParseValueWithoutInit),
    SipHeaderPath.go:77-95 (SipHeaderPath.ParseValueWithoutInit), SipHeaderServiceRoute.go:77-95 (SipHeaderServiceRoute.ParseValueWithoutInit). *)
Definition parseRoute (k : hkind) : P hval := a <- parseNameAddr ;; tp <- parseParams k ;; ret (VAddr a (fst tp) (snd tp)).
(** SipHeaderPAssertedIdentity.go:74-82 (SipHeaderPAssertedIdentity.ParseValueWithoutInit). *)
Definition parsePai : P hval := a <- parseAddr false ;; ret (VAddr a None []).
(** SipHeaderCSeq.go:75-99 (SipHeaderCSeq.ParseValueWithoutInit). *)
Definition parseCSeq : P hval := n <- pUIntW two32 ;; pLWS ;;; (m <- parseMethod ;; ret (VCSeq n m)).
(** SipHeaderRAck.go:80-120 (SipHeaderRAck.ParseValueWithoutInit). *)
Definition parseRAck : P hval := r <- pUIntW two32 ;; pLWS ;;; (c <- pUIntW two32 ;; pLWS ;;; (m <- parseMethod ;; ret (VRAck r c m))).
(** SipHeaderRSeq.go:72-83 (SipHeaderRSeq.ParseValueWithoutInit), SipHeaderExpires.go:72-83 (SipHeaderExpires.ParseValueWithoutInit),
    SipHeaderMaxForwards.go:72-83 (SipHeaderMaxForwards.ParseValueWithoutInit) (one byte), SipHeaderContentLength.go:74-85 (SipHeaderContentLength.ParseValueWithoutInit). *)
Definition parseNum (w : N) : P hval := n <- pUIntW w ;; ret (VNum n).
(** SipHeaderContentType.go:116-145 (SipHeaderContentType.ParseValueWithoutInit). *)
Definition parseContentType : P hval :=
  m <- paCString SIP_TOKEN ;; pSWSMark 47 ;;; (s <- paCString SIP_TOKEN ;; tp <- parseParams KContentType ;; ret (VType m s (fst tp) (snd tp))).
(** SipHeaderContentDisposition.go:110-128 (SipHeaderContentDisposition.ParseValueWithoutInit). *)
Definition parseContentDisposition : P hval := d <- paCString SIP_TOKEN ;; tp <- parseParams KContentDisposition ;; ret (VDisp d (fst tp) (snd tp)).
(** SipHeaderCallID.go:77-98 (SipHeaderCallID.ParseValueWithoutInit). *)
Definition parseCallID : P hval :=
  w <- paCString SIP_WORD ;;
  onRest (fun r => match r with
    | x :: r1 => if x =? 64 then goto r1 ;;; (w2 <- paCString SIP_WORD ;; ret (VCall w (Some w2))) else ret (VCall w None)
    | [] => ret (VCall w None)
    end).
(** ParseValueWithoutInit of each type. *)
Definition parseHVal (k : hkind) : P hval :=
  match k with
  | KFrom | KTo => parseFromTo k
  | KVia => parseVia
  | KContact => parseContact
  | KRoute | KRecordRoute | KPath | KServiceRoute => parseRoute k
  | KPai => parsePai
  | KCSeq => parseCSeq
  | KRAck => parseRAck
  | KRSeq | KExpires | KContentLength => parseNum two32
  | KMaxForwards => parseNum two8
  | KContentType => parseContentType
  | KContentDisposition => parseContentDisposition
  | KCallID => parseCallID
  end.

(** The fixed struct sizes ([unsafe.Sizeof]) allocated by the [ParseSip...] functions; ParseSipServiceRoute allocates a SipHeaderRecordRoute
    (SipHeaderServiceRoute.go:140-148 (ParseSipServiceRoute)), which has the same size. *)
Definition hvalSize (k : hkind) : N :=
  match k with
  | KFrom | KTo => 14 | KVia => 16 | KContact => 18 | KRoute | KRecordRoute | KPath | KServiceRoute => 16 | KPai => 12 | KCSeq => 8 | KRAck => 12
  | KRSeq | KExpires => 4 | KMaxForwards => 1 | KContentLength => 8 | KContentType => 8 | KContentDisposition => 6 | KCallID => 4
  end.
(** SipHeaderFrom.go:203-211 (ParseSipFrom) and the functions of the same shape in the other files. *)
Definition parseSipX (k : hkind) : P hval := allocStruct (hvalSize k) ;;; parseHVal k.

(** Per-byte tests of the parseHeaderName functions: [(src[i] | 0x20) == c] and [src[i] == c]. *)
Inductive btest := T (c : N) | X (c : N).
Definition testByte (t : btest) (x : N) : bool := match t with T c => lc x c | X c => x =? c end.
Fixpoint matchTests (ts : list btest) (r : bytes) : option bytes :=
  match ts, r with
  | [], x :: _ => if (x =? 58) || IsWspChar x then Some r else None
  | [], [] => None
  | t :: ts', x :: r' => if testByte t x then matchTests ts' r' else None
  | _ :: _, [] => None
  end.
Definition tests (s : string) : list btest := map T (s2b s).
(** The spellings accepted by the parseHeaderName method of each type (SipHeaderFrom.go:167-201 (SipHeaderFrom.parseHeaderName),
    SipHeaderTo.go:165-197 (SipHeaderTo.parseHeaderName), SipHeaderVia.go:295-328 (SipHeaderVia.parseHeaderName), SipHeaderContact.go:246-285 (SipHeaderContact.parseHeaderName),
    SipHeaderRoute.go:105-126 (SipHeaderRoute.parseHeaderName), SipHeaderRecordRoute.go:105-134 (SipHeaderRecordRoute.parseHeaderName),
    SipHeaderPath.go:105-125 (SipHeaderPath.parseHeaderName), SipHeaderServiceRoute.go:105-138 (SipHeaderServiceRoute.parseHeaderName),
    SipHeaderPAssertedIdentity.go:84-119 (SipHeaderPAssertedIdentity.parseHeaderName), SipHeaderCSeq.go:101-121 (SipHeaderCSeq.parseHeaderName),
    SipHeaderRAck.go:122-142 (SipHeaderRAck.parseHeaderName), SipHeaderRSeq.go:85-105 (SipHeaderRSeq.parseHeaderName), SipHeaderExpires.go:85-108 (SipHeaderExpires.parseHeaderName),
    SipHeaderMaxForwards.go:85-113 (SipHeaderMaxForwards.parseHeaderName), SipHeaderContentLength.go:87-133 (SipHeaderContentLength.parseHeaderName),
    SipHeaderContentType.go:233-284 (SipHeaderContentType.parseHeaderName), SipHeaderContentDisposition.go:173-223 (SipHeaderContentDisposition.parseHeaderName),
    SipHeaderCallID.go:100-139 (SipHeaderCallID.parseHeaderName)). Simplified to a list of alternatives: the length guards of the Go code fail exactly when the byte
    after the name, which must be ":" or a blank, is missing, and no input matches two alternatives. *)
Definition nameTests (k : hkind) : list (list btest) :=
  match k with
  | KFrom => [tests "f"; tests "from"]
  | KTo => [tests "t"; tests "to"]
  | KVia => [tests "v"; tests "via"]
  | KContact => [tests "contact"; tests "m"]
  | KRoute => [tests "route"]
  | KRecordRoute => [tests "record-route"]
  | KPath => [tests "path"]
  | KServiceRoute => [tests "service-route"]
  | KPai => [tests "p-asserted-identity"]
  | KCSeq => [tests "cseq"]
  | KRAck => [tests "rack"]
  | KRSeq => [tests "rseq"]
  | KExpires => [tests "expires"]
  | KMaxForwards => [tests "max" ++ X 45 :: tests "forwards"]
  | KContentLength => [tests "content" ++ X 45 :: tests "length"; tests "l"]
  | KContentType => [tests "c"; tests "content" ++ X 45 :: tests "type"; tests "l"]
  | KContentDisposition => [tests "content" ++ X 45 :: tests "disposition"; tests "l"]
  | KCallID => [tests "call" ++ X 45 :: tests "id"; tests "i"]
  end.
Fixpoint firstMatch (ts : list (list btest)) (r : bytes) : option bytes :=
  match ts with
  | [] => None
  | t :: ts' => match matchTests t r with Some r' => Some r' | None => firstMatch ts' r end
  end.
Definition parseHName (k : hkind) : P unit := onRest (fun r => match firstMatch (nameTests k) r with Some r' => goto r' | None => pfail end).
(** SipHeaderFrom.go:83-97 (SipHeaderFrom.ParseWithoutInit) and the methods of the same shape. *)
Definition parseHeader (k : hkind) : P hval := parseHName k ;;; (pHcolon ;;; parseHVal k).

(** SipHeaderVia.go:89-103 (SipHeaderVia.EncodeValue), first part. *)
Definition encProto (p : sentproto) : bytes := match p with Proto20 => s2b "SIP/2.0/" | ProtoOther n v => n ++ 47 :: v ++ [47] end.
(** [EncodeUIntWithWidth(buf, size, 10)] as in SipHeaderContentLength.go:38-42 (SipHeaderContentLength.EncodeValue). *)
Definition encContentLength (n : N) : bytes := match EncodeUIntWithWidth n 10 with Some b => b | None => [] end.
(** EncodeValue of each type: SipHeaderFrom.go:65-68 (SipHeaderFrom.EncodeValue), SipHeaderTo.go:65-68 (SipHeaderTo.EncodeValue), SipHeaderVia.go:89-103 (SipHeaderVia.EncodeValue),
    SipHeaderContact.go:69-76 (SipHeaderContact.EncodeValue), SipHeaderRoute.go:40-43 (SipHeaderRoute.EncodeValue), SipHeaderCSeq.go:38-42 (SipHeaderCSeq.EncodeValue),
    SipHeaderRAck.go:39-45 (SipHeaderRAck.EncodeValue), SipHeaderRSeq.go:37-39 (SipHeaderRSeq.EncodeValue), SipHeaderContentType.go:66-71 (SipHeaderContentType.EncodeValue),
    SipHeaderContentDisposition.go:65-68 (SipHeaderContentDisposition.EncodeValue), SipHeaderCallID.go:38-44 (SipHeaderCallID.EncodeValue), ... *)
Definition encHVal (e : env) (k : hkind) (v : hval) : bytes :=
  match v with
  | VAddr a t ps => encAddr e a ++ encGenParams 59 (knownNames k) t ps
  | VStar => [42]
  | VVia p tr h t ps => encProto p ++ tr ++ 32 :: encHostPort e h ++ encGenParams 59 (knownNames k) t ps
  | VCSeq n m => encUInt n ++ 32 :: encMethod m
  | VRAck r c m => encUInt r ++ 32 :: encUInt c ++ 32 :: encMethod m
  | VNum n => match k with KContentLength => encContentLength n | _ => encUInt n end
  | VType m s t ps => m ++ 47 :: s ++ encGenParams 59 (knownNames k) t ps
  | VDisp d t ps => d ++ encGenParams 59 (knownNames k) t ps
  | VCall w w2 => w ++ match w2 with Some x => 64 :: x | None => [] end
  end.
(** The names written by Encode: SipHeaderFrom.go:60-63 (SipHeaderFrom.Encode) etc. *)
Definition hName (k : hkind) : bytes :=
  match k with
  | KFrom => s2b "From" | KTo => s2b "To" | KVia => s2b "Via" | KContact => s2b "Contact" | KRoute => s2b "Route" | KRecordRoute => s2b "Record-Route"
  | KPath => s2b "Path" | KServiceRoute => s2b "Service-Route" | KPai => s2b "P-Asserted-Identity" | KCSeq => s2b "CSeq" | KRAck => s2b "RAck"
  | KRSeq => s2b "RSeq" | KExpires => s2b "Expires" | KMaxForwards => s2b "Max-Forwards" | KContentLength => s2b "Content-Length"
  | KContentType => s2b "Content-Type" | KContentDisposition => s2b "Content-Disposition" | KCallID => s2b "Call-ID"
  end.
Definition encHeader (e : env) (k : hkind) (v : hval) : bytes := hName k ++ s2b ": " ++ encHVal e k v.
