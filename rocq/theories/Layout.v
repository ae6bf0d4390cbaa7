(** The Go structs that live in the arena: memory layout, allocation and Init. The arena model (Arena.v) hands out byte
    ranges; here the ranges are given the field structure of the Go types. *)
From Verif Require Import Base Num Arena.

(** Go types occurring in the structs: byte/bool, uint16 (AbnfPtr is uint16, AbnfPtr.go:13-13 (AbnfPtr); SipHeaderIndexType
    is uint16, SipHeadersInfo.go:8-8 (SipHeaderIndexType)), uint32, arrays and structs. *)
Inductive ty :=
| TByte | TU16 | TU32
| TArr (n : N) (t : ty)
| TRec (fs : list (string * ty)).
Definition TPtr := TU16.

(** unsafe.Sizeof and alignment as specified by the gc compiler: a field is placed at the next multiple of its alignment,
    the struct is padded to a multiple of the largest alignment (external, assumed). *)
Definition roundUp (x a : N) : N := (x + a - 1) / a * a.
Fixpoint alignOf (t : ty) : N :=
  match t with
  | TByte => 1 | TU16 => 2 | TU32 => 4
  | TArr _ t' => alignOf t'
  | TRec fs => fold_right (fun f m => N.max (alignOf (snd f)) m) 1 fs
  end.
Fixpoint sizeOf (t : ty) : N :=
  match t with
  | TByte => 1 | TU16 => 2 | TU32 => 4
  | TArr n t' => n * sizeOf t'
  | TRec fs => roundUp (fold_left (fun off f => roundUp off (alignOf (snd f)) + sizeOf (snd f)) fs 0) (alignOf t)
  end.
(** Name, offset and type of each field of a struct, fields starting from offset [off]. *)
Fixpoint fieldsFrom (off : N) (fs : list (string * ty)) : list (string * N * ty) :=
  match fs with
  | [] => []
  | (n, t) :: fs' => let o := roundUp off (alignOf t) in (n, o, t) :: fieldsFrom (o + sizeOf t) fs'
  end.
Definition fields (t : ty) : list (string * N * ty) := match t with TRec fs => fieldsFrom 0 fs | _ => [] end.

Local Open Scope string_scope.
(** SipHostPort.go:16-21 (SipHostPort). *)
Definition tHostPort := TRec [("id", TByte); ("hasPort", TByte); ("port", TU16); ("data", TPtr)].
(** SipUri.go:48-50 (SipUriKnownParams), 6 entries. *)
Definition tUriKnown := TRec [("params", TArr 6 TPtr)].
(** SipUri.go:60-70 (SipUri). *)
Definition tSipUri := TRec [("isSecure", TByte); ("user", TPtr); ("password", TPtr); ("hostport", tHostPort); ("params", TPtr); ("headers", TPtr); ("knownParams", TPtr)].
(** TelUri.go:32-34 (TelUriKnownParams), 2 entries. *)
Definition tTelKnown := TRec [("params", TArr 2 TPtr)].
(** TelUri.go:44-51 (TelUri). *)
Definition tTelUri := TRec [("IsGlobalNumber", TByte); ("ContextIsDomain", TByte); ("number", TPtr); ("context", TPtr); ("params", TPtr); ("knownParams", TPtr)].
(** UriParam.go:13-17 (UriParam), UriHeader.go:8-12 (UriHeader). *)
Definition tUriParam := TRec [("name", TPtr); ("value", TPtr); ("next", TPtr)].
Definition tUriHeader := TRec [("name", TPtr); ("value", TPtr); ("next", TPtr)].
(** SipAddr.go:22-29 (SipAddr). *)
Definition tAddr := TRec [("addrType", TByte); ("uriType", TByte); ("displayNameIsQuotedString", TByte); ("scheme", TPtr); ("displayName", TPtr); ("addr", TPtr)].
(** SipGenericParam.go:20-25 (SipGenericParam). *)
Definition tGenParam := TRec [("name", TPtr); ("value", TPtr); ("next", TPtr); ("valueType", TByte)].
(** SipMethod.go:25-29 (SipMethod), SipVersion.go:12-14 (SipVersion). *)
Definition tMethod := TRec [("method", TPtr)].
Definition tVersion := TRec [("version", TPtr)].
(** SipStartLine.go:8-15 (SipStartLine). *)
Definition tStartLine := TRec [("isRequest", TByte); ("statusCode", TU16); ("method", tMethod); ("version", tVersion); ("addr", tAddr); ("reasonPhrase", TPtr)].
(** SipHeaders.go:15-20 (SipHeader). *)
Definition tSipHeader := TRec [("id", TU16); ("hname", TPtr); ("hvalue", TPtr); ("next", TPtr)].
(** The header structs, one file each: SipHeaderFrom.go:34-38 (SipHeaderFrom), SipHeaderTo.go:34-38 (SipHeaderTo),
    SipHeaderVia.go:42-45 (SipSentProtocol), SipHeaderVia.go:55-62 (SipHeaderVia), SipHeaderContact.go:36-42 (SipHeaderContact), SipHeaderRoute.go:8-13 (SipHeaderRoute),
    SipHeaderRecordRoute.go:8-13 (SipHeaderRecordRoute), SipHeaderPath.go:8-13 (SipHeaderPath), SipHeaderServiceRoute.go:8-13 (SipHeaderServiceRoute),
    SipHeaderPAssertedIdentity.go:8-11 (SipHeaderPAssertedIdentity), SipHeaderCSeq.go:8-11 (SipHeaderCSeq), SipHeaderRAck.go:8-12 (SipHeaderRAck),
    SipHeaderRSeq.go:8-10 (SipHeaderRSeq), SipHeaderExpires.go:8-10 (SipHeaderExpires), SipHeaderMaxForwards.go:8-10 (SipHeaderMaxForwards),
    SipHeaderContentLength.go:8-11 (SipHeaderContentLength), SipHeaderContentType.go:34-39 (SipHeaderContentType),
    SipHeaderContentDisposition.go:34-38 (SipHeaderContentDisposition), SipHeaderCallID.go:8-11 (SipHeaderCallID). *)
Definition tFrom := TRec [("addr", tAddr); ("params", TPtr); ("knownParams", TPtr)].
Definition tTo := TRec [("addr", tAddr); ("params", TPtr); ("knownParams", TPtr)].
Definition tSentProtocol := TRec [("name", TPtr); ("version", TPtr)].
Definition tVia := TRec [("sentProtocol", TPtr); ("transport", TPtr); ("sentBy", tHostPort); ("params", TPtr); ("knownParams", TPtr); ("next", TPtr)].
Definition tContact := TRec [("isStar", TByte); ("addr", tAddr); ("params", TPtr); ("knownParams", TPtr); ("next", TPtr)].
Definition tRoute := TRec [("addr", tAddr); ("params", TPtr); ("knownParams", TPtr); ("next", TPtr)].
Definition tRecordRoute := TRec [("addr", tAddr); ("params", TPtr); ("knownParams", TPtr); ("next", TPtr)].
Definition tPath := TRec [("addr", tAddr); ("params", TPtr); ("knownParams", TPtr); ("next", TPtr)].
Definition tServiceRoute := TRec [("addr", tAddr); ("params", TPtr); ("knownParams", TPtr); ("next", TPtr)].
Definition tPai := TRec [("addr", tAddr); ("next", TPtr)].
Definition tCSeq := TRec [("id", TU32); ("method", tMethod)].
Definition tRAck := TRec [("rseq", TU32); ("cseq", TU32); ("method", tMethod)].
Definition tRSeq := TRec [("size", TU32)].
Definition tExpires := TRec [("size", TU32)].
Definition tMaxForwards := TRec [("size", TByte)].
Definition tContentLength := TRec [("size", TU32); ("encodeEnd", TU32)].
Definition tContentType := TRec [("mainType", TPtr); ("subType", TPtr); ("params", TPtr); ("knownParams", TPtr)].
Definition tContentDisposition := TRec [("dispType", TPtr); ("params", TPtr); ("knownParams", TPtr)].
Definition tCallID := TRec [("id1", TPtr); ("id2", TPtr)].
(** The known-parameter tables: SipHeaderFrom.go:22-24 (SipFromKnownParams), SipHeaderTo.go:22-24 (SipToKnownParams), SipHeaderVia.go:30-32 (SipViaKnownParams),
    SipHeaderContact.go:24-26 (SipContactKnownParams), SipHeaderContentType.go:22-24 (SipContentTypeKnownParams), SipHeaderContentDisposition.go:22-24 (SipContentDispositionKnownParams). *)
Definition tFromKnown := TRec [("params", TArr 1 TPtr)].
Definition tToKnown := TRec [("params", TArr 1 TPtr)].
Definition tViaKnown := TRec [("params", TArr 5 TPtr)].
Definition tContactKnown := TRec [("params", TArr 2 TPtr)].
Definition tContentTypeKnown := TRec [("params", TArr 1 TPtr)].
Definition tContentDispositionKnown := TRec [("params", TArr 1 TPtr)].
(** SipMsgBody.go:29-35 (SipMsgBody), SipMsg.go:97-103 (SipMsg). *)
Definition tMsgBody := TRec [("id", TU32); ("body", TPtr); ("headers", TPtr); ("next", TPtr); ("commonHeaders", TArr 3 TPtr)].
Definition tMsg := TRec [("startLine", tStartLine); ("commonHeaders", TArr 19 TPtr); ("commonBodies", TArr 3 TPtr); ("headers", TPtr); ("bodies", TPtr)].

(** A type with an Init method: its name, its layout and the layout whose size the method passes to ZeroMem
    (e.g. SipAddr.go:39-41 (SipAddr.Init), SipHeaderVia.go:76-78 (SipHeaderVia.Init), which clears the size of a SipHeaderTo). *)
Definition initTypes : list (string * ty * ty) :=
  [ ("SipAddr", tAddr, tAddr); ("SipGenericParam", tGenParam, tGenParam); ("SipHeaderCSeq", tCSeq, tCSeq);
    ("SipHeaderCallID", tCallID, tCallID); ("SipHeaderContact", tContact, tContact);
    ("SipHeaderContentDisposition", tContentDisposition, tContentDisposition);
    ("SipHeaderContentLength", tContentLength, tContentLength); ("SipHeaderContentType", tContentType, tContentType);
    ("SipHeaderExpires", tExpires, tExpires); ("SipHeaderFrom", tFrom, tFrom); ("SipHeaderMaxForwards", tMaxForwards, tMaxForwards);
    ("SipHeaderPAssertedIdentity", tPai, tPai); ("SipHeaderPath", tPath, tPath); ("SipHeaderRAck", tRAck, tRAck);
    ("SipHeaderRSeq", tRSeq, tRSeq); ("SipHeaderRecordRoute", tRecordRoute, tRecordRoute); ("SipHeaderRoute", tRoute, tRoute);
    ("SipHeaderServiceRoute", tServiceRoute, tServiceRoute); ("SipHeaderTo", tTo, tTo); ("SipHeaderVia", tVia, tTo);
    ("SipHeader", tSipHeader, tSipHeader); ("SipHostPort", tHostPort, tHostPort); ("SipMethod", tMethod, tMethod);
    ("SipMsg", tMsg, tMsg); ("SipMsgBody", tMsgBody, tMsgBody); ("SipStartLine", tStartLine, tStartLine);
    ("SipUri", tSipUri, tSipUri); ("SipVersion", tVersion, tVersion); ("TelUri", tTelUri, tTelUri) ].

(** [this.Init()] of an object at address [p]: ZeroMem(this.memAddr(), size). *)
Definition InitObj (cleared : ty) (m : N -> N) (p : N) : N -> N := ZeroMem m p (sizeOf cleared).

(** NewX(context) (e.g. SipAddr.go:35-37 (NewSipAddr)): AllocWithClear of the size. *)
Definition NewObj (t : ty) (a : arena) : N * arena := AllocWithClear (sizeOf t) a.
