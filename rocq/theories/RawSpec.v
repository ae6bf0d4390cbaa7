(** Header lines and raw header blocks: what the theorems about SipHeaders.go say. *)
From Verif Require Import Base Charset CharsetSpec LwsSpec StrSpec GenParamSpec MethodTree HeaderTree NameSpec Headers RawHeaders.

(** Every line feed inside is followed by a blank (RFC 3261 7.3.1: folding). *)
Definition folded (line : bytes) : Prop := forall a b, line = a ++ 10 :: b -> startsWsp b.
(** [headerLine r line r']: the input [r] starts with the (folded) line [line], ended by a line feed, and [r'] follows. *)
Definition headerLine (r line r' : bytes) : Prop := r = line ++ 10 :: r' /\ folded line /\ ~ startsWsp r'.
(** The line without the carriage return at its end; a line that is nothing but a carriage return is kept as it is. *)
Definition cutCR (line v : bytes) : Prop := line = v ++ [13] /\ v <> [] \/ line = v /\ ~ (exists p, p <> [] /\ line = p ++ [13]).

(** A name that the library does not take for one of the headers it knows. *)
Definition unknownName (n : bytes) : Prop := forall name i, In (name, i) (headerNames ++ compactNames ++ misspeltNames) -> ~ sameNoCase n name.
(** A value that survives: not empty, and not starting with white space. *)
Definition wfRawValue (v : bytes) : Prop := v <> [] /\ folded v /\ ~ startsWsp v /\ ~ startsCRLF v.
(** The headers, among those known by a number, whose name the library writes. *)
Definition writtenHeaders : list N := [SIP_HDR_FROM; SIP_HDR_TO; SIP_HDR_VIA; SIP_HDR_CALL_ID; SIP_HDR_CSEQ; SIP_HDR_CONTENT_LENGTH; SIP_HDR_CONTENT_TYPE; SIP_HDR_CONTACT;
  SIP_HDR_MAX_FORWARDS; SIP_HDR_ROUTE; SIP_HDR_RECORD_ROUTE; SIP_HDR_CONTENT_DISPOSITION; SIP_HDR_ALLOW; SIP_HDR_CONTENT_ENCODING; SIP_HDR_DATE; SIP_HDR_SUBJECT;
  SIP_HDR_SUPPORTED; SIP_HDR_ALLOW_EVENTS; SIP_HDR_EVENT; SIP_HDR_REFER_TO; SIP_HDR_ACCEPT_CONTACT; SIP_HDR_REJECT_CONTACT; SIP_HDR_REQUEST_DISPOSITION; SIP_HDR_REFERRED_BY;
  SIP_HDR_SESSION_EXPIRES; SIP_HDR_MIME_VERSION; SIP_HDR_EXPIRES; SIP_HDR_USER_AGENT; SIP_HDR_PATH; SIP_HDR_SERVICE_ROUTE; SIP_HDR_RSEQ; SIP_HDR_RACK;
  SIP_HDR_P_ASSERTED_IDENTITY].
(** A header that has its own name, or one of the headers for which the library has a name. *)
Definition wfRaw (h : raw) : Prop :=
  wfRawValue (rValue h) /\
  match rName h with
  | Some n => rId h = SIP_HDR_UNKNOWN /\ wfToken n /\ unknownName n
  | None => In (rId h) writtenHeaders
  end.

(** ** Header blocks *)
(** The name [p] written on the wire: one of the known headers (stored as its number only), or another token (stored). *)
Inductive nameIs : bytes -> option bytes -> N -> Prop :=
| NKnown p name i : In (name, i) (headerNames ++ compactNames ++ misspeltNames) -> sameNoCase p name -> nameIs p None i
| NOther p : wfToken p -> unknownName p -> nameIs p (Some p) SIP_HDR_UNKNOWN.
(** [headerBlock r hs r']: [r] starts with the header lines [hs] (name, colon, value, line end) and an empty line, or ends after the last header; [r'] follows. *)
Inductive headerBlock : bytes -> list raw -> bytes -> Prop :=
| HBEnd : headerBlock [] [] []
| HBEmptyLine r : headerBlock (13 :: 10 :: r) [] r
| HBLine p w t r1 line r2 h hs r' : nameIs p (rName h) (rId h) -> Forall wsp w -> SWS t r1 -> headerLine r1 line r2 -> cutCR line (rValue h) ->
    headerBlock r2 hs r' -> headerBlock (p ++ w ++ 58 :: t) (h :: hs) r'.
(** Every carriage return is part of a line end. *)
Definition crlfOnly (r : bytes) : Prop := forall a b, r = a ++ 13 :: b -> exists b', b = 10 :: b'.
