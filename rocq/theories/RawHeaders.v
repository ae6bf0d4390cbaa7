(** SipHeaders.go: header lines, header names and raw header blocks; the header table of SipHeadersInfo.go. Value layer: a linked list of headers is a
    list (HeaderList.v has the pointers). *)
From Verif Require Import Base Charset Num Lws Str Monad MethodTree HeaderTree Lookup Host Uri Tel GenParam Addr StartLine Headers.

(** The loop of SipHeaders.go:315-372 (FindCrlfByRFC3261): the bytes up to and including the line feed that ends the line, and the rest ([None]: no such line feed).
    Each round consumes a byte, so the fuel below is enough. *)
Fixpoint findLoop (fuel : nat) (r : bytes) : option (bytes * bytes) :=
  match fuel with
  | O => None
  | S f =>
    match cutAfter 10 r with
    | None => None
    | Some (a, r1) =>
        match r1 with
        | [] => Some (a, r1)
        | x :: _ => if negb (IsWspChar x) then Some (a, r1)
                    else match findLoop f r1 with Some (b, r2) => Some (a ++ b, r2) | None => None end
        end
    end
  end.
(** SipHeaders.go:315-372 (FindCrlfByRFC3261): the bytes before the line end ([src[pos:begin]]) and the rest; [(pos + 2) < end] is the length test. *)
Definition FindCrlf (r : bytes) : option (bytes * bytes) :=
  match findLoop (S (List.length r)) r with
  | None => None
  | Some (a, r') =>
      Some (if Nat.ltb 2 (List.length a) && (nth (List.length a - 2) a 0 =? 13) then firstn (List.length a - 2) a else firstn (List.length a - 1) a, r')
  end.
(** SipHeaders.go:300-313 (parseRawHeaderValue): on a missing line end the position is the end of the input; a failed allocation leaves it after the line. *)
Definition rawValue : P bytes := onRest (fun r => match FindCrlf r with
  | None => goto [] ;;; pfail
  | Some (v, r') => goto r' ;;; allocCString v
  end).

(** SipHeaders.go:15-20 (type SipHeader): a NIL name is [None]. *)
Record raw := mkraw { rId : N; rName : option bytes; rValue : bytes }.

(** SipHeaders.go:173-196 (ParseHeaderName): the name is stored only for an unknown header. *)
Definition parseHeaderName : P (option bytes * N) := onRest (fun r => match GetSipHeaderIndex r with
  | None => panic
  | Some (i, mid) =>
      n <- (if i =? SIP_HDR_UNKNOWN then t <- paCStringFromPos mid SIP_TOKEN ;; ret (Some t) else goto mid ;;; ret None) ;;
      pHcolon ;;; ret (n, i)
  end).
(** SipHeaders.go:283-298 (parseRawHeaderEx). *)
Definition rawHeader (n : option bytes) (i : N) : P raw := allocStruct 8 ;;; (v <- rawValue ;; ret (mkraw i n v)).
(** One round of the loop of SipHeaders.go:84-118 (ParseRawHeaders) (and of SipHeaders.go:51-82 (ParseHeaders)); [hdr] does the part after the name. *)
Definition headersBody {A} (hdr : A -> option bytes -> N -> P A) (a : A) : P (A + A) := onRest (fun r => match r with
  | [] => ret (inr a)
  | x :: r1 =>
      if IsCRLF r then goto (tl r1) ;;; ret (inr a)
      else ni <- parseHeaderName ;; (a' <- hdr a (fst ni) (snd ni) ;; ret (inl a'))
  end).
(** SipHeaders.go:84-118 (ParseRawHeaders). *)
Definition parseRawHeaders : P (list raw) :=
  loopP (headersBody (fun a n i => h <- rawHeader n i ;; ret (a ++ [h]))) [].

(** SipHeadersInfo.go:10-22 (type SipHeaderInfo) without the functions: [hiKind] is the header type whose ParseFunc, EncodeFunc, AppendFunc and GetNextFunc are
    registered ([None]: NeedParse is false and they are nil). *)
Record hinfo := mkinfo { hiName : bytes; hiMulti : bool; hiKind : option hkind }.
(** SipHeadersInfo.go:48-84 (g_SipHeaderInfos), the SipHeaders of a new Context (AbnfContext.go:40-46); an index that is not listed has a nil entry. *)
Definition headerInfos : list (N * hinfo) := [
  (SIP_HDR_UNKNOWN, mkinfo (s2b "unknown") false None);
  (SIP_HDR_FROM, mkinfo (s2b "From") false (Some KFrom));
  (SIP_HDR_TO, mkinfo (s2b "To") false (Some KTo));
  (SIP_HDR_VIA, mkinfo (s2b "Via") true (Some KVia));
  (SIP_HDR_CALL_ID, mkinfo (s2b "Call-ID") false (Some KCallID));
  (SIP_HDR_CSEQ, mkinfo (s2b "CSeq") false (Some KCSeq));
  (SIP_HDR_CONTENT_LENGTH, mkinfo (s2b "Content-Length") false (Some KContentLength));
  (SIP_HDR_CONTENT_TYPE, mkinfo (s2b "Content-Type") false (Some KContentType));
  (SIP_HDR_CONTACT, mkinfo (s2b "Contact") true (Some KContact));
  (SIP_HDR_MAX_FORWARDS, mkinfo (s2b "Max-Forwards") false (Some KMaxForwards));
  (SIP_HDR_ROUTE, mkinfo (s2b "Route") true (Some KRoute));
  (SIP_HDR_RECORD_ROUTE, mkinfo (s2b "Record-Route") true (Some KRecordRoute));
  (SIP_HDR_CONTENT_DISPOSITION, mkinfo (s2b "Content-Disposition") false (Some KContentDisposition));
  (SIP_HDR_ALLOW, mkinfo (s2b "Allow") true None);
  (SIP_HDR_CONTENT_ENCODING, mkinfo (s2b "Content-Encoding") true None);
  (SIP_HDR_DATE, mkinfo (s2b "Date") false None);
  (SIP_HDR_SUBJECT, mkinfo (s2b "Subject") false None);
  (SIP_HDR_SUPPORTED, mkinfo (s2b "Supported") true None);
  (SIP_HDR_ALLOW_EVENTS, mkinfo (s2b "Allow-Events") false None);
  (SIP_HDR_EVENT, mkinfo (s2b "Event") false None);
  (SIP_HDR_REFER_TO, mkinfo (s2b "Refer-To") false None);
  (SIP_HDR_ACCEPT_CONTACT, mkinfo (s2b "Accept-Contact") true None);
  (SIP_HDR_REJECT_CONTACT, mkinfo (s2b "Reject-Contact") true None);
  (SIP_HDR_REQUEST_DISPOSITION, mkinfo (s2b "Request-Disposition") true None);
  (SIP_HDR_REFERRED_BY, mkinfo (s2b "Referred-By") false None);
  (SIP_HDR_SESSION_EXPIRES, mkinfo (s2b "Session-Expires") false None);
  (SIP_HDR_MIME_VERSION, mkinfo (s2b "MIME-Version") false None);
  (SIP_HDR_EXPIRES, mkinfo (s2b "Expires") false (Some KExpires));
  (SIP_HDR_USER_AGENT, mkinfo (s2b "User-Agent") false None);
  (SIP_HDR_PATH, mkinfo (s2b "Path") true (Some KPath));
  (SIP_HDR_SERVICE_ROUTE, mkinfo (s2b "Service-Route") true (Some KServiceRoute));
  (SIP_HDR_RSEQ, mkinfo (s2b "RSeq") false (Some KRSeq));
  (SIP_HDR_RACK, mkinfo (s2b "RAck") false (Some KRAck));
  (SIP_HDR_P_ASSERTED_IDENTITY, mkinfo (s2b "P-Asserted-Identity") true (Some KPai))].
Fixpoint lookupInfo (l : list (N * hinfo)) (i : N) : option hinfo :=
  match l with
  | [] => None
  | (j, x) :: l' => if i =? j then Some x else lookupInfo l' i
  end.
Definition infoOf (i : N) : option hinfo := lookupInfo headerInfos i.

(** The name written for a raw header by SipHeaders.go:120-141 (EncodeRawHeaders): WriteCString of a NIL name writes nothing. *)
Definition rawName (h : raw) : bytes :=
  match (if rId h =? SIP_HDR_UNKNOWN then None else infoOf (rId h)) with
  | Some x => hiName x
  | None => match rName h with Some n => n | None => [] end
  end.
(** SipHeaders.go:120-141 (EncodeRawHeaders). *)
Definition encRaw (h : raw) : bytes := rawName h ++ s2b ": " ++ rValue h ++ CRLF.
Definition encRawHeaders (hs : list raw) : bytes := flat_map encRaw hs.

(** SipHeaders.go:143-156 (FindKnownRawHeaderByIndex) on the list. *)
Fixpoint findKnownRaw (hs : list raw) (i : N) : option raw :=
  match hs with
  | [] => None
  | h :: hs' => if rId h =? i then Some h else findKnownRaw hs' i
  end.
(** SipHeaders.go:158-171 (FindUnknownRawHeaderByName): a NIL name matches nothing; [None] = panic (an empty name compared with an empty name). *)
Fixpoint findUnknownRaw (hs : list raw) (name : bytes) : option (option raw) :=
  match hs with
  | [] => Some None
  | h :: hs' =>
      match (match rName h with Some n => CStringEqualNoCase n name | None => Some false end) with
      | None => None
      | Some true => Some (Some h)
      | Some false => findUnknownRaw hs' name
      end
  end.
(** SipMsg.go:726-745 (SipMsgRawScan). *)
Definition rawScan : P unit :=
  loopP (fun _ => onRest (fun r => match r with
    | [] => ret (inr tt)
    | _ :: r1 => if IsCRLF r then goto (tl r1) ;;; ret (inr tt)
                 else match FindCrlf r with Some (_, r') => goto r' ;;; ret (inl tt) | None => goto [] ;;; pfail end
    end)) tt.
