(** SipMsg.go, SipMsgBody.go and the header dispatch of SipHeaders.go: whole messages. Value layer: a linked list of headers or bodies is a list
    (HeaderList.v has the pointers). *)
From Verif Require Import Base Charset Num Lws Str Monad MethodTree HeaderTree Lookup Host Uri Tel GenParam Addr StartLine Headers RawHeaders.

(** SipMsg.go:97-103 (type SipMsg) without the start line and the bodies, and SipMsgBody.go:29-35 (type SipMsgBody) without the data: the commonHeaders array (each entry is
    a list of values, NIL is the empty list) and the list of the other headers. *)
Record hset := mkhset { hsCommon : list (list hval); hsRaw : list raw }.
(** A body part. *)
Record body := mkbody { bHdrs : hset; bData : bytes }.
(** SipMsg.go:97-103 (type SipMsg); commonBodies is left out: no code of the library writes to it. *)
Record msg := mkmsg { mStart : startline; mHdrs : hset; mBodies : list body }.

(** The two implementations of SipHeadersSetter. *)
Inductive owner := OMsg | OBody.
(** SipMsg.go:42-64 (g_SipMsgHeaderIndexToCommonIndex); SipMsgBody.go:15-20 (g_SipMsgBodyHeaderIndexToCommonIndex): the array index of a header, 0 if
    not listed (and 0 for the Content-Type of a body part). *)
Definition slotTable (o : owner) : list (N * nat) :=
  match o with
  | OMsg => [(SIP_HDR_VIA, 1); (SIP_HDR_ROUTE, 2); (SIP_HDR_CONTACT, 3); (SIP_HDR_FROM, 4); (SIP_HDR_TO, 5); (SIP_HDR_CALL_ID, 6); (SIP_HDR_CONTENT_LENGTH, 7);
      (SIP_HDR_CSEQ, 8); (SIP_HDR_RECORD_ROUTE, 9); (SIP_HDR_CONTENT_TYPE, 10); (SIP_HDR_MAX_FORWARDS, 11); (SIP_HDR_CONTENT_DISPOSITION, 12); (SIP_HDR_EXPIRES, 13);
      (SIP_HDR_PATH, 14); (SIP_HDR_SERVICE_ROUTE, 15); (SIP_HDR_RSEQ, 16); (SIP_HDR_RACK, 17); (SIP_HDR_P_ASSERTED_IDENTITY, 18)]%nat
  | OBody => [(SIP_HDR_CONTENT_TYPE, 0); (SIP_HDR_CONTENT_LENGTH, 1); (SIP_HDR_CONTENT_DISPOSITION, 2)]%nat
  end.
Fixpoint lookupSlot (l : list (N * nat)) (i : N) : nat :=
  match l with
  | [] => O
  | (j, n) :: l' => if i =? j then n else lookupSlot l' i
  end.
Definition slotOf (o : owner) (i : N) : nat := lookupSlot (slotTable o) i.
(** SipMsg.go:66-89 (g_SipMsgCommonIndexToHeaderIndex); SipMsgBody.go:22-27 (g_SipMsgBodyCommonIndexToHeaderIndex). *)
Definition slotIndexes (o : owner) : list N :=
  match o with
  | OMsg => [SIP_HDR_UNKNOWN; SIP_HDR_VIA; SIP_HDR_ROUTE; SIP_HDR_CONTACT; SIP_HDR_FROM; SIP_HDR_TO; SIP_HDR_CALL_ID; SIP_HDR_CONTENT_LENGTH; SIP_HDR_CSEQ;
      SIP_HDR_RECORD_ROUTE; SIP_HDR_CONTENT_TYPE; SIP_HDR_MAX_FORWARDS; SIP_HDR_CONTENT_DISPOSITION; SIP_HDR_EXPIRES; SIP_HDR_PATH; SIP_HDR_SERVICE_ROUTE;
      SIP_HDR_RSEQ; SIP_HDR_RACK; SIP_HDR_P_ASSERTED_IDENTITY]
  | OBody => [SIP_HDR_CONTENT_TYPE; SIP_HDR_CONTENT_LENGTH; SIP_HDR_CONTENT_DISPOSITION]
  end.
(** Init: SipMsg.go:117-119 (SipMsg.Init), AllocWithClear in SipMsgBody.go:41-43 (NewSipMsgBody). *)
Definition emptyHdrs (o : owner) : hset := mkhset (repeat [] (List.length (slotIndexes o))) [].

(** SipMsg.go:121-131 (SipMsg.NeedParse), SipMsgBody.go:53-59 (SipMsgBody.NeedParse) together with the test [info != nil && info.NeedParse] of SipHeaders.go:198-259 (parseKnownHeader):
    the type of the header if it is to be parsed. The program may clear NeedParse of any entry of [context.SipHeaders]; then the header is kept as it is written. Simplification:
    for the three Content headers NeedParse counts as set whatever the program does, because SipMsgBody.NeedParse and raw mode do not look at it and the Go code would then
    put a raw header where a parsed one is expected (shown at the level of memory in Config.v, C56_cleared_content_refuted). *)
Definition contentHdr (i : N) : bool := (i =? SIP_HDR_CONTENT_TYPE) || (i =? SIP_HDR_CONTENT_LENGTH) || (i =? SIP_HDR_CONTENT_DISPOSITION).
Definition needParse (o : owner) (e : env) (i : N) : option (hkind * bool) :=
  if (if fHeaderAsRaw e then contentHdr i
      else negb (Nat.eqb (slotOf o i) 0) && (contentHdr i || eNeed e i))
  then match infoOf i with
       | Some x => match hiKind x with Some k => Some (k, hiMulti x) | None => None end
       | None => None
       end
  else None.
(** SipMsg.go:133-159 (SipMsg.SetHeaders), SipMsgBody.go:61-85 (SipMsgBody.SetHeaders) for a parsed header: a multi-valued header is appended to the ones already there
    (HeaderList.v), any other replaces the one already there. *)
Definition setCommon (o : owner) (i : N) (multi : bool) (a : hset) (v : hval) : hset :=
  let s := slotOf o i in
  mkhset (setNth (hsCommon a) s (if multi then nth s (hsCommon a) [] ++ [v] else [v])) (hsRaw a).
(** ... and for a raw one. *)
Definition addRaw (a : hset) (h : raw) : hset := mkhset (hsCommon a) (hsRaw a ++ [h]).

(** One round of the loop over the comma-separated values in SipHeaders.go:198-259 (parseKnownHeader): the loop state is what was set so far and the value just read. *)
Definition multiBody (k : hkind) (set : hset -> hval -> hset) (st : hset * hval) : P ((hset * hval) + hset) := onRest (fun r => match r with
  | [] => ret (inr (set (fst st) (snd st)))
  | _ :: r1 =>
      let a := set (fst st) (snd st) in
      if IsOnlyCRLF r then goto (tl r1) ;;; ret (inr a)
      else match ParseSWSMarkCanOmmit 44 r with
           | (r', true, true) => goto r' ;;; (v <- parseSipX k ;; ret (inl (a, v)))
           | _ => pCRLF ;;; ret (inr a)
           end
  end).
(** SipHeaders.go:198-259 (parseKnownHeader) and SipHeaders.go:261-281 (parseUnknownHeader). On failure the Go code leaves the headers read so far in the message; here only
    the position and the memory are kept (what is left: Left.v). *)
Definition oneHeader (o : owner) (a : hset) (n : option bytes) (i : N) : P hset := withEnv (fun e =>
  match needParse o e i with
  | Some (k, multi) =>
      v <- parseSipX k ;;
      if multi : bool then loopP (multiBody k (setCommon o i true)) (a, v)
      else pCRLF ;;; ret (setCommon o i false a v)
  | None => h <- rawHeader n i ;; ret (addRaw a h)
  end).
(** SipHeaders.go:51-82 (ParseHeaders). *)
Definition parseHeaders (o : owner) : P hset := loopP (headersBody (oneHeader o)) (emptyHdrs o).

(** What follows the first occurrence of [p] at the start of [r]. *)
Fixpoint stripPrefix (p r : bytes) : option bytes :=
  match p, r with
  | [], _ => Some r
  | x :: p', y :: r' => if x =? y then stripPrefix p' r' else None
  | _ :: _, [] => None
  end.
(** bytes.Index (external): the text before and after the first occurrence. *)
Fixpoint splitAt (p r : bytes) : option (bytes * bytes) :=
  match stripPrefix p r with
  | Some t => Some ([], t)
  | None => match r with
            | [] => None
            | x :: r' => match splitAt p r' with Some (a, t) => Some (x :: a, t) | None => None end
            end
  end.

(** The values of the array entries used below. *)
Definition contentTypeOf (h : hset) : option hval := hd_error (nth 10 (hsCommon h) []).
Definition contentLengthOf (h : hset) : option hval := hd_error (nth 7 (hsCommon h) []).
(** SipHeaderContentType.go:189-196 (SipHeaderContentType.GetKnownParam) for the boundary. *)
Definition boundaryParam (v : hval) : option gparam :=
  match v with VType _ _ (Some tbl) _ => nth 0 tbl None | _ => None end.
(** AbnfPtr.go:212-219 (AbnfPtr.GetCStringAsByteSlice) of the value of a generic parameter ([None]: nil). *)
Definition gvalueText (v : option gvalue) : option bytes :=
  match v with Some (GToken t) | Some (GQuoted t) | Some (GBracket t) => Some t | None => None end.

(** SipMsg.go:465-499 (SipMsg.ParseSingleBody): the position stays in front of the body. *)
Definition parseSingleBody (h : hset) : P (list body) := onRest (fun r =>
  let size := match contentLengthOf h with Some (VNum n) => N.min n (len r) | _ => 0 end in
  if size =? 0 then ret [] else
  allocStruct 16 ;;; (d <- allocCString (firstn (N.to_nat size) r) ;; ret [mkbody (emptyHdrs OBody) d])).
(** One round of the loop of SipMsg.go:652-724 (SipMsg.ParseMultiBody); the result of AllocCString is not checked, a NIL body is an empty one. *)
Definition multipartBody (delimiter : bytes) (bs : list body) : P (list body + list body) := onRest (fun r => match r with
  | [] => pfail
  | [_] => pfail
  | x :: y :: r2 =>
      if (x =? 45) || (y =? 45) then goto r2 ;;; ret (inr bs)
      else match FindCrlf r with
           | None => goto [] ;;; pfail
           | Some (_, r1) =>
               goto r1 ;;; (allocStruct 16 ;;; (h <- parseHeaders OBody ;;
               onRest (fun r3 => match splitAt delimiter r3 with
                 | None => pfail
                 | Some (d, r4) => o <- attempt (allocCString d) ;; goto r4 ;;; ret (inl (bs ++ [mkbody h (match o with Some t => t | None => [] end)]))
                 end)))
           end
  end).
(** SipMsg.go:652-724 (SipMsg.ParseMultiBody). *)
Definition parseMultiBody (b : bytes) : P (list body) := onRest (fun r =>
  match stripPrefix (45 :: 45 :: b) r with
  | None => pfail
  | Some r' => goto r' ;;; loopP (multipartBody (13 :: 10 :: 45 :: 45 :: b)) []
  end).
(** SipMsg.go:441-463 (SipMsg.ParseMsgBody). *)
Definition parseMsgBody (h : hset) : P (list body) :=
  match contentTypeOf h with
  | None => ret []
  | Some v =>
      match v with
      | VType m _ _ _ =>
          match CStringEqualNoCase m (s2b "multipart") with
          | None => panic
          | Some true => match boundaryParam v with
                         | None => pfail
                         | Some p => parseMultiBody (match gvalueText (gpValue p) with Some b => b | None => [] end)
                         end
          | Some false => parseSingleBody h
          end
      | _ => ret []
      end
  end.
(** SipMsg.go:411-439 (SipMsg.Parse). *)
Definition parseMsg : P msg :=
  l <- parseStartLine ;;
  onRest (fun r => match r with [] => pfail | _ => h <- parseHeaders OMsg ;; bs <- parseMsgBody h ;; ret (mkmsg l h bs) end).

(** The name and the multi flag of a table entry, as used by EncodeHeaders. *)
Definition slotInfo (i : N) : hinfo := match infoOf i with Some x => x | None => mkinfo [] false None end.
(** EncodeFunc of the table entry. *)
Definition encSlotValue (e : env) (i : N) (v : hval) : bytes := match hiKind (slotInfo i) with Some k => encHVal e k v | None => [] end.
(** The values after the first one. *)
Definition encMore (e : env) (i : N) (vs : list hval) : bytes := flat_map (fun v => s2b ", " ++ encSlotValue e i v) vs.
(** One round of the loop of SipMsg.go:161-186 (SipMsg.EncodeHeaders), SipMsgBody.go:98-123 (SipMsgBody.EncodeHeaders). *)
Definition encSlot (e : env) (iv : N * list hval) : bytes :=
  match snd iv with
  | [] => []
  | v :: vs => hiName (slotInfo (fst iv)) ++ s2b ": " ++ encSlotValue e (fst iv) v ++
               (if hiMulti (slotInfo (fst iv)) then encMore e (fst iv) vs else []) ++ CRLF
  end.
(** SipMsg.go:161-186 (SipMsg.EncodeHeaders), SipMsgBody.go:98-123 (SipMsgBody.EncodeHeaders): entry 0 is never written. *)
Definition encHdrs (o : owner) (e : env) (h : hset) : bytes :=
  flat_map (encSlot e) (tl (combine (slotIndexes o) (hsCommon h))) ++ encRawHeaders (hsRaw h).

(** The first lines of SipMsgBody.go:87-96 (SipMsgBody.Encode): the Content-Length of a part, if present, becomes the length of the data. *)
Definition fixLength (b : body) : body :=
  match nth 1 (hsCommon (bHdrs b)) [] with
  | [] => b
  | _ => mkbody (mkhset (setNth (hsCommon (bHdrs b)) 1 [VNum (len (bData b) mod two32)]) (hsRaw (bHdrs b))) (bData b)
  end.
(** SipMsgBody.go:87-96 (SipMsgBody.Encode) after that. *)
Definition encBody (e : env) (b : body) : bytes := encHdrs OBody e (bHdrs b) ++ CRLF ++ bData b.
(** SipMsg.go:358-387 (SipMsg.EncodeMultiMsgBody). *)
Definition encMultipart (e : env) (b : bytes) (bs : list body) : bytes :=
  flat_map (fun x => s2b "--" ++ b ++ CRLF ++ encBody e (fixLength x) ++ CRLF) bs ++ s2b "--" ++ b ++ s2b "--".
(** SipMsg.go:345-356 (SipMsg.EncodeSingleMsgBody). *)
Definition encSingle (bs : list body) : bytes := match bs with b :: _ => bData b | [] => [] end.
(** SipMsg.go:389-409 (SipMsg.HasMultiBody). *)
Definition hasMulti (m : msg) : bool := match mBodies m with _ :: _ :: _ => true | _ => false end.

(** SipMsg.go:293-309 (SipMsg.GetHeaderByIndex): a common header, or the first raw header with that index. *)
Fixpoint findCommon (l : list (N * list hval)) (i : N) : option (list hval) :=
  match l with
  | [] => None
  | (j, v :: vs) :: l' => if j =? i then Some (v :: vs) else findCommon l' i
  | (_, []) :: l' => findCommon l' i
  end.
Definition getHeaderByIndex (h : hset) (i : N) : option (list hval + raw) :=
  match findCommon (combine (slotIndexes OMsg) (hsCommon h)) i with
  | Some vs => Some (inl vs)
  | None => match findKnownRaw (hsRaw h) i with Some x => Some (inr x) | None => None end
  end.

(** AbnfSip.go:10 (ABNF_SIP_DEFAULT_BOUNDARY). *)
Definition defaultBoundary : bytes := s2b "sip-unique-boundary-aasdasdewfd".
(** SipHeaderContentType.go:198-231 (SipHeaderContentType.SetBoundary) when there is no boundary parameter. *)
Definition setBoundary (v : hval) : P (hval * bytes) :=
  match v with
  | VType m s t ps =>
      (match t with None => allocStruct 2 | Some _ => ret tt end) ;;;
      (allocStruct 8 ;;; (n <- allocCString (s2b "boundary") ;; b <- allocCString defaultBoundary ;; ret (VType m s (Some [Some (mkgp n (Some (GQuoted b)))]) ps, b)))
  | _ => pfail
  end.
(** SipMsg.go:256-291 (SipMsg.FindOrCreateBoundary): the Content-Type left in the message and the boundary. *)
Definition findOrCreateBoundary (h : hset) : P (hset * bytes) :=
  v <- match contentTypeOf h with
       | Some v => ret v
       | None => allocStruct 8 ;;; (m <- allocCString (s2b "multipart") ;; s <- allocCString (s2b "mixed") ;; ret (VType m s None []))
       end ;;
  vb <- match boundaryParam v with
        | Some p => match gvalueText (gpValue p) with Some b => ret (v, b) | None => pfail end
        | None => setBoundary v
        end ;;
  ret (mkhset (setNth (hsCommon h) 10 [fst vb]) (hsRaw h), snd vb).
(** The Content-Length created by SipMsg.go:194-254 (SipMsg.Encode). *)
Definition ensureLength (h : hset) : P hset :=
  match contentLengthOf h with
  | Some _ => ret h
  | None => allocStruct 8 ;;; ret (mkhset (setNth (hsCommon h) 7 [VNum 0]) (hsRaw h))
  end.
(** [copy(buf.Bytes()[end-len(d):end], d)]. *)
Definition patch (t : bytes) (endPos : nat) (d : bytes) : bytes := firstn (endPos - List.length d) t ++ d ++ skipn endPos t.
(** The encodeEnd recorded by SipHeaderContentLength.go:38-42 (SipHeaderContentLength.EncodeValue): the length of the buffer, which starts with [pre] and the start line,
    after the value of entry 7. *)
Definition lengthEnd (e : env) (pre : bytes) (h : hset) : nat :=
  let slots := tl (combine (slotIndexes OMsg) (hsCommon h)) in
  let before := flat_map (encSlot e) (firstn 6 slots) in
  let field := match contentLengthOf h with Some v => hiName (slotInfo SIP_HDR_CONTENT_LENGTH) ++ s2b ": " ++ encSlotValue e SIP_HDR_CONTENT_LENGTH v | None => [] end in
  List.length (pre ++ before ++ field).
(** SipMsg.go:194-254 (SipMsg.Encode): [pre] is what the caller's buffer holds already; the result is the buffer and the message left behind (with the headers that
    were created). The body lengths of parts are updated in the message too. Only the memory part of the parser state is used. On failure what was written
    so far (the start line) is not modelled. *)
Definition encMsg (pre : bytes) (m : msg) : P (bytes * msg) := withEnv (fun e =>
  h1 <- ensureLength (mHdrs m) ;;
  hb <- (if hasMulti m then findOrCreateBoundary h1 else ret (h1, [])) ;;
  let h := fst hb in
  let head := pre ++ encStartLine e (mStart m) ++ encHdrs OMsg e h ++
    (if hasMulti m then match getHeaderByIndex h SIP_HDR_MIME_VERSION with None => s2b "MIME-Version: 1.0" ++ CRLF | Some _ => [] end else []) ++ CRLF in
  match mBodies m with
  | [] => ret (head, mkmsg (mStart m) h [])
  | bs =>
      let text := if hasMulti m then encMultipart e (snd hb) bs else encSingle bs in
      ret (patch (head ++ text) (lengthEnd e (pre ++ encStartLine e (mStart m)) h) (encUInt (len text)),
           mkmsg (mStart m) h (if hasMulti m then map fixLength bs else bs))
  end).
