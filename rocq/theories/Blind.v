(** Which settings of a context matter to a parser: the size of the arena, which parameters have a field of their own, and net.ParseIP. The settings for Encode do not; which
    headers are parsed matters to the headers of messages and parts only. *)
From Verif Require Import Base Charset BaseLemmas Num Lws Str Monad Good MethodTree HeaderTree Lookup Host Uri Tel GenParam Addr StartLine Headers RawHeaders Msg.

Definition readingSame (e e' : env) : Prop :=
  memend e' = memend e /\ fSipUriKnown e' = fSipUriKnown e /\ fTelUriKnown e' = fTelUriKnown e /\ fFromKnown e' = fFromKnown e /\ fToKnown e' = fToKnown e /\ fViaKnown e' = fViaKnown e /\
  fContactKnown e' = fContactKnown e /\ fContentTypeKnown e' = fContentTypeKnown e /\ fContentDispositionKnown e' = fContentDispositionKnown e /\ ipParse e' = ipParse e.
(** [ow o]: the same headers of an [o] are parsed. *)
Definition alikeFor (ow : owner -> bool) (e e' : env) : Prop := forall o, ow o = true -> forall i, needParse o e' i = needParse o e i.
Definition blind {A} (ow : owner -> bool) (p : P A) : Prop := forall e e' s, readingSame e e' -> alikeFor ow e e' -> p e' s = p e s.

Lemma bl_const {A} ow (p : P A) : (forall e e' s, p e' s = p e s) -> blind ow p. Proof. intros H e e' s _ _. apply H. Qed.
Lemma bl_ret {A} ow (a : A) : blind ow (ret a). Proof. apply bl_const. reflexivity. Qed.
Lemma bl_pfail {A} ow : blind ow (@pfail A). Proof. apply bl_const. reflexivity. Qed.
Lemma bl_panic {A} ow : blind ow (@panic A). Proof. apply bl_const. reflexivity. Qed.
Lemma bl_goto ow q : blind ow (goto q). Proof. apply bl_const. reflexivity. Qed.
Lemma bl_bind {A B} ow (p : P A) (q : A -> P B) : blind ow p -> (forall a, blind ow (q a)) -> blind ow (bind p q).
Proof. intros Hp Hq e e' s H G. unfold bind. rewrite (Hp e e' s H G). destruct (p e s) as [a s1|s1| |]; [|reflexivity..]. now apply Hq. Qed.
Lemma bl_onRest {A} ow (f : bytes -> P A) : (forall r, blind ow (f r)) -> blind ow (onRest f).
Proof. intros Hf e e' s H G. unfold onRest. now apply Hf. Qed.
Lemma bl_withEnv {A} ow (f : env -> P A) : (forall e e', readingSame e e' -> alikeFor ow e e' -> f e' = f e) -> (forall e, blind ow (f e)) -> blind ow (withEnv f).
Proof. intros E Hf e e' s H G. unfold withEnv. rewrite (E e e' H G). now apply Hf. Qed.
Lemma bl_iterP {A B} ow (body : A -> P (A + B)) : (forall a, blind ow (body a)) -> forall n a, blind ow (iterP n body a).
Proof. intros Hb. induction n as [|n IH]; intros a; [apply bl_const; reflexivity|]. cbn [iterP]. apply bl_bind; [apply Hb|]. intros [a'|x]; [apply IH|apply bl_ret]. Qed.
Lemma bl_loopP {A B} ow (body : A -> P (A + B)) a : (forall a, blind ow (body a)) -> blind ow (loopP body a).
Proof. intros Hb e e' s H G. unfold loopP. exact (bl_iterP ow body Hb _ _ e e' s H G). Qed.
Lemma bl_orRestore {A} ow (p q : P A) : blind ow p -> blind ow q -> blind ow (orRestore p q).
Proof. intros Hp Hq e e' s H G. unfold orRestore. rewrite (Hp e e' s H G). destruct (p e s) as [a s1|s1| |]; [reflexivity| |reflexivity..]. now apply Hq. Qed.
Lemma bl_attempt {A} ow (p : P A) : blind ow p -> blind ow (attempt p).
Proof. intros Hp e e' s H G. unfold attempt. now rewrite (Hp e e' s H G). Qed.
Lemma bl_liftB ow f : blind ow (liftB f). Proof. apply bl_const. reflexivity. Qed.

(** The primitives look at the size of the arena only. *)
Lemma bl_mem {A} ow (p : P A) : (forall e e' s, memend e' = memend e -> p e' s = p e s) -> blind ow p. Proof. intros H e e' s (M & _) _. now apply H. Qed.
Ltac blMem := apply bl_mem; let e := fresh "e" in let e' := fresh "e'" in let M := fresh "M" in intros e e' s M.
Lemma ltMem_blind e e' n : memend e' = memend e -> ltMem e' n = ltMem e n. Proof. intros H. unfold ltMem. now rewrite H. Qed.
Lemma leMem_blind e e' n : memend e' = memend e -> leMem e' n = leMem e n. Proof. intros H. unfold leMem. now rewrite H. Qed.
Lemma fits_blind e e' u n : memend e' = memend e -> fits e' u n = fits e u n. Proof. intros H. unfold fits. now rewrite (leMem_blind e e' _ H). Qed.
Ltac blPrim M := rewrite ?(ltMem_blind _ _ _ M), ?(leMem_blind _ _ _ M), ?(fits_blind _ _ _ _ M).
Lemma bl_alloc ow n : blind ow (allocStruct n). Proof. blMem. unfold allocStruct. now blPrim M. Qed.
Lemma bl_allocCString ow t : blind ow (allocCString t). Proof. blMem. unfold allocCString. now blPrim M. Qed.
Lemma bl_cstring ow cs : blind ow (paCString cs). Proof. blMem. unfold paCString. blPrim M. destruct (span _ _) as [tok q]. now blPrim M. Qed.
Lemma bl_cstringEmpty ow cs : blind ow (paCStringEmpty cs). Proof. blMem. unfold paCStringEmpty. blPrim M. destruct (span _ _) as [tok q]. now blPrim M. Qed.
Lemma bl_fromPos ow mid cs : blind ow (paCStringFromPos mid cs). Proof. blMem. unfold paCStringFromPos. blPrim M. destruct (span _ _) as [tok q]. now blPrim M. Qed.
Lemma bl_tel ow cs : blind ow (paTelNumber cs).
Proof.
  blMem. unfold paTelNumber. blPrim M. destruct (match rest s with x :: r0 => if x =? 43 then ([43], r0) else ([], rest s) | [] => ([], rest s) end) as [pl r0]. destruct (span _ r0) as [run q]. now blPrim M.
Qed.
Lemma escLoop_blind cs e e' : memend e' = memend e -> forall n r u, (List.length r <= n)%nat -> escLoop cs e' u r = escLoop cs e u r.
Proof.
  intros M. induction n as [|n IH]; intros r u Hn; (destruct r as [|x r]; [reflexivity|]); cbn [List.length] in Hn; [lia|]. cbn [escLoop]. blPrim M.
  destruct (inset cs x); [now rewrite (IH r (u + 1)) by lia|]. destruct (x =? 37); [|reflexivity]. destruct r as [|v1 [|v2 r2]]; try reflexivity. destruct (_ || _)%bool; [reflexivity|].
  cbn [List.length] in Hn. now rewrite (IH r2 (u + 1)) by lia.
Qed.
Lemma bl_escapable ow cs : blind ow (paEscapable cs).
Proof. blMem. unfold paEscapable. blPrim M. rewrite (escLoop_blind cs e e' M _ (rest s) (used s + 2) (le_n _)). destruct (escLoop cs e _ _) as [tok q|q| |]; now blPrim M. Qed.
Lemma bl_escapableEmpty ow cs : blind ow (paEscapableEmpty cs).
Proof. blMem. unfold paEscapableEmpty. blPrim M. rewrite (escLoop_blind cs e e' M _ (rest s) (used s + 2) (le_n _)). destruct (escLoop cs e _ _) as [tok q|q| |]; now blPrim M. Qed.
Lemma copyLWS_blind e e' u r : memend e' = memend e -> copyLWS e' u r = copyLWS e u r.
Proof.
  intros M. unfold copyLWS. destruct (span isWsp r) as [w1 r1]. blPrim M. destruct r1 as [|a [|c r2]]; try reflexivity. destruct (_ && _)%bool; [|reflexivity]. blPrim M. destruct r2 as [|x r2]; [reflexivity|].
  destruct (negb (isWsp x)); [reflexivity|]. destruct (span isWsp (x :: r2)) as [w2 r3]. now blPrim M.
Qed.
Lemma qLoop_blind e e' : memend e' = memend e -> forall n u U r, qLoop n e' u U r = qLoop n e u U r.
Proof.
  intros M. induction n as [|n IH]; intros u U r; [reflexivity|]. cbn [qLoop]. destruct r as [|v r1]; [reflexivity|]. destruct (v =? 34); [reflexivity|]. rewrite (copyLWS_blind e e' u (v :: r1) M).
  destruct (IsLwsChar v). { destruct (copyLWS e u (v :: r1)) as [[[w r2] [|]]|]; [|reflexivity..]. now rewrite IH. }
  blPrim M. rewrite !IH. destruct (IsSipQuotedText v); [reflexivity|]. destruct (v =? 92); [|reflexivity]. destruct r1 as [|x r2]; [reflexivity|]. now rewrite IH.
Qed.
Lemma bl_quoted ow : blind ow paQuoted.
Proof.
  blMem. unfold paQuoted. destruct (ParseSWS_2 (rest s)) as [|x r1]; [reflexivity|]. destruct (negb (x =? 34)); [reflexivity|]. rewrite (qLoop_blind e e' M). destruct (qLoop _ e _ _ r1); now blPrim M.
Qed.
Lemma bl_SWS ow : blind ow pSWS. Proof. apply bl_const. reflexivity. Qed.
Lemma bl_Mark2 ow m : blind ow (pSWSMarkCanOmmit m). Proof. apply bl_const. reflexivity. Qed.
Lemma bl_setKnown {A} ow names (name : A -> bytes) t p : blind ow (setKnown names name t p).
Proof. unfold setKnown. destruct (findName names (name p) 0) as [i|]; [|apply bl_ret]. destruct t as [tbl|]; [apply bl_ret|]. blMem. now blPrim M. Qed.

#[export] Hint Resolve bl_ret bl_pfail bl_panic bl_goto bl_alloc bl_allocCString bl_cstring bl_cstringEmpty bl_fromPos bl_tel bl_escapable bl_escapableEmpty bl_quoted bl_liftB bl_SWS bl_Mark2
  bl_setKnown : blind.
Ltac blFlag H := destruct H as (? & ? & ? & ? & ? & ? & ? & ? & ? & ?); cbv beta; repeat match goal with E : _ = _ |- _ => rewrite ?E; clear E end; reflexivity.
Ltac bl1 :=
  lazymatch goal with
  | |- blind _ (onRest _) => apply bl_onRest; intros
  | |- blind _ (withEnv _) => apply bl_withEnv; [let H := fresh in intros ? ? H _; blFlag H|intros]
  | |- blind _ (loopP _ _) => apply bl_loopP; intros
  | |- blind _ (bind _ _) => apply bl_bind; [|intros]
  | |- blind _ (orRestore _ _) => apply bl_orRestore
  | |- blind _ (attempt _) => apply bl_attempt
  | |- blind _ (match ?x with _ => _ end) => destruct x
  | |- blind _ _ => solve [eauto 2 with blind]
  end.
Ltac bl := repeat bl1.
Section B.
Context (ow : owner -> bool).
Notation bls := (blind ow).
Lemma bl_UInt : bls pUInt. Proof. unfold pUInt. bl. Qed.
Lemma bl_UIntW w : bls (pUIntW w). Proof. unfold pUIntW. pose proof bl_UInt. bl. Qed.
Lemma bl_expect c : bls (expect c). Proof. unfold expect. bl. Qed.
Lemma bl_LWS : bls pLWS. Proof. apply bl_liftB. Qed.
Lemma bl_Hcolon : bls pHcolon. Proof. apply bl_liftB. Qed.
Lemma bl_SWSMark m : bls (pSWSMark m). Proof. apply bl_liftB. Qed.
Lemma bl_LAQ : bls pLeftAngleQuote. Proof. apply bl_liftB. Qed.
Lemma bl_RAQ : bls pRightAngleQuote. Proof. apply bl_liftB. Qed.
Lemma bl_CRLF : bls pCRLF. Proof. apply bl_liftB. Qed.
Hint Resolve bl_UInt bl_UIntW bl_expect bl_LWS bl_Hcolon bl_SWSMark bl_LAQ bl_RAQ bl_CRLF : blind.
Lemma bl_addParam {A} en names (name : A -> bytes) a p : bls (addParam en names name a p).
Proof. unfold addParam. bl. Qed.
Hint Resolve bl_addParam : blind.
Lemma bl_host : bls parseHost. Proof. unfold parseHost, parseIpv6, parseHostname. bl. Qed.
Hint Resolve bl_host : blind.
Lemma bl_hostPort : bls parseHostPort. Proof. unfold parseHostPort. bl. Qed.
Hint Resolve bl_hostPort : blind.
Lemma bl_sepLoop {A} c (one : A -> P A) a : (forall a, bls (one a)) -> bls (sepLoop c one a).
Proof. intros H. unfold sepLoop, contIf. bl; apply H. Qed.
Lemma bl_uriParams {S} cn cv (set : S -> uparam -> P S) a : (forall a p, bls (set a p)) -> bls (parseUriParams cn cv set a).
Proof. intros H. unfold parseUriParams. bl. apply bl_sepLoop. intros a'. unfold uriParamOne, parseUriParam. bl; apply H. Qed.
Lemma bl_uriHeaders : bls parseUriHeaders.
Proof. unfold parseUriHeaders. bl. apply bl_sepLoop. intros a'. unfold uriHeaderOne, parseUriHeader. bl. Qed.
Lemma bl_userinfo : bls parseUserinfo. Proof. unfold parseUserinfo, parsePassword. bl. Qed.
Hint Resolve bl_uriHeaders bl_userinfo : blind.
Lemma bl_uriAfter c : bls (parseUriAfterScheme c).
Proof. unfold parseUriAfterScheme. bl. apply bl_uriParams. intros. unfold sipUriSet. bl. Qed.
Lemma bl_uriAfterNo c : bls (parseUriAfterSchemeNoParam c). Proof. unfold parseUriAfterSchemeNoParam. bl. Qed.
Lemma bl_telNumber : bls parseTelNumber. Proof. unfold parseTelNumber. bl. Qed.
Hint Resolve bl_uriAfter bl_uriAfterNo bl_telNumber : blind.
Lemma bl_telAfter : bls parseTelAfterScheme.
Proof. unfold parseTelAfterScheme. bl. apply bl_uriParams. intros. unfold telSet. bl. Qed.
Lemma bl_telAfterNo : bls parseTelAfterSchemeNoParam. Proof. unfold parseTelAfterSchemeNoParam. bl. Qed.
Hint Resolve bl_telAfter bl_telAfterNo : blind.
Lemma bl_sipUri : bls parseSipUri. Proof. unfold parseSipUri, parseSipScheme. bl. Qed.
Lemma bl_telUri : bls parseTelUri. Proof. unfold parseTelUri, parseTelScheme. bl. Qed.
Lemma bl_genParams sep on names : (forall e e', readingSame e e' -> on e' = on e) -> bls (parseGenParams sep on names).
Proof. intros Hon. unfold parseGenParams. bl. unfold gpBody, parseGenParam, parseGenValue, paSlice. bl. apply bl_withEnv; [intros e e' Hr _; now rewrite (Hon e e' Hr)|]. intros. bl. Qed.
Lemma bl_spec c u : bls (parseSpec c u). Proof. unfold parseSpec. bl. Qed.
Lemma bl_scheme : bls parseScheme. Proof. unfold parseScheme, otherScheme. bl. Qed.
Lemma bl_tokens : bls parseTokens. Proof. unfold parseTokens, tokensBody, storeSince. bl. Qed.
Hint Resolve bl_spec bl_scheme bl_tokens : blind.
Lemma bl_nameAddr : bls parseNameAddr. Proof. unfold parseNameAddr, parseDisplayName. bl. Qed.
Hint Resolve bl_nameAddr : blind.
Lemma bl_addr c : bls (parseAddr c). Proof. unfold parseAddr. bl. Qed.
Hint Resolve bl_addr : blind.
Lemma bl_addrSpec : bls parseAddrSpec. Proof. unfold parseAddrSpec. bl. Qed.
Hint Resolve bl_addrSpec : blind.
Lemma bl_method : bls parseMethod. Proof. unfold parseMethod. bl. Qed.
Lemma bl_versionAfter : bls parseVersionAfter.
Proof. unfold parseVersionAfter. assert (D : forall r, bls (versionDigits r)) by (intros r; unfold versionDigits; destruct (span (inset DIGIT) r); bl). bl; apply D. Qed.
Hint Resolve bl_method bl_versionAfter : blind.
Lemma bl_version : bls parseVersion. Proof. unfold parseVersion. bl. Qed.
Hint Resolve bl_version : blind.
Lemma bl_startLine : bls parseStartLine. Proof. unfold parseStartLine, parseStatusLine, parseRequestLine. bl. Qed.
Hint Resolve bl_startLine : blind.
Lemma knownOn_blind k e e' : readingSame e e' -> knownOn k e' = knownOn k e. Proof. intros (_ & H1 & H2 & H3 & H4 & H5 & H6 & H7 & H8 & _). unfold knownOn; destruct k; first [reflexivity|assumption]. Qed.
Lemma bl_params k : bls (parseParams k). Proof. apply bl_genParams. intros. now apply knownOn_blind. Qed.
Hint Resolve bl_params : blind.
Lemma bl_hval k : bls (parseHVal k).
Proof.
  unfold parseHVal, parseFromTo, parseVia, parseSentProtocol, otherProtocol, parseContact, parseFromTo, parseRoute, parsePai, parseCSeq, parseRAck, parseNum, parseContentType, parseContentDisposition, parseCallID. bl.
Qed.
Hint Resolve bl_hval : blind.
Lemma bl_sipX k : bls (parseSipX k). Proof. unfold parseSipX. bl. Qed.
Hint Resolve bl_sipX : blind.
Lemma bl_header k : bls (parseHeader k). Proof. unfold parseHeader, parseHName. bl. Qed.
Lemma bl_headerName : bls parseHeaderName. Proof. unfold parseHeaderName. bl. Qed.
Lemma bl_rawHeader n i : bls (rawHeader n i). Proof. unfold rawHeader, rawValue. bl. Qed.
Hint Resolve bl_headerName bl_rawHeader : blind.
Lemma bl_headersBody {A} (hdr : A -> option bytes -> N -> P A) a : (forall a n i, bls (hdr a n i)) -> bls (headersBody hdr a).
Proof. intros H. unfold headersBody. bl; apply H. Qed.
Lemma bl_rawHeaders : bls parseRawHeaders. Proof. unfold parseRawHeaders. apply bl_loopP. intros. apply bl_headersBody. intros. bl. Qed.
Lemma bl_rawScan : bls rawScan. Proof. unfold rawScan. bl. Qed.

Lemma bl_oneParsed o a i k mu : bls (v <- parseSipX k ;; (if mu : bool then loopP (multiBody k (setCommon o i true)) (a, v) else pCRLF ;;; ret (setCommon o i false a v))).
Proof. bl; unfold multiBody; bl. Qed.
Lemma bl_oneRaw a n i : bls (h <- rawHeader n i ;; ret (addRaw a h)). Proof. bl. Qed.
Lemma bl_oneHeader o a n i : ow o = true -> bls (oneHeader o a n i).
Proof. intros Ho. unfold oneHeader. apply bl_withEnv; [|intros; bl; unfold multiBody; bl]. intros e e' _ H. now rewrite (H o Ho). Qed.
Lemma bl_headers o : ow o = true -> bls (parseHeaders o).
Proof. intros Ho. unfold parseHeaders. apply bl_loopP. intros. apply bl_headersBody. intros. now apply bl_oneHeader. Qed.
Lemma bl_single h : bls (parseSingleBody h). Proof. unfold parseSingleBody. bl. Qed.
Hint Resolve bl_single : blind.
Lemma bl_multiBody b : ow OBody = true -> bls (parseMultiBody b).
Proof. intros Ho. pose proof (bl_headers OBody Ho). unfold parseMultiBody. bl. unfold multipartBody. bl. Qed.
Lemma bl_msgBody h : ow OBody = true -> bls (parseMsgBody h).
Proof. intros Ho. pose proof (fun b => bl_multiBody b Ho). unfold parseMsgBody. bl. Qed.
Lemma bl_msg : ow OMsg = true -> ow OBody = true -> bls parseMsg.
Proof. intros H1 H2. pose proof (bl_headers OMsg H1). pose proof (fun h => bl_msgBody h H2). unfold parseMsg. bl. Qed.
End B.
