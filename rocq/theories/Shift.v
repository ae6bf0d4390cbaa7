(** The fill level: in an arena that is never exhausted the outcome of a parse does not depend on how much memory is in use, and the amount it takes is always the same.
    At the same time: a parser that does not ask which headers are to be parsed does not depend on that setting. *)
From Verif Require Import Base Charset BaseLemmas Num Lws Str Monad Good MethodTree HeaderTree Lookup Host Uri Tel GenParam Addr StartLine Headers RawHeaders Msg.

(** The same context with another setting of NeedParse. *)
Definition withNeed (f : N -> bool) (e : env) : env :=
  mkenv (memend e) (fSipUriKnown e) (fTelUriKnown e) (fFromKnown e) (fToKnown e) (fViaKnown e)
        (fContactKnown e) (fContentTypeKnown e) (fContentDispositionKnown e) (fHeaderAsRaw e)
        (eShortName e) (eNameSpace e) (eUriNoEscape e) (eReasonNoEscape e) f (ipParse e) (ipString e).
Lemma withNeed_self e : withNeed (eNeed e) e = e. Proof. now destruct e. Qed.
(** [same b]: the settings agree ([b = true]) or may be different. *)
Definition alike (b : bool) (f : N -> bool) (e : env) : Prop := memend e = None /\ (b = true -> f = eNeed e).
Definition shiftRes {A} (d : N) (x : res A) : res A :=
  match x with Ok a s => Ok a (mkst (rest s) (used s + d)) | Fail s => Fail (mkst (rest s) (used s + d)) | Panic => Panic | Loop => Loop end.
Definition moves {A} (b : bool) (p : P A) : Prop := forall e f r u d, alike b f e -> p (withNeed f e) (mkst r (u + d)) = shiftRes d (p e (mkst r u)).

Lemma mv_ret {A} b (a : A) : moves b (ret a). Proof. intros e f r u d _. reflexivity. Qed.
Lemma mv_pfail {A} b : moves b (@pfail A). Proof. intros e f r u d _. reflexivity. Qed.
Lemma mv_panic {A} b : moves b (@panic A). Proof. intros e f r u d _. reflexivity. Qed.
Lemma mv_goto b q : moves b (goto q). Proof. intros e f r u d _. reflexivity. Qed.
Lemma mv_bind {A B} b (p : P A) (q : A -> P B) : moves b p -> (forall a, moves b (q a)) -> moves b (bind p q).
Proof.
  intros Hp Hq e f r u d H. unfold bind. rewrite (Hp e f r u d H). destruct (p e (mkst r u)) as [a [r1 u1]|[r1 u1]| |]; cbn [shiftRes rest used]; [|reflexivity..]. now apply Hq.
Qed.
Lemma mv_onRest {A} b (f : bytes -> P A) : (forall r, moves b (f r)) -> moves b (onRest f).
Proof. intros Hf e g r u d H. unfold onRest. cbn [rest]. now apply Hf. Qed.
Lemma mv_withEnv {A} b (f : env -> P A) : (forall e g, alike b g e -> f (withNeed g e) = f e) -> (forall e, moves b (f e)) -> moves b (withEnv f).
Proof. intros E Hf e g r u d H. unfold withEnv. rewrite (E e g H). now apply Hf. Qed.
Lemma mv_iterP {A B} b (body : A -> P (A + B)) : (forall a, moves b (body a)) -> forall n a, moves b (iterP n body a).
Proof. intros Hb. induction n as [|n IH]; intros a; [intros e f r u d _; reflexivity|]. cbn [iterP]. apply mv_bind; [apply Hb|]. intros [a'|x]; [apply IH|apply mv_ret]. Qed.
Lemma mv_loopP {A B} b (body : A -> P (A + B)) a : (forall a, moves b (body a)) -> moves b (loopP body a).
Proof. intros Hb e f r u d H. unfold loopP. cbn [rest]. exact (mv_iterP b body Hb _ _ e f r u d H). Qed.
Lemma mv_orRestore {A} b (p q : P A) : moves b p -> moves b q -> moves b (orRestore p q).
Proof. intros Hp Hq e f r u d H. unfold orRestore. rewrite (Hp e f r u d H). destruct (p e (mkst r u)) as [a [r1 u1]|[r1 u1]| |]; cbn [shiftRes rest used]; [reflexivity| |reflexivity..]. now apply Hq. Qed.
Lemma mv_attempt {A} b (p : P A) : moves b p -> moves b (attempt p).
Proof. intros Hp e f r u d H. unfold attempt. rewrite (Hp e f r u d H). now destruct (p e (mkst r u)) as [a [r1 u1]|[r1 u1]| |]. Qed.
Lemma mv_liftB b f : moves b (liftB f).
Proof. intros e g r u d H. unfold liftB. cbn [rest used]. now destruct (f r) as [r' [|]]. Qed.

Lemma ltMem_inf e f n : memend e = None -> ltMem (withNeed f e) n = true. Proof. intros H. unfold ltMem. cbn. now rewrite H. Qed.
Lemma leMem_inf e f n : memend e = None -> leMem (withNeed f e) n = true. Proof. intros H. unfold leMem. cbn. now rewrite H. Qed.
Lemma ltMem_inf0 e n : memend e = None -> ltMem e n = true. Proof. intros H. unfold ltMem. now rewrite H. Qed.
Lemma leMem_inf0 e n : memend e = None -> leMem e n = true. Proof. intros H. unfold leMem. now rewrite H. Qed.
Lemma fits_inf e f u n : memend e = None -> fits (withNeed f e) u n = true. Proof. intros H. unfold fits. rewrite leMem_inf by exact H. apply orb_true_r. Qed.
Lemma fits_inf0 e u n : memend e = None -> fits e u n = true. Proof. intros H. unfold fits. rewrite leMem_inf0 by exact H. apply orb_true_r. Qed.
Ltac mvPrim := rewrite ?ltMem_inf, ?leMem_inf, ?ltMem_inf0, ?leMem_inf0, ?fits_inf, ?fits_inf0 by assumption; cbn [negb].
Ltac mvEnd := cbn [shiftRes rest used]; repeat first [reflexivity | apply f_equal2; [reflexivity|] | apply f_equal2; [|reflexivity] | lia | progress f_equal].

Lemma mv_alloc b n : moves b (allocStruct n).
Proof. intros e f r u d (H & _). unfold allocStruct. mvPrim. mvEnd. Qed.
Lemma mv_allocCString b t : moves b (allocCString t).
Proof. intros e f r u d (H & _). unfold allocCString. mvPrim. mvEnd. Qed.
Lemma mv_cstring b cs : moves b (paCString cs).
Proof. intros e f r u d (H & _). unfold paCString. cbn [rest used]. mvPrim. destruct (span (inset cs) r) as [[|x tok] q]; mvPrim; mvEnd. Qed.
Lemma mv_cstringEmpty b cs : moves b (paCStringEmpty cs).
Proof. intros e f r u d (H & _). unfold paCStringEmpty. cbn [rest used]. mvPrim. destruct (span (inset cs) r) as [tok q]; mvPrim; mvEnd. Qed.
Lemma mv_fromPos b mid cs : moves b (paCStringFromPos mid cs).
Proof.
  intros e f r u d (H & _). unfold paCStringFromPos. cbn [rest used]. mvPrim. rewrite !andb_false_r. destruct (span (inset cs) mid) as [tok q]; mvPrim. destruct (firstn _ _ ++ tok); mvEnd.
Qed.
Lemma mv_tel b cs : moves b (paTelNumber cs).
Proof.
  intros e f r u d (H & _). unfold paTelNumber. cbn [rest used]. mvPrim. destruct (match r with x :: r0 => if x =? 43 then ([43], r0) else ([], r) | [] => ([], r) end) as [pl r0].
  destruct (span (inset cs) r0) as [run q]. mvPrim. destruct (filter _ run); mvEnd.
Qed.
Lemma escLoop_inf cs e f : memend e = None -> forall n r u v, (List.length r <= n)%nat -> escLoop cs (withNeed f e) v r = escLoop cs e u r.
Proof.
  intros H. induction n as [|n IH]; intros r u v Hn; (destruct r as [|x r]; [reflexivity|]); cbn [List.length] in Hn; [lia|]. cbn [escLoop]. mvPrim.
  destruct (inset cs x); [now rewrite (IH r (u + 1) (v + 1)) by lia|]. destruct (x =? 37); [|reflexivity]. destruct r as [|v1 [|v2 r2]]; try reflexivity. destruct (_ || _)%bool; [reflexivity|].
  cbn [List.length] in Hn. now rewrite (IH r2 (u + 1) (v + 1)) by lia.
Qed.
Lemma mv_escapable b cs : moves b (paEscapable cs).
Proof.
  intros e f r u d (H & _). unfold paEscapable. cbn [rest used]. mvPrim. rewrite (escLoop_inf cs e f H _ r (u + 2) (u + d + 2) (le_n _)).
  destruct (escLoop cs e (u + 2) r) as [[|x tok] q|q| |]; mvPrim; mvEnd.
Qed.
Lemma mv_escapableEmpty b cs : moves b (paEscapableEmpty cs).
Proof.
  intros e f r u d (H & _). unfold paEscapableEmpty. cbn [rest used]. mvPrim. rewrite (escLoop_inf cs e f H _ r (u + 2) (u + d + 2) (le_n _)).
  destruct (escLoop cs e (u + 2) r) as [tok q|q| |]; mvPrim; mvEnd.
Qed.
Lemma copyLWS_inf e f u v r : memend e = None -> copyLWS (withNeed f e) v r = copyLWS e u r.
Proof.
  intros H. unfold copyLWS. destruct (span isWsp r) as [w1 r1]. mvPrim. destruct r1 as [|a [|c r2]]; try reflexivity. destruct (_ && _)%bool; [|reflexivity]. mvPrim. destruct r2 as [|x r2]; [reflexivity|].
  destruct (negb (isWsp x)); [reflexivity|]. destruct (span isWsp (x :: r2)) as [w2 r3]. mvPrim. reflexivity.
Qed.
Definition shiftQ (d : N) (o : qOut) : qOut := match o with QFail r u => QFail r (u + d) | _ => o end.
Lemma qApp_shift w d o : qApp w (shiftQ d o) = shiftQ d (qApp w o). Proof. now destruct o. Qed.
Lemma qLoop_inf e f d : memend e = None -> forall n u U r, qLoop n (withNeed f e) (u + d) (U + d) r = shiftQ d (qLoop n e u U r).
Proof.
  intros H. induction n as [|n IH]; intros u U r; [reflexivity|]. cbn [qLoop]. destruct r as [|v r1]; [reflexivity|]. destruct (v =? 34); [reflexivity|]. destruct (IsLwsChar v).
  { rewrite (copyLWS_inf e f u (u + d) (v :: r1) H). destruct (copyLWS e u (v :: r1)) as [[[w r2] [|]]|]; [| |reflexivity].
    - replace (u + d + len w) with (u + len w + d) by lia. rewrite IH. apply qApp_shift.
    - cbn [shiftQ]. f_equal. lia. }
  mvPrim. destruct (IsSipQuotedText v). { replace (u + d + 1) with (u + 1 + d) by lia. rewrite IH. apply qApp_shift. }
  destruct (v =? 92); [|reflexivity]. destruct r1 as [|x r2]; [reflexivity|]. replace (u + d + 2) with (u + 2 + d) by lia. rewrite IH. apply qApp_shift.
Qed.
Lemma mv_quoted b : moves b paQuoted.
Proof.
  intros e f r u d (H & _). unfold paQuoted. cbn [rest used]. destruct (ParseSWS_2 r) as [|x r1]; [reflexivity|]. destruct (negb (x =? 34)); [reflexivity|].
  replace (u + d + 2) with (u + 2 + d) by lia. rewrite (qLoop_inf e f d H). destruct (qLoop _ e (u + 2) u r1); cbn [shiftQ]; mvPrim; mvEnd.
Qed.
Lemma mv_SWS b : moves b pSWS. Proof. intros e f r u d _. reflexivity. Qed.
Lemma mv_Mark2 b m : moves b (pSWSMarkCanOmmit m).
Proof. intros e f r u d _. unfold pSWSMarkCanOmmit. cbn [rest used]. now destruct (ParseSWSMarkCanOmmit m r) as [[q mt] [|]]. Qed.
Lemma mv_setKnown {A} b names (name : A -> bytes) t p : moves b (setKnown names name t p).
Proof.
  unfold setKnown. destruct (findName names (name p) 0) as [i|]; [|apply mv_ret]. destruct t as [tbl|]; [apply mv_ret|].
  intros e f r u d (H & _). cbn [rest used]. mvPrim. mvEnd.
Qed.

#[export] Hint Resolve mv_ret mv_pfail mv_panic mv_goto mv_alloc mv_allocCString mv_cstring mv_cstringEmpty mv_fromPos mv_tel mv_escapable mv_escapableEmpty mv_quoted mv_liftB mv_SWS mv_Mark2
  mv_setKnown : moves.
Ltac mv1 :=
  lazymatch goal with
  | |- moves _ (onRest _) => apply mv_onRest; intros
  | |- moves _ (withEnv _) => apply mv_withEnv; [intros; reflexivity|intros]
  | |- moves _ (loopP _ _) => apply mv_loopP; intros
  | |- moves _ (bind _ _) => apply mv_bind; [|intros]
  | |- moves _ (orRestore _ _) => apply mv_orRestore
  | |- moves _ (attempt _) => apply mv_attempt
  | |- moves _ (match ?x with _ => _ end) => destruct x
  | |- moves _ _ => solve [eauto 2 with moves]
  end.
Ltac mv := repeat mv1.
Section M.
Context (b : bool).
Notation mvs := (moves b).
Lemma mv_UInt : mvs pUInt. Proof. unfold pUInt. mv. Qed.
Lemma mv_UIntW w : mvs (pUIntW w). Proof. unfold pUIntW. pose proof mv_UInt. mv. Qed.
Lemma mv_expect c : mvs (expect c). Proof. unfold expect. mv. Qed.
Lemma mv_LWS : mvs pLWS. Proof. apply mv_liftB. Qed.
Lemma mv_Hcolon : mvs pHcolon. Proof. apply mv_liftB. Qed.
Lemma mv_SWSMark m : mvs (pSWSMark m). Proof. apply mv_liftB. Qed.
Lemma mv_LAQ : mvs pLeftAngleQuote. Proof. apply mv_liftB. Qed.
Lemma mv_RAQ : mvs pRightAngleQuote. Proof. apply mv_liftB. Qed.
Lemma mv_CRLF : mvs pCRLF. Proof. apply mv_liftB. Qed.
Hint Resolve mv_UInt mv_UIntW mv_expect mv_LWS mv_Hcolon mv_SWSMark mv_LAQ mv_RAQ mv_CRLF : moves.
Lemma mv_addParam {A} en names (name : A -> bytes) a p : mvs (addParam en names name a p).
Proof. unfold addParam. mv. Qed.
Hint Resolve mv_addParam : moves.
Lemma mv_host : mvs parseHost. Proof. unfold parseHost, parseIpv6, parseHostname. mv. Qed.
Hint Resolve mv_host : moves.
Lemma mv_hostPort : mvs parseHostPort. Proof. unfold parseHostPort. mv. Qed.
Hint Resolve mv_hostPort : moves.
Lemma mv_sepLoop {A} c (one : A -> P A) a : (forall a, mvs (one a)) -> mvs (sepLoop c one a).
Proof. intros H. unfold sepLoop, contIf. mv; apply H. Qed.
Lemma mv_uriParams {S} cn cv (set : S -> uparam -> P S) a : (forall a p, mvs (set a p)) -> mvs (parseUriParams cn cv set a).
Proof. intros H. unfold parseUriParams. mv. apply mv_sepLoop. intros a'. unfold uriParamOne, parseUriParam. mv; apply H. Qed.
Lemma mv_uriHeaders : mvs parseUriHeaders.
Proof. unfold parseUriHeaders. mv. apply mv_sepLoop. intros a'. unfold uriHeaderOne, parseUriHeader. mv. Qed.
Lemma mv_userinfo : mvs parseUserinfo. Proof. unfold parseUserinfo, parsePassword. mv. Qed.
Hint Resolve mv_uriHeaders mv_userinfo : moves.
Lemma mv_uriAfter c : mvs (parseUriAfterScheme c).
Proof. unfold parseUriAfterScheme. mv. apply mv_uriParams. intros. unfold sipUriSet. mv. Qed.
Lemma mv_uriAfterNo c : mvs (parseUriAfterSchemeNoParam c). Proof. unfold parseUriAfterSchemeNoParam. mv. Qed.
Lemma mv_telNumber : mvs parseTelNumber. Proof. unfold parseTelNumber. mv. Qed.
Hint Resolve mv_uriAfter mv_uriAfterNo mv_telNumber : moves.
Lemma mv_telAfter : mvs parseTelAfterScheme.
Proof. unfold parseTelAfterScheme. mv. apply mv_uriParams. intros. unfold telSet. mv. Qed.
Lemma mv_telAfterNo : mvs parseTelAfterSchemeNoParam. Proof. unfold parseTelAfterSchemeNoParam. mv. Qed.
Hint Resolve mv_telAfter mv_telAfterNo : moves.
Lemma mv_sipUri : mvs parseSipUri. Proof. unfold parseSipUri, parseSipScheme. mv. Qed.
Lemma mv_telUri : mvs parseTelUri. Proof. unfold parseTelUri, parseTelScheme. mv. Qed.
Lemma mv_genParams sep on names : (forall e f, on (withNeed f e) = on e) -> mvs (parseGenParams sep on names).
Proof. intros Hon. unfold parseGenParams. mv. unfold gpBody, parseGenParam, parseGenValue, paSlice. mv. apply mv_withEnv; [intros; now rewrite Hon|]. intros. mv. Qed.
Lemma mv_spec c u : mvs (parseSpec c u). Proof. unfold parseSpec. mv. Qed.
Lemma mv_scheme : mvs parseScheme. Proof. unfold parseScheme, otherScheme. mv. Qed.
Lemma mv_tokens : mvs parseTokens. Proof. unfold parseTokens, tokensBody, storeSince. mv. Qed.
Hint Resolve mv_spec mv_scheme mv_tokens : moves.
Lemma mv_nameAddr : mvs parseNameAddr. Proof. unfold parseNameAddr, parseDisplayName. mv. Qed.
Hint Resolve mv_nameAddr : moves.
Lemma mv_addr c : mvs (parseAddr c). Proof. unfold parseAddr. mv. Qed.
Hint Resolve mv_addr : moves.
Lemma mv_addrSpec : mvs parseAddrSpec. Proof. unfold parseAddrSpec. mv. Qed.
Hint Resolve mv_addrSpec : moves.
Lemma mv_method : mvs parseMethod. Proof. unfold parseMethod. mv. Qed.
Lemma mv_versionAfter : mvs parseVersionAfter.
Proof. unfold parseVersionAfter. assert (D : forall r, mvs (versionDigits r)) by (intros r; unfold versionDigits; destruct (span (inset DIGIT) r); mv). mv; apply D. Qed.
Hint Resolve mv_method mv_versionAfter : moves.
Lemma mv_version : mvs parseVersion. Proof. unfold parseVersion. mv. Qed.
Hint Resolve mv_version : moves.
Lemma mv_startLine : mvs parseStartLine. Proof. unfold parseStartLine, parseStatusLine, parseRequestLine. mv. Qed.
Hint Resolve mv_startLine : moves.
Lemma knownOn_need k e f : knownOn k (withNeed f e) = knownOn k e. Proof. destruct k; reflexivity. Qed.
Lemma mv_params k : mvs (parseParams k). Proof. apply mv_genParams. intros. apply knownOn_need. Qed.
Hint Resolve mv_params : moves.
Lemma mv_hval k : mvs (parseHVal k).
Proof.
  unfold parseHVal, parseFromTo, parseVia, parseSentProtocol, otherProtocol, parseContact, parseFromTo, parseRoute, parsePai, parseCSeq, parseRAck, parseNum, parseContentType, parseContentDisposition, parseCallID. mv.
Qed.
Hint Resolve mv_hval : moves.
Lemma mv_sipX k : mvs (parseSipX k). Proof. unfold parseSipX. mv. Qed.
Hint Resolve mv_sipX : moves.
Lemma mv_header k : mvs (parseHeader k). Proof. unfold parseHeader, parseHName. mv. Qed.
Lemma mv_headerName : mvs parseHeaderName. Proof. unfold parseHeaderName. mv. Qed.
Lemma mv_rawHeader n i : mvs (rawHeader n i). Proof. unfold rawHeader, rawValue. mv. Qed.
Hint Resolve mv_headerName mv_rawHeader : moves.
Lemma mv_headersBody {A} (hdr : A -> option bytes -> N -> P A) a : (forall a n i, mvs (hdr a n i)) -> mvs (headersBody hdr a).
Proof. intros H. unfold headersBody. mv; apply H. Qed.
Lemma mv_rawHeaders : mvs parseRawHeaders. Proof. unfold parseRawHeaders. apply mv_loopP. intros. apply mv_headersBody. intros. mv. Qed.
Lemma mv_rawScan : mvs rawScan. Proof. unfold rawScan. mv. Qed.
(** Parts do not depend on the setting, *)
Lemma needParse_body e f i : needParse OBody (withNeed f e) i = needParse OBody e i.
Proof.
  unfold needParse. cbn [withNeed fHeaderAsRaw eNeed]. destruct (fHeaderAsRaw e); [reflexivity|]. destruct (Nat.eqb_spec (slotOf OBody i) 0) as [|H0]; [reflexivity|]. cbn [negb andb].
  assert (C : contentHdr i = true). { unfold slotOf, slotTable in H0. cbn [lookupSlot] in H0. unfold contentHdr. destruct (i =? SIP_HDR_CONTENT_TYPE); [congruence|]. destruct (i =? SIP_HDR_CONTENT_LENGTH); [reflexivity|].
    destruct (i =? SIP_HDR_CONTENT_DISPOSITION); [reflexivity|congruence]. }
  rewrite C. reflexivity.
Qed.
Lemma mv_oneHeader o a n i : o = OBody \/ b = true -> mvs (oneHeader o a n i).
Proof.
  intros Ho. unfold oneHeader. apply mv_withEnv; [|intros; mv; unfold multiBody; mv]. intros e g (_ & H). destruct Ho as [-> | E]; [now rewrite needParse_body|]. rewrite (H E). now rewrite withNeed_self.
Qed.
Lemma mv_headers o : o = OBody \/ b = true -> mvs (parseHeaders o).
Proof. intros Ho. unfold parseHeaders. apply mv_loopP. intros. apply mv_headersBody. intros. now apply mv_oneHeader. Qed.
Lemma mv_bodyHeaders : mvs (parseHeaders OBody). Proof. apply mv_headers. now left. Qed.
Hint Resolve mv_bodyHeaders : moves.
Lemma mv_msgBody h : mvs (parseMsgBody h).
Proof. unfold parseMsgBody, parseMultiBody, parseSingleBody. mv. unfold multipartBody. mv. Qed.
End M.
(** the headers of a message do. *)
Lemma mv_msg : moves true parseMsg.
Proof.
  unfold parseMsg. pose proof (mv_startLine true). pose proof (mv_headers true OMsg (or_intror eq_refl)). pose proof (mv_msgBody true). mv.
Qed.
