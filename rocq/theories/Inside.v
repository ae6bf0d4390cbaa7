(** An arena is never overfull: whatever a parse does, what is in use afterwards is at most the size of the arena. *)
From Verif Require Import Base Charset BaseLemmas Num Lws Str Monad Good MethodTree HeaderTree Lookup Host Uri Tel GenParam Addr StartLine Headers RawHeaders Msg.

Definition inside {A} (p : P A) : Prop := forall e m s, memend e = Some m -> used s <= m ->
  match p e s with Ok _ s' | Fail s' => used s' <= m | Panic | Loop => True end.

Lemma in_ret {A} (a : A) : inside (ret a). Proof. intros e m s Hm H. exact H. Qed.
Lemma in_pfail {A} : inside (@pfail A). Proof. intros e m s Hm H. exact H. Qed.
Lemma in_panic {A} : inside (@panic A). Proof. intros e m s Hm H. exact Logic.I. Qed.
Lemma in_goto r : inside (goto r). Proof. intros e m s Hm H. exact H. Qed.
Lemma in_bind {A B} (p : P A) (q : A -> P B) : inside p -> (forall a, inside (q a)) -> inside (bind p q).
Proof. intros Hp Hq e m s Hm H. unfold bind. specialize (Hp e m s Hm H). destruct (p e s) as [a s1|s1| |]; auto. exact (Hq a e m s1 Hm Hp). Qed.
Lemma in_onRest {A} (f : bytes -> P A) : (forall r, inside (f r)) -> inside (onRest f).
Proof. intros Hf e m s Hm H. exact (Hf _ _ _ _ Hm H). Qed.
Lemma in_withEnv {A} (f : env -> P A) : (forall e, inside (f e)) -> inside (withEnv f).
Proof. intros Hf e m s Hm H. exact (Hf _ _ _ _ Hm H). Qed.
Lemma in_iterP {A B} (body : A -> P (A + B)) : (forall a, inside (body a)) -> forall f a, inside (iterP f body a).
Proof. intros Hb. induction f as [|f IH]; intros a; [intros e m s Hm H; exact Logic.I|]. cbn [iterP]. apply in_bind; [apply Hb|]. intros [a'|b]; [apply IH|apply in_ret]. Qed.
Lemma in_loopP {A B} (body : A -> P (A + B)) a : (forall a, inside (body a)) -> inside (loopP body a).
Proof. intros Hb e m s Hm H. unfold loopP. exact (in_iterP body Hb _ _ _ _ _ Hm H). Qed.
Lemma in_pure {A} (f : st -> res A) : (forall s, match f s with Ok _ s' | Fail s' => used s' = used s | Panic | Loop => True end) -> inside (fun _ s => f s).
Proof. intros Hf e m s Hm H. specialize (Hf s). destruct (f s); auto; now rewrite Hf. Qed.
Lemma le_room e m n : memend e = Some m -> leMem e n = true -> n <= m.
Proof. intros Hm H. unfold leMem in H. rewrite Hm in H. now apply N.leb_le. Qed.
Lemma lt_room e m n : memend e = Some m -> ltMem e n = true -> n <= m.
Proof. intros Hm H. unfold ltMem in H. rewrite Hm in H. apply N.ltb_lt in H. lia. Qed.
Lemma fits_room e m u n : memend e = Some m -> fits e u n = true -> n = 0 \/ u + n <= m.
Proof. intros Hm H. unfold fits in H. apply orb_true_iff in H as [H|H]; [left; now apply N.eqb_eq|right; exact (le_room _ _ _ Hm H)]. Qed.
Ltac inb := repeat match goal with |- context [if negb ?b then _ else _] => destruct b eqn:?; cbn [negb] end; try exact Logic.I.
Ltac ine Hm := cbn [used]; repeat match goal with H : negb _ = false |- _ => apply negb_false_iff in H | H : ltMem _ _ = true |- _ => apply (lt_room _ _ _ Hm) in H | H : leMem _ _ = true |- _ => apply (le_room _ _ _ Hm) in H end; try lia.
Ltac fin Hm := cbv zeta; repeat match goal with |- match (match ?t with _ => _ end) with _ => _ end => destruct t eqn:? end; try exact Logic.I; ine Hm.
Lemma in_alloc n : inside (allocStruct n).
Proof. intros e m s Hm H. unfold allocStruct. fin Hm. Qed.
Lemma in_allocCString b : inside (allocCString b).
Proof. intros e m s Hm H. unfold allocCString. fin Hm. Qed.
Lemma in_cstring cs : inside (paCString cs).
Proof. intros e m s Hm H. unfold paCString. fin Hm. Qed.
Lemma in_cstringEmpty cs : inside (paCStringEmpty cs).
Proof. intros e m s Hm H. unfold paCStringEmpty. fin Hm. Qed.
Lemma in_fromPos mid cs : inside (paCStringFromPos mid cs).
Proof.
  intros e m s Hm H. unfold paCStringFromPos. fin Hm.
Qed.
Lemma in_tel cs : inside (paTelNumber cs).
Proof.
  intros e m s Hm H. unfold paTelNumber. fin Hm.
Qed.
Lemma in_escapable cs : inside (paEscapable cs).
Proof. intros e m s Hm H. unfold paEscapable. fin Hm. Qed.
Lemma in_escapableEmpty cs : inside (paEscapableEmpty cs).
Proof. intros e m s Hm H. unfold paEscapableEmpty. fin Hm. Qed.
Lemma copy_room e m u r w r' ok : memend e = Some m -> copyLWS e u r = Some (w, r', ok) -> (w = [] /\ r' = r /\ ok = true) \/ u + len w <= m.
Proof.
  intros Hm. unfold copyLWS. destruct (span isWsp r) as [w1 r1] eqn:E1. destruct (fits e u (len w1)) eqn:F1; [|discriminate]. cbn [negb]. apply (fits_room _ _ _ _ Hm) in F1.
  assert (Hr : w1 = [] -> r1 = r) by (intros ->; apply span_app in E1; now subst r).
  assert (D : w1 = [] \/ u + len w1 <= m) by (destruct F1 as [F1|F1]; [left; destruct w1; [reflexivity|rewrite len_cons in F1; lia]|now right]).
  destruct r1 as [|a [|b r2]].
  1, 2: intros [= <- <- <-]; destruct D as [D|D]; [left; auto|now right].
  destruct (_ && _)%bool; [|intros [= <- <- <-]; destruct D as [D|D]; [left; auto|now right]].
  destruct (fits e (u + len w1) 2) eqn:F2; [|discriminate]. cbn [negb]. apply (fits_room _ _ _ _ Hm) in F2. destruct F2 as [F2|F2]; [discriminate|].
  destruct r2 as [|x r2]; [intros [= <- <- <-]; right; rewrite len_app; cbn; lia|]. destruct (negb (isWsp x)); [intros [= <- <- <-]; right; rewrite len_app; cbn; lia|].
  destruct (span isWsp (x :: r2)) as [w2 r3]. destruct (fits e (u + len w1 + 2) (len w2)) eqn:F3; [|discriminate]. cbn [negb]. apply (fits_room _ _ _ _ Hm) in F3.
  intros [= <- <- <-]. right. rewrite len_app, !len_cons. lia.
Qed.
Lemma stuck e u r : copyLWS e u r = Some ([], r, true) -> (exists v q, r = v :: q /\ IsLwsChar v = true /\ (v =? 34) = false) -> forall f U, qLoop f e u U r = QLoop.
Proof.
  intros C (v & q & -> & V1 & V2). induction f as [|f IH]; intros U; [reflexivity|]. cbn [qLoop]. rewrite V2, V1, C. change (len []) with 0. rewrite !N.add_0_r, IH. reflexivity.
Qed.
Lemma q_room e m : memend e = Some m -> forall f u U r, U <= m ->
  match qLoop f e u U r with QOk tok _ => tok = [] \/ u + len tok <= m | QFail _ u' => u' <= m | QPanic | QLoop => True end.
Proof.
  intros Hm. induction f as [|f IH]; intros u U r HU; [exact Logic.I|]. cbn [qLoop]. destruct r as [|v r1]; [exact HU|]. destruct (v =? 34) eqn:V2; [left; reflexivity|].
  destruct (IsLwsChar v) eqn:V1.
  { destruct (copyLWS e u (v :: r1)) as [[[w r'] ok]|] eqn:C; [|exact Logic.I]. destruct (copy_room _ _ _ _ _ _ _ Hm C) as [(-> & -> & ->)|K].
    - change (len []) with 0. rewrite N.add_0_r, (stuck e u (v :: r1) C); [exact Logic.I|eauto].
    - destruct ok; [|exact K]. specialize (IH (u + len w) (u + len w) r' K). destruct (qLoop f e (u + len w) (u + len w) r') as [t q|q y| |]; cbn [qApp]; auto.
      right. rewrite len_app. destruct IH as [-> | IH]; cbn; lia. }
  destruct (IsSipQuotedText v).
  { destruct (ltMem e u) eqn:Hu; [|exact Logic.I]. unfold ltMem in Hu. rewrite Hm in Hu. apply N.ltb_lt in Hu. specialize (IH (u + 1) U r1 HU). destruct (qLoop f e (u + 1) U r1) as [t q|q y| |]; cbn [qApp]; auto.
    right. rewrite len_app. cbn. destruct IH as [-> | IH]; cbn; lia. }
  destruct (v =? 92); [|exact HU]. destruct r1 as [|x r2]; [exact HU|]. destruct (leMem e (u + 2)) eqn:Hu; [|exact Logic.I]. apply (le_room _ _ _ Hm) in Hu.
  specialize (IH (u + 2) U r2 HU). destruct (qLoop f e (u + 2) U r2) as [t q|q y| |]; cbn [qApp]; auto.
  right. rewrite len_app. cbn. destruct IH as [-> | IH]; cbn; lia.
Qed.
Lemma in_quoted : inside paQuoted.
Proof.
  intros e m s Hm H. unfold paQuoted. destruct (ParseSWS_2 (rest s)) as [|x r1]; [exact Logic.I|]. destruct (negb (x =? 34)); [exact H|].
  pose proof (q_room e m Hm (S (List.length r1)) (used s + 2) (used s) r1 H) as K. destruct (qLoop _ e _ _ r1) as [t r2|r2 y| |]; auto. inb. apply (le_room _ _ _ Hm) in Heqb. cbn [used]. destruct K as [-> | K]; cbn; lia.
Qed.
Lemma in_liftB f : inside (liftB f).
Proof. apply in_pure. intros s. destruct (f (rest s)) as [r [|]]; reflexivity. Qed.
Lemma in_SWS : inside pSWS. Proof. apply in_pure. intros s. reflexivity. Qed.
Lemma in_Mark2 m : inside (pSWSMarkCanOmmit m).
Proof. apply in_pure. intros s. destruct (ParseSWSMarkCanOmmit m (rest s)) as [[r mt] [|]]; reflexivity. Qed.
Lemma in_setKnown {A} names (name : A -> bytes) t p : inside (setKnown names name t p).
Proof.
  unfold setKnown. destruct (findName names (name p) 0) as [i|]; [|apply in_ret]. destruct t as [tbl|]; [apply in_ret|].
  intros e m s Hm H. fin Hm.
Qed.
Lemma in_attempt {A} (p : P A) : inside p -> inside (attempt p).
Proof. intros Hp e m s Hm H. unfold attempt. specialize (Hp e m s Hm H). destruct (p e s); auto. Qed.
Lemma in_orRestore {A} (p q : P A) : inside p -> inside q -> inside (orRestore p q).
Proof. intros Hp Hq e m s Hm H. unfold orRestore. specialize (Hp e m s Hm H). destruct (p e s); auto. apply Hq; assumption. Qed.

#[export] Hint Resolve in_ret in_pfail in_panic in_goto in_alloc in_allocCString in_cstring in_cstringEmpty in_fromPos in_tel in_escapable in_escapableEmpty in_quoted in_liftB in_SWS in_Mark2
  in_setKnown in_attempt in_orRestore : inside.
Ltac in1 :=
  lazymatch goal with
  | |- inside (onRest _) => apply in_onRest; intros
  | |- inside (withEnv _) => apply in_withEnv; intros
  | |- inside (loopP _ _) => apply in_loopP; intros
  | |- inside (bind _ _) => apply in_bind; [|intros]
  | |- inside (match ?x with _ => _ end) => destruct x
  | |- inside _ => solve [eauto 2 with inside]
  end.
Ltac ins := repeat in1.
Lemma in_UInt : inside pUInt. Proof. unfold pUInt. ins. Qed.
Lemma in_UIntW w : inside (pUIntW w). Proof. unfold pUIntW. pose proof in_UInt. ins. Qed.
Lemma in_expect c : inside (expect c). Proof. unfold expect. ins. Qed.
Lemma in_LWS : inside pLWS. Proof. apply in_liftB. Qed.
Lemma in_Hcolon : inside pHcolon. Proof. apply in_liftB. Qed.
Lemma in_SWSMark m : inside (pSWSMark m). Proof. apply in_liftB. Qed.
Lemma in_LAQ : inside pLeftAngleQuote. Proof. apply in_liftB. Qed.
Lemma in_RAQ : inside pRightAngleQuote. Proof. apply in_liftB. Qed.
Lemma in_CRLF : inside pCRLF. Proof. apply in_liftB. Qed.
#[export] Hint Resolve in_UInt in_UIntW in_expect in_LWS in_Hcolon in_SWSMark in_LAQ in_RAQ in_CRLF : inside.
Lemma in_addParam {A} en names (name : A -> bytes) a p : inside (addParam en names name a p).
Proof. unfold addParam. ins. Qed.
#[export] Hint Resolve in_addParam : inside.
(** *** Hosts and URIs *)
Lemma in_host : inside parseHost. Proof. unfold parseHost, parseIpv6, parseHostname. ins. Qed.
#[export] Hint Resolve in_host : inside.
Lemma in_hostPort : inside parseHostPort. Proof. unfold parseHostPort. ins. Qed.
#[export] Hint Resolve in_hostPort : inside.
Lemma in_sepLoop {A} c (one : A -> P A) a : (forall a, inside (one a)) -> inside (sepLoop c one a).
Proof. intros H. unfold sepLoop, contIf. ins; apply H. Qed.
Lemma in_uriParams {S} cn cv (set : S -> uparam -> P S) a : (forall a p, inside (set a p)) -> inside (parseUriParams cn cv set a).
Proof. intros H. unfold parseUriParams. ins. apply in_sepLoop. intros a'. unfold uriParamOne, parseUriParam. ins; apply H. Qed.
Lemma in_uriHeaders : inside parseUriHeaders.
Proof. unfold parseUriHeaders. ins. apply in_sepLoop. intros a'. unfold uriHeaderOne, parseUriHeader. ins. Qed.
Lemma in_userinfo : inside parseUserinfo. Proof. unfold parseUserinfo, parsePassword. ins. Qed.
#[export] Hint Resolve in_uriHeaders in_userinfo : inside.
Lemma in_uriAfter b : inside (parseUriAfterScheme b).
Proof. unfold parseUriAfterScheme. ins. apply in_uriParams. intros. unfold sipUriSet. ins. Qed.
Lemma in_uriAfterNo b : inside (parseUriAfterSchemeNoParam b). Proof. unfold parseUriAfterSchemeNoParam. ins. Qed.
Lemma in_telNumber : inside parseTelNumber. Proof. unfold parseTelNumber. ins. Qed.
#[export] Hint Resolve in_uriAfter in_uriAfterNo in_telNumber : inside.
Lemma in_telAfter : inside parseTelAfterScheme.
Proof. unfold parseTelAfterScheme. ins. apply in_uriParams. intros. unfold telSet. ins. Qed.
Lemma in_telAfterNo : inside parseTelAfterSchemeNoParam. Proof. unfold parseTelAfterSchemeNoParam. ins. Qed.
#[export] Hint Resolve in_telAfter in_telAfterNo : inside.
Lemma in_sipUri : inside parseSipUri. Proof. unfold parseSipUri, parseSipScheme. ins. Qed.
Lemma in_telUri : inside parseTelUri. Proof. unfold parseTelUri, parseTelScheme. ins. Qed.
(** *** Generic parameters and addresses *)
Lemma in_genParams sep on names : inside (parseGenParams sep on names).
Proof. unfold parseGenParams. ins. unfold gpBody, parseGenParam, parseGenValue, paSlice. ins. Qed.
Lemma in_spec b u : inside (parseSpec b u). Proof. unfold parseSpec. ins. Qed.
Lemma in_scheme : inside parseScheme. Proof. unfold parseScheme, otherScheme. ins. Qed.
Lemma in_tokens : inside parseTokens. Proof. unfold parseTokens, tokensBody, storeSince. ins. Qed.
#[export] Hint Resolve in_spec in_scheme in_tokens : inside.
Lemma in_nameAddr : inside parseNameAddr. Proof. unfold parseNameAddr, parseDisplayName. ins. Qed.
#[export] Hint Resolve in_nameAddr : inside.
Lemma in_addr b : inside (parseAddr b).
Proof.
  unfold parseAddr. ins. apply in_orRestore; ins.
Qed.
#[export] Hint Resolve in_addr : inside.
Lemma in_addrSpec : inside parseAddrSpec. Proof. unfold parseAddrSpec. ins. Qed.
#[export] Hint Resolve in_addrSpec : inside.
(** *** Start lines, headers, messages *)
Lemma in_method : inside parseMethod. Proof. unfold parseMethod. ins. Qed.
Lemma in_versionAfter : inside parseVersionAfter.
Proof. unfold parseVersionAfter. assert (D : forall r, inside (versionDigits r)) by (intros r; unfold versionDigits; destruct (span (inset DIGIT) r); ins). ins; apply D. Qed.
#[export] Hint Resolve in_method in_versionAfter : inside.
Lemma in_version : inside parseVersion. Proof. unfold parseVersion. ins. Qed.
#[export] Hint Resolve in_version : inside.
Lemma in_startLine : inside parseStartLine. Proof. unfold parseStartLine, parseStatusLine, parseRequestLine. ins. Qed.
#[export] Hint Resolve in_startLine : inside.
Lemma in_params k : inside (parseParams k). Proof. apply in_genParams. Qed.
#[export] Hint Resolve in_params : inside.
Lemma in_hval k : inside (parseHVal k).
Proof.
  unfold parseHVal, parseFromTo, parseVia, parseSentProtocol, otherProtocol, parseContact, parseFromTo, parseRoute, parsePai, parseCSeq, parseRAck, parseNum, parseContentType, parseContentDisposition, parseCallID. ins.
Qed.
#[export] Hint Resolve in_hval : inside.
Lemma in_sipX k : inside (parseSipX k). Proof. unfold parseSipX. ins. Qed.
#[export] Hint Resolve in_sipX : inside.
Lemma in_header k : inside (parseHeader k). Proof. unfold parseHeader, parseHName. ins. Qed.
Lemma in_headerName : inside parseHeaderName. Proof. unfold parseHeaderName. ins. Qed.
Lemma in_rawHeader n i : inside (rawHeader n i). Proof. unfold rawHeader, rawValue. ins. Qed.
#[export] Hint Resolve in_headerName in_rawHeader : inside.
Lemma in_headersBody {A} (hdr : A -> option bytes -> N -> P A) a : (forall a n i, inside (hdr a n i)) -> inside (headersBody hdr a).
Proof. intros H. unfold headersBody. ins; apply H. Qed.
Lemma in_rawHeaders : inside parseRawHeaders. Proof. unfold parseRawHeaders. apply in_loopP. intros. apply in_headersBody. intros. ins. Qed.
Lemma in_oneHeader o a n i : inside (oneHeader o a n i). Proof. unfold oneHeader. ins. unfold multiBody. ins. Qed.
Lemma in_headers o : inside (parseHeaders o). Proof. unfold parseHeaders. apply in_loopP. intros. apply in_headersBody. intros. apply in_oneHeader. Qed.
#[export] Hint Resolve in_headers : inside.
Lemma in_msgBody h : inside (parseMsgBody h).
Proof. unfold parseMsgBody, parseMultiBody, parseSingleBody. ins. unfold multipartBody. ins. Qed.
#[export] Hint Resolve in_msgBody : inside.
Lemma in_msg : inside parseMsg. Proof. unfold parseMsg. ins. Qed.
Lemma in_rawScan : inside rawScan. Proof. unfold rawScan. ins. Qed.
