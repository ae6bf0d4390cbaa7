(** Memory: a parse that succeeds in an arena that is never exhausted succeeds, with the same result, in every arena with at least one byte more than it used. *)
From Verif Require Import Base Charset BaseLemmas Num Lws Str Monad Good MethodTree HeaderTree Lookup Host Uri Tel GenParam Addr StartLine Headers RawHeaders Msg.

Definition thrifty {A} (p : P A) : Prop := forall e s a s', p (withMem None e) s = Ok a s' ->
  used s <= used s' /\ forall m, used s' < m -> p (withMem (Some m) e) s = Ok a s'.

Lemma th_ret {A} (a : A) : thrifty (ret a).
Proof. intros e s a' s' H. cbn in H. injection H as <- <-. split; [lia|reflexivity]. Qed.
Lemma th_pfail {A} : thrifty (@pfail A).
Proof. intros e s a' s' H. discriminate. Qed.
Lemma th_panic {A} : thrifty (@panic A).
Proof. intros e s a' s' H. discriminate. Qed.
Lemma th_goto r : thrifty (goto r).
Proof. intros e s a' s' H. cbn in H. injection H as <- <-. split; [cbn; lia|reflexivity]. Qed.
Lemma th_bind {A B} (p : P A) (q : A -> P B) : thrifty p -> (forall a, thrifty (q a)) -> thrifty (bind p q).
Proof.
  intros Hp Hq e s b s' H. unfold bind in *. destruct (p (withMem None e) s) as [a s1|s1| |] eqn:E; try discriminate.
  destruct (Hp _ _ _ _ E) as [U1 M1]. destruct (Hq _ _ _ _ _ H) as [U2 M2]. split; [lia|]. intros m Hm. rewrite (M1 m) by lia. apply M2, Hm.
Qed.
Lemma th_onRest {A} (f : bytes -> P A) : (forall r, thrifty (f r)) -> thrifty (onRest f).
Proof. intros Hf e s a s' H. exact (Hf _ _ _ _ _ H). Qed.
Lemma th_withEnv {A} (f : env -> P A) : (forall e m, f (withMem m e) = f e) -> (forall e, thrifty (f e)) -> thrifty (withEnv f).
Proof. intros E Hf e s a s' H. unfold withEnv in *. rewrite E in H. destruct (Hf _ _ _ _ _ H) as [U M]. split; [exact U|]. intros m Hm. rewrite E. auto. Qed.
Lemma th_iterP {A B} (body : A -> P (A + B)) : (forall a, thrifty (body a)) -> forall f a, thrifty (iterP f body a).
Proof.
  intros Hb. induction f as [|f IH]; intros a; [intros e s b s' H; discriminate|]. cbn [iterP]. apply th_bind; [apply Hb|]. intros [a'|b]; [apply IH|apply th_ret].
Qed.
Lemma th_loopP {A B} (body : A -> P (A + B)) a : (forall a, thrifty (body a)) -> thrifty (loopP body a).
Proof. intros Hb e s b s' H. unfold loopP in *. exact (th_iterP body Hb _ _ _ _ _ _ H). Qed.
Lemma th_pure {A} (f : st -> res A) : (forall s a s', f s = Ok a s' -> used s' = used s) -> thrifty (fun _ s => f s).
Proof. intros Hf e s a s' H. split; [rewrite (Hf _ _ _ H); lia|]. intros m _. exact H. Qed.

Lemma th_alloc n : thrifty (allocStruct n).
Proof. intros e s a s' H. cbn in H. injection H as <- <-. cbn. split; [lia|]. intros m Hm. unfold allocStruct, leMem. cbn. destruct (N.leb_spec (used s + n) m); [reflexivity|lia]. Qed.
Lemma th_allocCString b : thrifty (allocCString b).
Proof. intros e s a s' H. cbn in H. injection H as <- <-. cbn. split; [lia|]. intros m Hm. unfold allocCString, leMem. cbn. destruct (N.leb_spec (used s + (len b + 2)) m); [reflexivity|lia]. Qed.
Lemma ltMem_some e m n : n < m -> ltMem (withMem (Some m) e) n = true. Proof. intros. unfold ltMem. cbn. now apply N.ltb_lt. Qed.
Lemma leMem_some e m n : n <= m -> leMem (withMem (Some m) e) n = true. Proof. intros. unfold leMem. cbn. now apply N.leb_le. Qed.

Lemma fits_some e m u n : u + n <= m -> fits (withMem (Some m) e) u n = true.
Proof. intros. unfold fits. rewrite leMem_some by lia. apply orb_true_r. Qed.
Lemma ltMem_none e n : ltMem (withMem None e) n = true. Proof. reflexivity. Qed.
Lemma leMem_none e n : leMem (withMem None e) n = true. Proof. reflexivity. Qed.
Ltac thPrim H := rewrite ?ltMem_none, ?leMem_none, ?fits_none in H; cbn [negb] in H.
Ltac thEnd := cbn [used]; split; [lia|]; intros m Hm; rewrite ?ltMem_some, ?leMem_some, ?fits_some by lia; reflexivity.
Lemma th_cstring cs : thrifty (paCString cs).
Proof.
  intros e s a s' H. unfold paCString in *. thPrim H. destruct (span (inset cs) (rest s)) as [tok r]. thPrim H.
  destruct tok as [|x tok]; [discriminate|]. injection H as <- <-. thEnd.
Qed.
Lemma th_cstringEmpty cs : thrifty (paCStringEmpty cs).
Proof. intros e s a s' H. unfold paCStringEmpty in *. thPrim H. destruct (span (inset cs) (rest s)) as [tok r]. thPrim H. injection H as <- <-. thEnd. Qed.
Lemma th_fromPos mid cs : thrifty (paCStringFromPos mid cs).
Proof.
  intros e s a s' H. unfold paCStringFromPos in *. thPrim H. rewrite andb_false_r in H. destruct (span (inset cs) mid) as [tok r]. thPrim H.
  destruct (firstn _ _ ++ tok) as [|x t] eqn:E; [discriminate|]. injection H as <- <-.
  cbn [used]. split; [lia|]. intros m Hm. rewrite !ltMem_some, fits_some by lia. cbn [negb]. rewrite andb_false_r. reflexivity.
Qed.
Lemma th_tel cs : thrifty (paTelNumber cs).
Proof.
  intros e s a s' H. unfold paTelNumber in *. thPrim H. destruct (match rest s with x :: r => if x =? 43 then ([43], r) else ([], rest s) | [] => ([], rest s) end) as [pl r0].
  destruct (span (inset cs) r0) as [run r]. thPrim H. destruct (filter _ run) as [|x t]; [discriminate|]. injection H as <- <-. thEnd.
Qed.
Lemma escLoop_thrifty cs e : forall n r u tok r', (List.length r <= n)%nat -> escLoop cs (withMem None e) u r = EStop tok r' ->
  forall m, u + len tok < m -> escLoop cs (withMem (Some m) e) u r = EStop tok r'.
Proof.
  induction n as [|n IH]; intros r u tok r' Hn H m Hm; (destruct r as [|v r]; [cbn in *; exact H|]); cbn [List.length] in Hn; [lia|].
  cbn [escLoop] in *. rewrite ltMem_none in H.
  destruct (inset cs v).
  { destruct (escLoop cs (withMem None e) (u + 1) r) as [t q|q| |] eqn:E; try discriminate. cbn [escCons] in H. injection H as <- <-. rewrite len_cons in Hm.
    rewrite ltMem_some by lia. rewrite (IH _ (u + 1) _ _) with (2 := E) by lia; reflexivity. }
  destruct (v =? 37); [|exact H]. destruct r as [|v1 [|v2 r2]]; try discriminate. destruct (_ || _)%bool; [discriminate|].
  destruct (escLoop cs (withMem None e) (u + 1) r2) as [t q|q| |] eqn:E; try discriminate. cbn [escCons] in H. injection H as <- <-. rewrite len_cons in Hm. cbn [List.length] in Hn.
  rewrite ltMem_some by lia. rewrite (IH _ (u + 1) _ _) with (2 := E) by lia; reflexivity.
Qed.
Lemma th_escapable cs : thrifty (paEscapable cs).
Proof.
  intros e s a s' H. unfold paEscapable in *. thPrim H. destruct (escLoop cs (withMem None e) (used s + 2) (rest s)) as [[|x tok] r|r| |] eqn:E; try discriminate. thPrim H. injection H as <- <-.
  cbn [used]. split; [lia|]. intros m Hm. rewrite ltMem_some by lia. rewrite (escLoop_thrifty _ _ _ _ _ _ _ (le_n _) E) by lia. rewrite ltMem_some by lia. reflexivity.
Qed.
Lemma th_escapableEmpty cs : thrifty (paEscapableEmpty cs).
Proof.
  intros e s a s' H. unfold paEscapableEmpty in *. thPrim H. destruct (escLoop cs (withMem None e) (used s + 2) (rest s)) as [tok r|r| |] eqn:E; try discriminate. thPrim H. injection H as <- <-.
  cbn [used]. split; [lia|]. intros m Hm. rewrite ltMem_some by lia. rewrite (escLoop_thrifty _ _ _ _ _ _ _ (le_n _) E) by lia. rewrite ltMem_some by lia. reflexivity.
Qed.
Lemma copyLWS_thrifty e m u r w r' ok : copyLWS (withMem None e) u r = Some (w, r', ok) -> u + len w <= m -> copyLWS (withMem (Some m) e) u r = Some (w, r', ok).
Proof.
  unfold copyLWS. destruct (span isWsp r) as [w1 r1]. rewrite !fits_none. cbn [negb]. destruct r1 as [|a [|b r2]].
  - intros [= <- <- <-] Hm. rewrite fits_some by lia. reflexivity.
  - intros [= <- <- <-] Hm. rewrite fits_some by lia. reflexivity.
  - destruct (_ && _)%bool.
    + destruct r2 as [|x r2]; [|destruct (negb (isWsp x)) eqn:Ex; [|destruct (span isWsp (x :: r2)) as [w2 r3]; rewrite fits_none; cbn [negb]]];
      intros [= <- <- <-] Hm; rewrite !len_app, ?len_cons, ?len_nil in Hm; rewrite !fits_some by lia; reflexivity.
    + intros [= <- <- <-] Hm. rewrite fits_some by lia. reflexivity.
Qed.
Lemma qLoop_thrifty e m : forall f u U r tok r', qLoop f (withMem None e) u U r = QOk tok r' -> u + len tok < m -> qLoop f (withMem (Some m) e) u U r = QOk tok r'.
Proof.
  induction f as [|f IH]; intros u U r tok r' H Hm; [discriminate|]. cbn [qLoop] in *. destruct r as [|v r1]; [discriminate|].
  destruct (v =? 34); [exact H|]. destruct (IsLwsChar v).
  { destruct (copyLWS (withMem None e) u (v :: r1)) as [[[w r2] [|]]|] eqn:C; try discriminate.
    destruct (qLoop f (withMem None e) (u + len w) (u + len w) r2) as [t q|q x| |] eqn:E; try discriminate. cbn [qApp] in H. injection H as <- <-. rewrite len_app in Hm.
    rewrite (copyLWS_thrifty _ m _ _ _ _ _ C) by lia. rewrite (IH _ _ _ _ _ E) by lia. reflexivity. }
  destruct (IsSipQuotedText v).
  { rewrite ltMem_none in H. destruct (qLoop f (withMem None e) (u + 1) U r1) as [t q|q x| |] eqn:E; try discriminate. cbn [qApp] in H. injection H as <- <-.
    cbn [app] in Hm. rewrite len_cons in Hm. rewrite ltMem_some by lia. rewrite (IH _ _ _ _ _ E) by lia. reflexivity. }
  destruct (v =? 92); [|discriminate]. destruct r1 as [|x r2]; [discriminate|]. rewrite leMem_none in H.
  destruct (qLoop f (withMem None e) (u + 2) U r2) as [t q|q y| |] eqn:E; try discriminate. cbn [qApp] in H. injection H as <- <-.
  cbn [app] in Hm. rewrite !len_cons in Hm. rewrite leMem_some by lia. rewrite (IH _ _ _ _ _ E) by lia. reflexivity.
Qed.
Lemma th_quoted : thrifty paQuoted.
Proof.
  intros e s a s' H. unfold paQuoted in *. destruct (ParseSWS_2 (rest s)) as [|x r1]; [discriminate|]. destruct (negb (x =? 34)); [discriminate|].
  destruct (qLoop _ _ _ _ r1) as [tok r|r U| |] eqn:E; try discriminate. thPrim H. injection H as <- <-.
  cbn [used]. split; [lia|]. intros m Hm. rewrite (qLoop_thrifty _ m _ _ _ _ _ _ E) by lia. rewrite leMem_some by lia. reflexivity.
Qed.
Lemma th_liftB f : thrifty (liftB f).
Proof. apply th_pure. intros s a s' H. destruct (f (rest s)) as [r [|]]; [|discriminate]. injection H as _ <-. reflexivity. Qed.
Lemma th_SWS : thrifty pSWS.
Proof. apply th_pure. intros s a s' H. injection H as _ <-. reflexivity. Qed.
Lemma th_Mark2 m : thrifty (pSWSMarkCanOmmit m).
Proof. apply th_pure. intros s a s' H. destruct (ParseSWSMarkCanOmmit m (rest s)) as [[r mt] [|]]; [|discriminate]. injection H as _ <-. reflexivity. Qed.
Lemma th_setKnown {A} names (name : A -> bytes) t p : thrifty (setKnown names name t p).
Proof.
  unfold setKnown. destruct (findName names (name p) 0) as [i|]; [|apply th_ret]. destruct t as [tbl|]; [apply th_ret|].
  intros e s a s' H. rewrite leMem_none in H. injection H as <- <-. cbn [used]. split; [lia|]. intros m Hm. rewrite leMem_some by lia. reflexivity.
Qed.
Lemma th_attempt_alloc b : thrifty (attempt (allocCString b)).
Proof.
  intros e s a s' H. unfold attempt, allocCString in *. rewrite leMem_none in H. injection H as <- <-. cbn [used]. split; [lia|]. intros m Hm. rewrite leMem_some by lia. reflexivity.
Qed.

#[export] Hint Resolve th_ret th_pfail th_panic th_goto th_alloc th_allocCString th_cstring th_cstringEmpty th_fromPos th_tel th_escapable th_escapableEmpty th_quoted th_liftB th_SWS th_Mark2
  th_setKnown th_attempt_alloc : thrift.
Ltac th1 :=
  lazymatch goal with
  | |- thrifty (onRest _) => apply th_onRest; intros
  | |- thrifty (withEnv _) => apply th_withEnv; [intros; reflexivity|intros]
  | |- thrifty (loopP _ _) => apply th_loopP; intros
  | |- thrifty (bind _ _) => apply th_bind; [|intros]
  | |- thrifty (match ?x with _ => _ end) => destruct x
  | |- thrifty _ => solve [eauto 2 with thrift]
  end.
Ltac th := repeat th1.
Lemma th_UInt : thrifty pUInt. Proof. unfold pUInt. th. Qed.
Lemma th_UIntW w : thrifty (pUIntW w). Proof. unfold pUIntW. pose proof th_UInt. th. Qed.
Lemma th_expect c : thrifty (expect c). Proof. unfold expect. th. Qed.
Lemma th_LWS : thrifty pLWS. Proof. apply th_liftB. Qed.
Lemma th_Hcolon : thrifty pHcolon. Proof. apply th_liftB. Qed.
Lemma th_SWSMark m : thrifty (pSWSMark m). Proof. apply th_liftB. Qed.
Lemma th_LAQ : thrifty pLeftAngleQuote. Proof. apply th_liftB. Qed.
Lemma th_RAQ : thrifty pRightAngleQuote. Proof. apply th_liftB. Qed.
Lemma th_CRLF : thrifty pCRLF. Proof. apply th_liftB. Qed.
#[export] Hint Resolve th_UInt th_UIntW th_expect th_LWS th_Hcolon th_SWSMark th_LAQ th_RAQ th_CRLF : thrift.
Lemma th_addParam {A} en names (name : A -> bytes) a p : thrifty (addParam en names name a p).
Proof. unfold addParam. th. Qed.
#[export] Hint Resolve th_addParam : thrift.
(** *** Hosts and URIs *)
Lemma th_host : thrifty parseHost. Proof. unfold parseHost, parseIpv6, parseHostname. th. Qed.
#[export] Hint Resolve th_host : thrift.
Lemma th_hostPort : thrifty parseHostPort. Proof. unfold parseHostPort. th. Qed.
#[export] Hint Resolve th_hostPort : thrift.
Lemma th_sepLoop {A} c (one : A -> P A) a : (forall a, thrifty (one a)) -> thrifty (sepLoop c one a).
Proof. intros H. unfold sepLoop, contIf. th; apply H. Qed.
Lemma th_uriParams {S} cn cv (set : S -> uparam -> P S) a : (forall a p, thrifty (set a p)) -> thrifty (parseUriParams cn cv set a).
Proof. intros H. unfold parseUriParams. th. apply th_sepLoop. intros a'. unfold uriParamOne, parseUriParam. th; apply H. Qed.
Lemma th_uriHeaders : thrifty parseUriHeaders.
Proof. unfold parseUriHeaders. th. apply th_sepLoop. intros a'. unfold uriHeaderOne, parseUriHeader. th. Qed.
Lemma th_userinfo : thrifty parseUserinfo. Proof. unfold parseUserinfo, parsePassword. th. Qed.
#[export] Hint Resolve th_uriHeaders th_userinfo : thrift.
Lemma th_uriAfter b : thrifty (parseUriAfterScheme b).
Proof. unfold parseUriAfterScheme. th. apply th_uriParams. intros. unfold sipUriSet. th. Qed.
Lemma th_uriAfterNo b : thrifty (parseUriAfterSchemeNoParam b). Proof. unfold parseUriAfterSchemeNoParam. th. Qed.
Lemma th_telNumber : thrifty parseTelNumber. Proof. unfold parseTelNumber. th. Qed.
#[export] Hint Resolve th_uriAfter th_uriAfterNo th_telNumber : thrift.
Lemma th_telAfter : thrifty parseTelAfterScheme.
Proof. unfold parseTelAfterScheme. th. apply th_uriParams. intros. unfold telSet. th. Qed.
Lemma th_telAfterNo : thrifty parseTelAfterSchemeNoParam. Proof. unfold parseTelAfterSchemeNoParam. th. Qed.
#[export] Hint Resolve th_telAfter th_telAfterNo : thrift.
Lemma th_sipUri : thrifty parseSipUri. Proof. unfold parseSipUri, parseSipScheme. th. Qed.
Lemma th_telUri : thrifty parseTelUri. Proof. unfold parseTelUri, parseTelScheme. th. Qed.
(** *** Generic parameters and addresses *)
Lemma th_genParams sep on names : (forall e m, on (withMem m e) = on e) -> thrifty (parseGenParams sep on names).
Proof. intros Hon. unfold parseGenParams. th. unfold gpBody, parseGenParam, parseGenValue, paSlice. th. apply th_withEnv; [intros; now rewrite Hon|]. intros. th. Qed.
Lemma th_spec b u : thrifty (parseSpec b u). Proof. unfold parseSpec. th. Qed.
Lemma th_scheme : thrifty parseScheme. Proof. unfold parseScheme, otherScheme. th. Qed.
Lemma th_tokens : thrifty parseTokens. Proof. unfold parseTokens, tokensBody, storeSince. th. Qed.
#[export] Hint Resolve th_spec th_scheme th_tokens : thrift.
Lemma th_nameAddr : thrifty parseNameAddr. Proof. unfold parseNameAddr, parseDisplayName. th. Qed.
#[export] Hint Resolve th_nameAddr : thrift.
(** Failures of the scheme parser. *)
Definition thriftyFail {A} (p : P A) : Prop := forall e s s', p (withMem None e) s = Fail s' ->
  used s <= used s' /\ forall m, used s' < m -> p (withMem (Some m) e) s = Fail s'.
Lemma thf_bind {A B} (p : P A) (q : A -> P B) : thrifty p -> thriftyFail p -> (forall a, thriftyFail (q a)) -> thriftyFail (bind p q).
Proof.
  intros Hp Fp Hq e s s' H. unfold bind in *. destruct (p (withMem None e) s) as [a s1|s1| |] eqn:E; try discriminate.
  - destruct (Hp _ _ _ _ E) as [U1 M1]. destruct (Hq _ _ _ _ H) as [U2 M2]. split; [lia|]. intros m Hm. rewrite (M1 m) by lia. apply M2, Hm.
  - injection H as <-. destruct (Fp _ _ _ E) as [U1 M1]. split; [exact U1|]. intros m Hm. rewrite M1 by exact Hm. reflexivity.
Qed.
Lemma thf_ret {A} (a : A) : thriftyFail (ret a). Proof. intros e s s' H. discriminate. Qed.
Lemma thf_pfail {A} : thriftyFail (@pfail A). Proof. intros e s s' H. injection H as <-. split; [lia|reflexivity]. Qed.
Lemma thf_goto r : thriftyFail (goto r). Proof. intros e s s' H. discriminate. Qed.
Lemma thf_onRest {A} (f : bytes -> P A) : (forall r, thriftyFail (f r)) -> thriftyFail (onRest f). Proof. intros Hf e s s' H. exact (Hf _ _ _ _ H). Qed.
Lemma thf_cstring cs : thriftyFail (paCString cs).
Proof.
  intros e s s' H. unfold paCString in *. thPrim H. destruct (span (inset cs) (rest s)) as [tok r]. thPrim H.
  destruct tok as [|x tok]; [|discriminate]. injection H as <-. split; [lia|]. intros m Hm. destruct (ltMem _ _); [|reflexivity]. reflexivity.
Qed.
Lemma thf_scheme : thriftyFail parseScheme.
Proof.
  unfold parseScheme, otherScheme.
  repeat lazymatch goal with
  | |- thriftyFail (onRest _) => apply thf_onRest; intros
  | |- thriftyFail (ret _) => apply thf_ret
  | |- thriftyFail pfail => apply thf_pfail
  | |- thriftyFail (goto _) => apply thf_goto
  | |- thriftyFail (paCString _) => apply thf_cstring
  | |- thriftyFail (bind _ _) => apply thf_bind; [solve [eauto 2 with thrift]| |intros]
  | |- thriftyFail (match ?x with _ => _ end) => destruct x
  end.
Qed.
Lemma th_orRestore {A} (p q : P A) : thrifty p -> thriftyFail p -> thrifty q -> thrifty (orRestore p q).
Proof.
  intros Hp Fp Hq e s a s' H. unfold orRestore in *. destruct (p (withMem None e) s) as [x s1|s1| |] eqn:E; try discriminate.
  - injection H as -> ->. destruct (Hp _ _ _ _ E) as [U M]. split; [exact U|]. intros m Hm. now rewrite M.
  - destruct (Fp _ _ _ E) as [U1 M1]. destruct (Hq _ _ _ _ H) as [U2 M2]. cbn [used] in U2. split; [lia|]. intros m Hm. rewrite M1 by lia. apply M2, Hm.
Qed.
Lemma th_addr b : thrifty (parseAddr b).
Proof.
  unfold parseAddr. th. apply th_orRestore; [th| |th]. apply thf_bind; [apply th_scheme|apply thf_scheme|]. intros. apply thf_ret.
Qed.
#[export] Hint Resolve th_addr : thrift.
Lemma th_addrSpec : thrifty parseAddrSpec. Proof. unfold parseAddrSpec. th. Qed.
#[export] Hint Resolve th_addrSpec : thrift.
(** *** Start lines, headers, messages *)
Lemma th_method : thrifty parseMethod. Proof. unfold parseMethod. th. Qed.
Lemma th_versionAfter : thrifty parseVersionAfter.
Proof. unfold parseVersionAfter. assert (D : forall r, thrifty (versionDigits r)) by (intros r; unfold versionDigits; destruct (span (inset DIGIT) r); th). th; apply D. Qed.
#[export] Hint Resolve th_method th_versionAfter : thrift.
Lemma th_version : thrifty parseVersion. Proof. unfold parseVersion. th. Qed.
#[export] Hint Resolve th_version : thrift.
Lemma th_startLine : thrifty parseStartLine. Proof. unfold parseStartLine, parseStatusLine, parseRequestLine. th. Qed.
#[export] Hint Resolve th_startLine : thrift.
Lemma knownOn_mem k e m : knownOn k (withMem m e) = knownOn k e. Proof. destruct k; reflexivity. Qed.
Lemma th_params k : thrifty (parseParams k). Proof. apply th_genParams. intros. apply knownOn_mem. Qed.
#[export] Hint Resolve th_params : thrift.
Lemma th_hval k : thrifty (parseHVal k).
Proof.
  unfold parseHVal, parseFromTo, parseVia, parseSentProtocol, otherProtocol, parseContact, parseFromTo, parseRoute, parsePai, parseCSeq, parseRAck, parseNum, parseContentType, parseContentDisposition, parseCallID. th.
Qed.
#[export] Hint Resolve th_hval : thrift.
Lemma th_sipX k : thrifty (parseSipX k). Proof. unfold parseSipX. th. Qed.
#[export] Hint Resolve th_sipX : thrift.
Lemma th_header k : thrifty (parseHeader k). Proof. unfold parseHeader, parseHName. th. Qed.
Lemma th_headerName : thrifty parseHeaderName. Proof. unfold parseHeaderName. th. Qed.
Lemma th_rawHeader n i : thrifty (rawHeader n i). Proof. unfold rawHeader, rawValue. th. Qed.
#[export] Hint Resolve th_headerName th_rawHeader : thrift.
Lemma th_headersBody {A} (hdr : A -> option bytes -> N -> P A) a : (forall a n i, thrifty (hdr a n i)) -> thrifty (headersBody hdr a).
Proof. intros H. unfold headersBody. th; apply H. Qed.
Lemma th_rawHeaders : thrifty parseRawHeaders. Proof. unfold parseRawHeaders. apply th_loopP. intros. apply th_headersBody. intros. th. Qed.
Lemma th_oneHeader o a n i : thrifty (oneHeader o a n i). Proof. unfold oneHeader. th. unfold multiBody. th. Qed.
Lemma th_headers o : thrifty (parseHeaders o). Proof. unfold parseHeaders. apply th_loopP. intros. apply th_headersBody. intros. apply th_oneHeader. Qed.
#[export] Hint Resolve th_headers : thrift.
Lemma th_msgBody h : thrifty (parseMsgBody h).
Proof. unfold parseMsgBody, parseMultiBody, parseSingleBody. th. unfold multipartBody. th. Qed.
#[export] Hint Resolve th_msgBody : thrift.
Lemma th_msg : thrifty parseMsg. Proof. unfold parseMsg. th. Qed.
Lemma th_rawScan : thrifty rawScan. Proof. unfold rawScan. th. Qed.
