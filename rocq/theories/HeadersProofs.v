From Verif Require Import Base Charset CharsetSpec CharsetProofs BaseLemmas Num NumSpec NumProofs Lws LwsSpec LwsProofs Str StrSpec StrProofs Monad Good Rt Seq GoodAuto Inv
  MethodTree NameSpec NameProofs Host HostSpec HostProofs Uri UriSpec UriGood UriProofs Tel TelSpec TelProofs GenParam GenParamSpec GenParamProofs Addr AddrSpec AddrProofs
  StartLine StartLineSpec StartLineProofs Headers HeadersSpec.

(** ** Well-behavedness *)
Lemma knownOn_free k : memFree (knownOn k).
Proof. destruct k; intros m e; reflexivity. Qed.
Lemma knownNames_cost k : gpCost (knownNames k) <= 24.
Proof. destruct k; unfold gpCost; cbn [knownNames List.length]; lia. Qed.
Lemma gd_params K k e s : 25 <= K -> goodAt K 24 (parseParams k) e s.
Proof.
  intros HK. pose proof (knownNames_cost k). unfold parseParams. eapply goodAt_tail; [apply gd_genParams; [apply knownOn_free|lia]|lia].
Qed.
#[export] Hint Resolve gd_params : good.
Lemma gd_otherProtocol K e s : 1 <= K -> goodAt K 10 otherProtocol e s.
Proof. intros. unfold otherProtocol. good. Qed.
#[export] Hint Resolve gd_otherProtocol : good.
Lemma gd_sentProtocol K e s : 1 <= K -> goodAt K 10 parseSentProtocol e s.
Proof.
  intros. unfold parseSentProtocol. good1. destruct rest as [|a [|b [|c [|d [|x [|y [|z [|w r]]]]]]]]; try solve [good]. destruct (_ && _)%bool; [|good].
  apply goodAt_goto_bind; [exists [a; b; c; d; x; y; z]; reflexivity|]. good.
Qed.
#[export] Hint Resolve gd_sentProtocol : good.
Lemma gd_fromTo K k e s : 26 <= K -> goodAt K 186 (parseFromTo k) e s.
Proof. intros. unfold parseFromTo. good. Qed.
#[export] Hint Resolve gd_fromTo : good.
Lemma gd_route K k e s : 26 <= K -> goodAt K 106 (parseRoute k) e s.
Proof. intros. unfold parseRoute. good. Qed.
#[export] Hint Resolve gd_route : good.
Lemma gd_hval K k e s : 26 <= K -> goodAt K 186 (parseHVal k) e s.
Proof.
  intros HK. destruct k; cbn [parseHVal]; unfold parseVia, parseContact, parsePai, parseCSeq, parseRAck, parseNum, parseContentType, parseContentDisposition, parseCallID; try solve [good].
Qed.
#[export] Hint Resolve gd_hval : good.
Lemma hvalSize_le k : hvalSize k <= 18. Proof. destruct k; cbn; lia. Qed.
Lemma gd_sipX K k e s : 26 <= K -> goodAt K 204 (parseSipX k) e s.
Proof. intros HK. unfold parseSipX. pose proof (hvalSize_le k). good. Qed.
Lemma matchTests_suffix ts : forall r r', matchTests ts r = Some r' -> suffix r' r.
Proof.
  induction ts as [|t ts IH]; intros [|x r] r'; cbn; try discriminate.
  - destruct (_ || _)%bool; [|discriminate]. intros [= <-]. apply suffix_refl.
  - destruct (testByte t x); [|discriminate]. intros H. apply IH in H as [p ->]. exists (x :: p). reflexivity.
Qed.
Lemma firstMatch_suffix ts r r' : firstMatch ts r = Some r' -> suffix r' r.
Proof.
  induction ts as [|t ts IH]; cbn; [discriminate|]. destruct (matchTests t r) eqn:E; [intros [= <-]; eapply matchTests_suffix, E|exact IH].
Qed.
Lemma gd_hname K k e s : goodAt K 0 (parseHName k) e s.
Proof. unfold parseHName. good1. destruct (firstMatch _ _) eqn:E; [apply goodAt_goto; eapply firstMatch_suffix, E|good]. Qed.
#[export] Hint Resolve gd_hname gd_sipX : good.
Lemma gd_header K k e s : 26 <= K -> goodAt K 186 (parseHeader k) e s.
Proof. intros. unfold parseHeader. good. Qed.
#[export] Hint Resolve gd_header : good.

(** ** Exact reading *)
Definition plainHead (t : bytes) : Prop := ~ startsWsp t /\ ~ startsCRLF t.
Lemma rt_Hcolon e w t u : Forall wsp w -> plainHead t -> pHcolon e (mkst (58 :: w ++ t) u) = Ok tt (mkst t u).
Proof.
  intros Hw [H1 H2]. unfold pHcolon, liftB, ParseHcolon. cbn [Base.rest]. cbn [skipWsp]. change (isWsp 58) with false. cbv iota. change (58 =? 58) with true. cbn [negb].
  rewrite (SWS_det (w ++ t) t) by (now constructor). reflexivity.
Qed.
Lemma plain_nlws x t : IsLwsChar x = false -> plainHead (x :: t).
Proof.
  rewrite IsLwsChar_spec. intros H. apply orb_false_iff in H as [H H3]. apply orb_false_iff in H as [H1 H2]. split; [now apply no_wsp|]. apply no_crlf. now apply N.eqb_neq.
Qed.
Lemma plain_token t r : wfToken t -> plainHead (t ++ r).
Proof. intros [Hne Hf]. destruct t as [|x t]; [congruence|]. cbn in Hf. apply andb_prop in Hf as [Hx _]. apply plain_nlws, token_lws, Hx. Qed.
Lemma plain_SWS t : plainHead t -> ParseSWS_2 t = t.
Proof. intros [H1 H2]. apply SWS_det. apply (SWS_plain [] t); auto. Qed.
Lemma rt_SWSMark e m t u : IsLwsChar m = false -> plainHead t -> pSWSMark m e (mkst (m :: t) u) = Ok tt (mkst t u).
Proof.
  intros Hm Ht. unfold pSWSMark, liftB, ParseSWSMark. cbn [Base.rest]. rewrite (plain_SWS (m :: t)) by (now apply plain_nlws). cbv zeta. rewrite N.eqb_refl. cbn [negb]. now rewrite plain_SWS.
Qed.
Lemma rt_LWS1 e t u : plainHead t -> pLWS e (mkst (32 :: t) u) = Ok tt (mkst t u).
Proof.
  intros [H1 H2]. unfold pLWS, liftB. cbn [Base.rest]. change (32 :: t) with ([32] ++ t). rewrite ParseLWS_plain; [reflexivity|repeat constructor|exact H1|exact H2].
Qed.
Lemma recognise_on k e : recognise k e = knownOn k e. Proof. destruct k; reflexivity. Qed.
Lemma goodKnown k : goodNames (knownNames k) = true. Proof. destruct k; vm_compute; reflexivity. Qed.
Lemma rt_params e k t ps r u : infinite e -> wfParams e k t ps -> gpEnds 59 r -> exists u', parseParams k e (mkst (encGenParams 59 (knownNames k) t ps ++ r) u) = Ok (t, ps) (mkst r u').
Proof. intros HI W. unfold wfParams in W. rewrite recognise_on in W. intros. apply rt_genParams; auto using goodKnown. Qed.
Lemma params_head on names t ps r : wfGenParams on names t ps -> encGenParams 59 names t ps = [] \/ exists q, encGenParams 59 names t ps ++ r = 59 :: q.
Proof.
  intros W. rewrite (encGen_all _ _ _ _ W). destruct (allGen t ps) as [|p l]; [left; reflexivity|right]. eexists. reflexivity.
Qed.
Lemma gpEnds_noSws k : gpEnds 59 k -> noSws k.
Proof. intros [H|(x & t & -> & _ & H & _)]; [left; exact H|right]. eauto. Qed.
Lemma params_noSws on names t ps r : wfGenParams on names t ps -> noSws r -> noSws (encGenParams 59 names t ps ++ r).
Proof. intros W H. destruct (params_head _ _ _ _ r W) as [->|[q ->]]; [exact H|right]. exists 59, q. split; reflexivity. Qed.
Lemma params_token on names t ps r : wfGenParams on names t ps -> gpEnds 59 r -> stops rfcToken (encGenParams 59 names t ps ++ r) = true.
Proof. intros W H. destruct (params_head _ _ _ _ r W) as [->|[q ->]]; [apply gpNext_token, (gpEnds_next 59), H|reflexivity]. Qed.
Lemma params_host on names t ps r : wfGenParams on names t ps -> hostEnds r -> hostEnds (encGenParams 59 names t ps ++ r).
Proof. intros W H. destruct (params_head _ _ _ _ r W) as [->|[q ->]]; [exact H|split; [reflexivity|discriminate]]. Qed.

Lemma addr_head e a r : wfAddr e a -> exists x t, encAddr e a ++ r = x :: t /\ IsLwsChar x = false /\ (notStarred a -> x <> 42).
Proof.
  intros (Wn & Wa & Wang). unfold encAddr. destruct (aAngle a || eNameSpace e)%bool.
  - unfold notStarred. destruct (aName a) as [[[] n]|]; cbn [app].
    + eexists _, _. split; [reflexivity|]. split; [reflexivity|discriminate].
    + cbn [wfDisplay] in Wn. destruct (tokenSeq_head n Wn) as (x & t & -> & Hx). cbn [app]. eexists _, _. split; [reflexivity|]. split; [now apply token_lws|]. intros H ->. exact (H t eq_refl).
    + eexists _, _. split; [reflexivity|]. split; [reflexivity|discriminate].
  - destruct (rt_auriScheme e (aUri a) [] 0) as (q & -> & _). destruct (schemeOf (aUri a)); eexists _, _; (split; [reflexivity|]; split; [reflexivity|discriminate]).
Qed.
Lemma rt_addrParams e k a t ps r u : infinite e -> eUriNoEscape e = false -> wfAddr e a -> wfParams e k t ps -> gpEnds 59 r ->
  (bareForm e a -> bareUri (aUri a) /\ bareEnds (aUri a) (encGenParams 59 (knownNames k) t ps ++ r)) ->
  exists u', parseFromTo k e (mkst (encAddr e a ++ encGenParams 59 (knownNames k) t ps ++ r) u) = Ok (VAddr (mkaddr (aAngle a || eNameSpace e) (aName a) (aUri a)) t ps) (mkst r u').
Proof.
  intros HI He Wa Wp Hr Hb. unfold parseFromTo.
  destruct (rt_addr e false a (encGenParams 59 (knownNames k) t ps ++ r) u HI He Wa) as [u1 E1].
  { unfold addrFollow. unfold bareForm in Hb. destruct (aAngle a || eNameSpace e)%bool; [|auto]. eapply params_noSws; [exact Wp|]. now apply gpEnds_noSws. }
  rewrite (bind_ok _ _ _ _ _ _ E1). destruct (rt_params e k t ps r u1 HI Wp Hr) as [u2 E2]. rewrite (bind_ok _ _ _ _ _ _ E2). eexists. reflexivity.
Qed.
Lemma rt_routeParams e k a t ps r u : infinite e -> eUriNoEscape e = false -> wfAddr e a -> aAngle a = true -> wfParams e k t ps -> gpEnds 59 r ->
  exists u', parseRoute k e (mkst (encAddr e a ++ encGenParams 59 (knownNames k) t ps ++ r) u) = Ok (VAddr a t ps) (mkst r u').
Proof.
  intros HI He (Wn & Wu & _) Wg Wp Hr. unfold parseRoute. rewrite encAddr_angle by (rewrite Wg; reflexivity).
  replace ((nameText (aName a) ++ 60 :: encAUri e (aUri a) ++ [62]) ++ encGenParams 59 (knownNames k) t ps ++ r)
    with (nameText (aName a) ++ 60 :: encAUri e (aUri a) ++ 62 :: encGenParams 59 (knownNames k) t ps ++ r) by (repeat (rewrite <- ?app_assoc; cbn [app]); reflexivity).
  destruct (rt_nameAddr e (aName a) (aUri a) (encGenParams 59 (knownNames k) t ps ++ r) u HI He Wn Wu) as [u1 E1].
  { eapply params_noSws; [exact Wp|]. now apply gpEnds_noSws. }
  rewrite (bind_ok _ _ _ _ _ _ E1). destruct (rt_params e k t ps r u1 HI Wp Hr) as [u2 E2]. rewrite (bind_ok _ _ _ _ _ _ E2).
  replace (mkaddr true (aName a) (aUri a)) with a by (destruct a; cbn in *; now subst). eexists. reflexivity.
Qed.
Lemma stops_isDigit k : stops rfcDIGIT k = true -> stops IsDigit k = true. Proof. exact (stops_digits k). Qed.
Lemma rt_UIntW e w n k u : w <= two64 -> n < w -> stops rfcDIGIT k = true -> pUIntW w e (mkst (encUInt n ++ k) u) = Ok n (mkst k u).
Proof.
  intros Hw Hn Hk. unfold pUIntW. rewrite (bind_ok _ _ _ _ _ _ (rt_uint e n k u ltac:(eapply N.lt_le_trans; eassumption) (stops_isDigit k Hk))). unfold ret. now rewrite N.mod_small.
Qed.
Lemma encUInt_head n k : n < two64 -> exists x t, encUInt n ++ k = x :: t /\ rfcDIGIT x = true.
Proof.
  intros H. destruct (encUInt n) as [|x t] eqn:E.
  - pose proof (rt_uint (defaultEnv None) n [] 0 H eq_refl) as X. rewrite E in X. discriminate.
  - exists x, (t ++ k). split; [reflexivity|]. pose proof (rt_uint (defaultEnv None) n [] 0 H eq_refl) as X. rewrite E in X. cbn [app] in X. unfold pUInt in X. rewrite onRest_eq in X.
    unfold ParseUInt in X. destruct (IsDigit x) eqn:D; [|discriminate]. pose proof (digits_rfc [x]) as Y. cbn in Y. rewrite !andb_true_r in Y. rewrite <- Y. exact D.
Qed.
Lemma digit_lws x : rfcDIGIT x = true -> IsLwsChar x = false.
Proof. intros H. apply token_lws. unfold rfcToken, rfcAlphanum. rewrite H, orb_true_r. reflexivity. Qed.
Lemma plain_uint n k : n < two64 -> plainHead (encUInt n ++ k).
Proof. intros H. destruct (encUInt_head n k H) as (x & t & -> & Hx). apply plain_nlws, digit_lws, Hx. Qed.
Lemma rt_proto e p k u : infinite e -> wfProto p -> plainHead k -> exists u', parseSentProtocol e (mkst (encProto p ++ k) u) = Ok p (mkst k u').
Proof.
  intros HI W Hk. unfold parseSentProtocol. rewrite onRest_eq. destruct p as [|n v]; cbn [encProto].
  - change (s2b "SIP/2.0/" ++ k) with (83 :: 73 :: 80 :: 47 :: 50 :: 46 :: 48 :: 47 :: k). cbv iota beta.
    match goal with |- context [if ?c then _ else _] => change c with true end. cbv iota. rewrite goto_bind. cbn [used].
    rewrite (bind_ok _ _ _ _ _ _ (rt_SWSMark e 47 k u eq_refl Hk)). eexists. reflexivity.
  - destruct W as (Wn & Wv & Wx). replace ((n ++ 47 :: v ++ [47]) ++ k) with (n ++ 47 :: v ++ 47 :: k) by (repeat (rewrite <- ?app_assoc; cbn [app]); reflexivity).
    assert (G : exists u', otherProtocol e (mkst (n ++ 47 :: v ++ 47 :: k) u) = Ok (ProtoOther n v) (mkst k u')).
    { unfold otherProtocol. rewrite (bind_ok _ _ _ _ _ _ (rt_alloc e 4 _ u HI)). rewrite (bind_ok _ _ _ _ _ _ (rt_token e n (47 :: v ++ 47 :: k) _ HI Wn eq_refl)).
      rewrite (bind_ok _ _ _ _ _ _ (rt_SWSMark e 47 (v ++ 47 :: k) _ eq_refl (plain_token v _ Wv))). rewrite (bind_ok _ _ _ _ _ _ (rt_token e v (47 :: k) _ HI Wv eq_refl)).
      rewrite (bind_ok _ _ _ _ _ _ (rt_SWSMark e 47 k _ eq_refl Hk)). eexists. reflexivity. }
    set (txt := n ++ 47 :: v ++ 47 :: k) in *. destruct txt as [|a [|b [|c [|d [|x [|y [|z [|w txt']]]]]]]] eqn:Et; try exact G.
    destruct (_ && negb _)%bool eqn:Q; [|exact G]. exfalso. rewrite !andb_true_iff in Q. destruct Q as (((((((Qa & Qb) & Qc) & Qd) & Qx) & Qy) & Qz) & Qw).
    apply N.eqb_eq in Qd, Qx, Qy, Qz. subst d x y z. unfold txt in Et. destruct Wn as [Nn Fn]. destruct Wv as [Nv Fv].
    assert (T47 : forall q, forallb rfcToken q = true -> ~ In 47 q) by (intros q F X; rewrite forallb_forall in F; apply F in X; discriminate).
    assert (En : n = [a; b; c]).
    { pose proof (T47 n Fn) as X. destruct n as [|n0 [|n1 [|n2 [|n3 n]]]]; cbn [app] in Et; [congruence| | | |]; injection Et; intros.
      - exfalso. subst. unfold lc in Qb. discriminate.
      - exfalso. subst. unfold lc in Qc. discriminate.
      - subst. reflexivity.
      - exfalso. apply X. subst. cbn. auto 6. }
    subst n. cbn [app] in Et. injection Et as Et. pose proof (T47 v Fv) as X.
    assert (Ev : exists q, v = 50 :: 46 :: 48 :: q /\ q ++ 47 :: k = w :: txt').
    { destruct v as [|v0 [|v1 [|v2 v]]]; cbn [app] in Et; [congruence| | |]; injection Et; intros; subst; try discriminate. exists v. auto. }
    destruct Ev as (q & -> & Eq). destruct (Wx) with (w := q) as (d & w' & -> & Hd); [|reflexivity|].
    + unfold sameNoCase. cbn [map]. clear - Qa Qb Qc Fn. cbn [forallb] in Fn. rewrite !andb_true_iff in Fn. destruct Fn as (Fa & Fb & Fc & _).
      assert (L : forall x c, rfcToken x = true -> 97 <= c -> c <= 122 -> lc x c = true -> asciiLower x = c).
      { intros x c0 Fx H1 H2 H. assert (SW : forallb (fun x => forallb (fun c => implb (rfcToken x && lc x c) (asciiLower x =? c)) (map N.of_nat (seq 97 26))) all256 = true) by (vm_compute; reflexivity).
        assert (Bx : x < 256). { rewrite <- token_rfc in Fx. revert Fx. apply inset_byte. }
        pose proof (sweep _ SW x Bx) as Y. cbv beta in Y. rewrite forallb_forall in Y. specialize (Y c0). rewrite Fx, H in Y. cbn [andb implb] in Y. apply N.eqb_eq, Y.
        apply in_map_iff. exists (N.to_nat c0). split; [lia|]. apply in_seq. lia. }
      rewrite (L a 115), (L b 105), (L c 112) by (auto; lia). reflexivity.
    + cbn [app] in Eq. injection Eq as -> _. pose proof (digits_rfc [w]) as Y. cbn in Y. rewrite !andb_true_r in Y. unfold IsDigit in Qw. rewrite Y, Hd in Qw. discriminate.
Qed.

Lemma word_rfc x : inset SIP_WORD x = callChar x.
Proof.
  destruct (N.ltb_spec x 256) as [H|H].
  - assert (SW : forallb (fun x => Bool.eqb (inset SIP_WORD x) (callChar x)) all256 = true) by (vm_compute; reflexivity). apply Bool.eqb_prop. exact (sweep _ SW x H).
  - destruct (inset SIP_WORD x) eqn:E; [apply inset_byte in E; lia|]. symmetry. apply not_true_is_false. intros T. unfold callChar, rfcWord, rfcAlphanum, rfcALPHA, rfcLOWER, rfcUPPER, rfcDIGIT, rng in T.
    apply andb_prop in T as [T _]. apply orb_prop in T as [T|T]; [|lia]. apply orb_prop in T as [T|T]; [lia|]. apply oneOf_lt in T; [lia|reflexivity].
Qed.
Lemma words_rfc b : forallb (inset SIP_WORD) b = forallb callChar b.
Proof. induction b as [|x b IH]; cbn; [reflexivity|]. now rewrite IH, word_rfc. Qed.
Lemma stops_word k : stops (inset SIP_WORD) k = stops callChar k. Proof. destruct k; cbn; [reflexivity|]. now rewrite word_rfc. Qed.
Lemma rt_word e w k u : infinite e -> wfWord w -> stops callChar k = true -> paCString SIP_WORD e (mkst (w ++ k) u) = Ok w (mkst k (u + 2 + len w)).
Proof. intros HI [Hne Hf] Hk. apply rt_cstring; auto; [now rewrite words_rfc|now rewrite stops_word]. Qed.
Lemma contentLength_text n : n < two64 -> exists w, encContentLength n = w ++ encUInt n /\ Forall wsp w.
Proof.
  intros H. assert (B : forall z, Forall wsp (blanks z)) by (intros z; apply Forall_forall; intros x Hx; apply repeat_spec in Hx; left; exact Hx).
  unfold encContentLength, EncodeUIntWithWidth, EncodeWithWidth, encUInt, EncodeUInt. destruct (n =? 0); [eexists; split; [reflexivity|apply B]|].
  destruct (encLoop 32 n []); [eexists; split; [reflexivity|apply B]|]. exists []. split; [reflexivity|constructor].
Qed.
Lemma hostport_head e h k : wfHostPort e h -> exists x t, encHostPort e h ++ k = x :: t /\ IsLwsChar x = false.
Proof.
  intros [W _]. unfold encHostPort. rewrite <- app_assoc. assert (Q : forall x, rfcHostname x = true -> IsLwsChar x = false).
  { intros x. rewrite <- hostname_rfc. intros H. apply negb_true_iff. revert x H. apply inset_sweep. vm_compute. reflexivity. }
  destruct (hpHost h) as [|a b c d|ip|n]; cbn [wfHost encHost] in *; [contradiction| | |].
  - destruct W as (Ha & _). pose proof (byte_quadPart a Ha) as (Hne & Hd & _). destruct (WriteByteAsString a) as [|x q]; [congruence|]. cbn [app]. eexists _, _. split; [reflexivity|].
    cbn in Hd. apply andb_prop in Hd as [Hx _]. apply Q. unfold rfcHostname, rfcAlphanum. change (rfcDIGIT x) with (isDec x). rewrite Hx, orb_true_r. reflexivity.
  - eexists _, _. split; reflexivity.
  - destruct W as (Hne & Hf & _). destruct n as [|x n]; [congruence|]. eexists _, _. split; [reflexivity|]. cbn in Hf. apply andb_prop in Hf as [Hx _]. now apply Q.
Qed.
Lemma rt_hval e k v r u : infinite e -> eUriNoEscape e = false -> wfHVal e k v -> hFollow e k v r -> k <> KContentLength ->
  exists u', parseHVal k e (mkst (encHVal e k v ++ r) u) = Ok (asWritten e v) (mkst r u').
Proof.
  intros HI He W F NL.
  assert (B32 : two32 <= two64) by (vm_compute; discriminate). assert (B8 : two8 <= two64) by (vm_compute; discriminate).
  destruct k, v; cbn [wfHVal] in W; try contradiction; cbn [parseHVal asWritten]; cbn [hFollow] in F; cbn [encHVal]; rewrite <- ?app_assoc.
  - destruct W as [Wa Wp], F as [F1 F2]. now apply rt_addrParams.
  - destruct W as [Wa Wp], F as [F1 F2]. now apply rt_addrParams.
  - destruct W as (Wp & Wt & Wh & Wps), F as [F1 F2]. unfold parseVia. cbn [app]. rewrite <- ?app_assoc.
    destruct (rt_proto e p (transport ++ 32 :: encHostPort e h ++ encGenParams 59 (knownNames KVia) t ps ++ r) u HI Wp (plain_token _ _ Wt)) as [u1 E1].
    rewrite (bind_ok _ _ _ _ _ _ E1). rewrite (bind_ok _ _ _ _ _ _ (rt_token e transport (32 :: encHostPort e h ++ encGenParams 59 (knownNames KVia) t ps ++ r) u1 HI Wt eq_refl)).
    assert (Ph : plainHead (encHostPort e h ++ encGenParams 59 (knownNames KVia) t ps ++ r)).
    { destruct (hostport_head e h (encGenParams 59 (knownNames KVia) t ps ++ r) Wh) as (x & q & -> & Hx). now apply plain_nlws. }
    rewrite (bind_ok _ _ _ _ _ _ (rt_LWS1 e _ _ Ph)).
    destruct (rt_hostport e h HI Wh (encGenParams 59 (knownNames KVia) t ps ++ r) (u1 + 2 + len transport) (params_host _ _ _ _ r Wps F2)) as [u2 E2].
    rewrite (bind_ok _ _ _ _ _ _ E2). destruct (rt_params e KVia t ps r u2 HI Wps F1) as [u3 E3]. rewrite (bind_ok _ _ _ _ _ _ E3). eexists. reflexivity.
  - destruct W as (Wa & Wp & Ws), F as [F1 F2]. unfold parseContact. destruct (addr_head e a (encGenParams 59 (knownNames KContact) t ps ++ r) Wa) as (x & q & Eq & Hl & Hs).
    assert (E0 : pSWS e (mkst (encAddr e a ++ encGenParams 59 (knownNames KContact) t ps ++ r) u) = Ok tt (mkst (encAddr e a ++ encGenParams 59 (knownNames KContact) t ps ++ r) u)).
    { unfold pSWS. cbn [Base.rest used]. rewrite Eq. rewrite ParseSWS_noop by (cbn; now rewrite Hl). reflexivity. }
    rewrite (bind_ok _ _ _ _ _ _ E0), onRest_eq. destruct (rt_addrParams e KContact a t ps r u HI He Wa Wp F1 F2) as [u' X]. exists u'. rewrite <- X. clear E0 X. destruct (encAddr e a ++ encGenParams 59 (knownNames KContact) t ps ++ r) as [|y q2]; [discriminate|]. injection Eq as -> ->. rewrite (proj2 (N.eqb_neq x 42) (Hs Ws)). reflexivity.
  - unfold parseContact. cbn [app]. rewrite (bind_ok _ _ _ _ _ (mkst (42 :: r) u)) by reflexivity. rewrite onRest_eq. change (42 =? 42) with true. cbv iota. rewrite goto_bind. cbn [used].
    rewrite (bind_ok _ _ _ _ tt (mkst r u)); [eexists; reflexivity|]. unfold pSWS. cbn [Base.rest used]. now rewrite noSws_eq.
  - destruct W as (Wa & Wg & Wp), F as [F1 F2]. rewrite Wg. cbn [orb]. replace (mkaddr true (aName a) (aUri a)) with a by (destruct a; cbn in *; now subst). now apply rt_routeParams.
  - destruct W as (Wa & Wg & Wp), F as [F1 F2]. rewrite Wg. cbn [orb]. replace (mkaddr true (aName a) (aUri a)) with a by (destruct a; cbn in *; now subst). now apply rt_routeParams.
  - destruct W as (Wa & Wg & Wp), F as [F1 F2]. rewrite Wg. cbn [orb]. replace (mkaddr true (aName a) (aUri a)) with a by (destruct a; cbn in *; now subst). now apply rt_routeParams.
  - destruct W as (Wa & Wg & Wp), F as [F1 F2]. rewrite Wg. cbn [orb]. replace (mkaddr true (aName a) (aUri a)) with a by (destruct a; cbn in *; now subst). now apply rt_routeParams.
  - destruct t; [contradiction|]. destruct ps; [|contradiction]. destruct F as [F1 F2]. unfold parsePai. change (encGenParams 59 (knownNames KPai) None [] ++ r) with r in *.
    destruct (rt_addr e false a r u HI He W) as [u1 E1]; [unfold addrFollow; unfold bareForm in F2; destruct (aAngle a || eNameSpace e)%bool; auto|].
    rewrite (bind_ok _ _ _ _ _ _ E1). eexists. reflexivity.
  - destruct W as [Wn Wm], F as [F1 F2]. unfold parseCSeq. cbn [app]. rewrite (bind_ok _ _ _ _ _ _ (rt_UIntW e two32 n (32 :: encMethod m ++ r) u B32 Wn eq_refl)).
    rewrite (bind_ok _ _ _ _ _ _ (rt_LWS1 e _ _ (plain_token _ _ (method_text m Wm)))). destruct (rt_method e m r u HI Wm F1 F2) as [u1 E1]. rewrite (bind_ok _ _ _ _ _ _ E1). eexists. reflexivity.
  - destruct W as (Wr & Wc & Wm), F as [F1 F2]. unfold parseRAck. cbn [app]. rewrite <- ?app_assoc. cbn [app]. rewrite (bind_ok _ _ _ _ _ _ (rt_UIntW e two32 r0 (32 :: encUInt c ++ 32 :: encMethod m ++ r) u B32 Wr eq_refl)).
    rewrite (bind_ok _ _ _ _ _ _ (rt_LWS1 e _ _ (plain_uint c _ (N.lt_le_trans _ _ _ Wc B32)))). rewrite (bind_ok _ _ _ _ _ _ (rt_UIntW e two32 c (32 :: encMethod m ++ r) u B32 Wc eq_refl)).
    rewrite (bind_ok _ _ _ _ _ _ (rt_LWS1 e _ _ (plain_token _ _ (method_text m Wm)))). destruct (rt_method e m r u HI Wm F1 F2) as [u1 E1]. rewrite (bind_ok _ _ _ _ _ _ E1). eexists. reflexivity.
  - unfold parseNum. rewrite (bind_ok _ _ _ _ _ _ (rt_UIntW e two32 n r u B32 W F)). eexists. reflexivity.
  - unfold parseNum. rewrite (bind_ok _ _ _ _ _ _ (rt_UIntW e two32 n r u B32 W F)). eexists. reflexivity.
  - unfold parseNum. rewrite (bind_ok _ _ _ _ _ _ (rt_UIntW e two8 n r u B8 W F)). eexists. reflexivity.
  - destruct W as (Wm & Ws & Wp). unfold parseContentType. cbn [app]. rewrite <- ?app_assoc.
    rewrite (bind_ok _ _ _ _ _ _ (rt_token e main (47 :: sub ++ encGenParams 59 (knownNames KContentType) t ps ++ r) u HI Wm eq_refl)).
    rewrite (bind_ok _ _ _ _ _ _ (rt_SWSMark e 47 _ _ eq_refl (plain_token _ _ Ws))).
    rewrite (bind_ok _ _ _ _ _ _ (rt_token e sub (encGenParams 59 (knownNames KContentType) t ps ++ r) _ HI Ws (params_token _ _ _ _ r Wp F))).
    destruct (rt_params e KContentType t ps r (u + 2 + len main + 2 + len sub) HI Wp F) as [u3 E3]. rewrite (bind_ok _ _ _ _ _ _ E3). eexists. reflexivity.
  - destruct W as (Wd & Wp). unfold parseContentDisposition.
    rewrite (bind_ok _ _ _ _ _ _ (rt_token e d (encGenParams 59 (knownNames KContentDisposition) t ps ++ r) _ HI Wd (params_token _ _ _ _ r Wp F))).
    destruct (rt_params e KContentDisposition t ps r (u + 2 + len d) HI Wp F) as [u3 E3]. rewrite (bind_ok _ _ _ _ _ _ E3). eexists. reflexivity.
  - destruct W as (Ww & Ww2), F as [F1 F2]. unfold parseCallID. destruct w2 as [x|]; cbn [app].
    + rewrite (bind_ok _ _ _ _ _ _ (rt_word e w (64 :: x ++ r) u HI Ww eq_refl)), onRest_eq. change (64 =? 64) with true. cbv iota. rewrite goto_bind. cbn [used].
      rewrite (bind_ok _ _ _ _ _ _ (rt_word e x r _ HI Ww2 F1)). eexists. reflexivity.
    + rewrite (bind_ok _ _ _ _ _ _ (rt_word e w r u HI Ww F1)), onRest_eq. specialize (F2 eq_refl). destruct r as [|y r]; [eexists; reflexivity|]. cbn in F2. apply negb_true_iff in F2. rewrite F2. eexists. reflexivity.
Qed.

Lemma firstMatch_own k r : firstMatch (nameTests k) (hName k ++ 58 :: r) = Some (58 :: r).
Proof. destruct k; reflexivity. Qed.
Lemma rt_hname e k r u : parseHName k e (mkst (hName k ++ 58 :: r) u) = Ok tt (mkst (58 :: r) u).
Proof. unfold parseHName. rewrite onRest_eq, firstMatch_own. reflexivity. Qed.
Lemma hval_head e k v r : k <> KContentLength -> wfHVal e k v -> plainHead (encHVal e k v ++ r).
Proof.
  intros NL W. assert (B32 : two32 <= two64) by (vm_compute; discriminate). assert (B8 : 256 <= two64) by (vm_compute; discriminate).
  assert (A : forall a q, wfAddr e a -> plainHead (encAddr e a ++ q)) by (intros a q Wa; destruct (addr_head e a q Wa) as (x & t & -> & Hl & _); now apply plain_nlws).
  destruct k, v; cbn [wfHVal] in W; try contradiction; cbn [encHVal]; rewrite <- ?app_assoc.
  - now apply A.
  - now apply A.
  - destruct W as (Wp & _). destruct p as [|n v]; [apply plain_nlws; reflexivity|]. cbn [encProto]. rewrite <- ?app_assoc. apply plain_token, Wp.
  - now apply A.
  - apply plain_nlws. reflexivity.
  - now apply A.
  - now apply A.
  - now apply A.
  - now apply A.
  - apply A. destruct t; [contradiction|]. destruct ps; [exact W|contradiction].
  - apply plain_uint. eapply N.lt_le_trans; [apply W|exact B32].
  - apply plain_uint. eapply N.lt_le_trans; [apply W|exact B32].
  - apply plain_uint. eapply N.lt_le_trans; [apply W|exact B32].
  - apply plain_uint. eapply N.lt_le_trans; [apply W|exact B32].
  - apply plain_uint. eapply N.lt_le_trans; [apply W|exact B8].
  - apply plain_token, W.
  - apply plain_token, W.
  - destruct W as [[Hne Hf] _]. destruct w as [|x w]; [congruence|]. cbn in Hf. apply andb_prop in Hf as [Hx _]. cbn [app]. apply plain_nlws. rewrite <- word_rfc in Hx.
    apply negb_true_iff. clear Hne. revert x Hx. apply inset_sweep. vm_compute. reflexivity.
Qed.
Lemma hcolon_hval e k v r u : wfHVal e k v -> exists w, Forall wsp w /\ encHVal e k v = w ++ skipn (List.length w) (encHVal e k v) /\
  (match k with KContentLength => True | _ => w = [] end) /\
  pHcolon e (mkst (58 :: 32 :: encHVal e k v ++ r) u) = Ok tt (mkst (skipn (List.length w) (encHVal e k v) ++ r) u).
Proof.
  intros W. assert (D : k = KContentLength \/ k <> KContentLength) by (destruct k; auto; right; discriminate). destruct D as [->|NL].
  - destruct v; try contradiction. cbn [wfHVal encHVal] in *. assert (H : n < two64) by (eapply N.lt_trans; [exact W|reflexivity]). destruct (contentLength_text n H) as (w & Ew & Hw). exists w. split; [exact Hw|].
    rewrite Ew. replace (skipn (List.length w) (w ++ encUInt n)) with (encUInt n) by (rewrite skipn_app, skipn_all, Nat.sub_diag; reflexivity). split; [reflexivity|]. split; [exact I|].
    rewrite <- app_assoc. apply (rt_Hcolon e (32 :: w)); [constructor; [left; reflexivity|exact Hw]|]. apply plain_uint, H.
  - exists []. split; [constructor|]. split; [reflexivity|]. split; [destruct k; congruence|]. cbn [List.length skipn]. apply (rt_Hcolon e [32]); [repeat constructor|]. now apply hval_head.
Qed.
Lemma rt_header e k v r u : infinite e -> eUriNoEscape e = false -> wfHVal e k v -> hFollow e k v r ->
  exists u', parseHeader k e (mkst (encHeader e k v ++ r) u) = Ok (asWritten e v) (mkst r u').
Proof.
  intros HI He W F. unfold parseHeader, encHeader.
  replace ((hName k ++ s2b ": " ++ encHVal e k v) ++ r) with (hName k ++ 58 :: 32 :: encHVal e k v ++ r) by (rewrite <- app_assoc; reflexivity).
  rewrite (bind_ok _ _ _ _ _ _ (rt_hname e k _ u)). destruct (hcolon_hval e k v r u W) as (w & Hw & Ev & Hk & E). rewrite (bind_ok _ _ _ _ _ _ E).
  assert (D : k = KContentLength \/ k <> KContentLength) by (destruct k; auto; right; discriminate). destruct D as [->|NL].
  - destruct v; try contradiction. cbn [wfHVal encHVal hFollow parseHVal asWritten] in *. assert (H : n < two64) by (eapply N.lt_trans; [exact W|reflexivity]).
    destruct (contentLength_text n H) as (w2 & Ew & Hw2). assert (X : skipn (List.length w) (encContentLength n) ++ r = encUInt n ++ r).
    { pose proof E as E1. change (58 :: 32 :: encContentLength n ++ r) with (58 :: 32 :: encContentLength n ++ r) in E1. rewrite Ew in E1. rewrite <- app_assoc in E1. change (58 :: 32 :: w2 ++ encUInt n ++ r) with (58 :: (32 :: w2) ++ encUInt n ++ r) in E1.
      rewrite rt_Hcolon in E1; [|constructor; [left; reflexivity|exact Hw2]|apply plain_uint, H]. injection E1 as E1. rewrite Ew. now rewrite <- E1. }
    rewrite X. unfold parseNum. rewrite (bind_ok _ _ _ _ _ _ (rt_UIntW e two32 n r u ltac:(vm_compute; discriminate) W F)). eexists. reflexivity.
  - assert (Ew : w = []) by (destruct k; [exact Hk..|congruence|exact Hk|exact Hk|exact Hk]). subst w. cbn [List.length skipn]. now apply rt_hval.
Qed.
Lemma encHVal_mem m e k v : encHVal (withMem m e) k v = encHVal e k v.
Proof. destruct v; cbn [encHVal]; try reflexivity. now rewrite encAddr_mem. Qed.
