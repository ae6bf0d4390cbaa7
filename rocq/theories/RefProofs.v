From Verif Require Import Base Charset CharsetSpec BaseLemmas Lws LwsProofs Str StrSpec StrProofs Num Arena ArenaProofs ArenaOps ArenaOpsProofs ArenaTop Ref.

Lemma refParse_span cs r : refParse cs r = span (inset cs) r.
Proof. destruct r as [|x r]; [reflexivity|]. cbn [refParse span]. destruct (inset cs x); reflexivity. Qed.

Lemma Decodes_len cls run tok : Decodes cls run tok -> len tok <= len run.
Proof. induction 1; rewrite ?len_cons in *; lia. Qed.
Lemma Decodes_same_len cls run tok : Decodes cls run tok -> len run = len tok -> run = tok.
Proof.
  induction 1 as [|x r t Hx HD IH|h1 h2 v1 v2 r t H37 H1 H2 HD IH]; intros E; [reflexivity| |].
  - rewrite !len_cons in E. rewrite IH by lia. reflexivity.
  - exfalso. apply Decodes_len in HD. rewrite !len_cons in E. lia.
Qed.

Lemma refEscapable_spec cs : forall r n,
  (exists run tok r' k, r = run ++ r' /\ Decodes (inset cs) run tok /\ endsRun (inset cs) r' /\
      len run = len tok + 2 * k /\ refEscapable cs n r = RStop (n + k) run r') \/
  (exists run tok r' k, r = run ++ r' /\ Decodes (inset cs) run tok /\ badEscape (inset cs) r' /\
      len run = len tok + 2 * k /\ refEscapable cs n r = RBad (n + k) r').
Proof.
  intros r. remember (List.length r) as m eqn:Em. revert r Em.
  induction m as [m IH] using lt_wf_ind. intros r -> n.
  destruct r as [|v r1].
  { left. exists [], [], [], 0. cbn [refEscapable app]. rewrite (N.add_0_r n).
    split; [reflexivity|]. split; [constructor|]. split; [exact I|]. split; reflexivity. }
  cbn [refEscapable]. destruct (inset cs v) eqn:Ev; cbn [negb].
  - destruct (IH (List.length r1) ltac:(cbn; lia) r1 eq_refl n) as [(run & tok & r' & k & -> & HD & He & Hl & E)|(run & tok & r' & k & -> & HD & He & Hl & E)].
    + left. exists (v :: run), (v :: tok), r', k. rewrite E. cbn [refCons app]. rewrite !len_cons. repeat split; auto; try lia. now constructor.
    + right. exists (v :: run), (v :: tok), r', k. rewrite E. cbn [refCons app]. rewrite !len_cons. repeat split; auto; try lia. now constructor.
  - destruct (N.eqb_spec v 37) as [->|Hv].
    2:{ left. exists [], [], (v :: r1), 0. rewrite (N.add_0_r n).
        split; [reflexivity|]. split; [constructor|]. split; [split; assumption|]. split; reflexivity. }
    assert (Hbad : forall r2, r2 = 37 :: r1 -> badEscape (inset cs) r2 ->
       (exists run tok r' k, 37 :: r1 = run ++ r' /\ Decodes (inset cs) run tok /\ badEscape (inset cs) r' /\
        len run = len tok + 2 * k /\ RBad n (37 :: r1) = RBad (n + k) r')).
    { intros r2 -> Hb. exists [], [], (37 :: r1), 0. rewrite (N.add_0_r n).
      split; [reflexivity|]. split; [constructor|]. split; [exact Hb|]. split; reflexivity. }
    destruct r1 as [|v1 [|v2 r2]].
    + right. apply (Hbad _ eq_refl). split; auto.
    + right. apply (Hbad _ eq_refl). split; auto.
    + destruct (IsHex v1) eqn:H1; [destruct (IsHex v2) eqn:H2|]; cbn [negb orb].
      * destruct (IH (List.length r2) ltac:(cbn; lia) r2 eq_refl (n + 1)) as [(run & tok & r' & k & -> & HD & He & Hl & E)|(run & tok & r' & k & -> & HD & He & Hl & E)].
        -- left. exists (37 :: v1 :: v2 :: run), (16 * hexVal v1 + hexVal v2 :: tok), r', (k + 1). rewrite E. cbn [refCons app]. rewrite !len_cons.
           replace (n + 1 + k) with (n + (k + 1)) by lia. repeat split; auto; try lia. constructor; auto using IsHex_hexVal.
        -- right. exists (37 :: v1 :: v2 :: run), (16 * hexVal v1 + hexVal v2 :: tok), r', (k + 1). rewrite E. cbn [refCons app]. rewrite !len_cons.
           replace (n + 1 + k) with (n + (k + 1)) by lia. repeat split; auto; try lia. constructor; auto using IsHex_hexVal.
      * right. apply (Hbad _ eq_refl). split; auto. intros [_ H]. apply IsHex_value in H. congruence.
      * right. apply (Hbad _ eq_refl). split; auto. intros [H _]. apply IsHex_value in H. congruence.
Qed.

Lemma refEscapable3_same cs : forall r n, refEscapable3Loop cs n r = refEscapable cs n r.
Proof.
  intros r. remember (List.length r) as m eqn:Em. revert r Em.
  induction m as [m IH] using lt_wf_ind. intros r -> n.
  destruct r as [|v r1]; [reflexivity|]. cbn [refEscapable refEscapable3Loop].
  destruct (inset cs v); cbn [negb]; [now rewrite (IH (List.length r1)) by (cbn; lia)|].
  destruct (v =? 37); cbn [negb]; [|reflexivity].
  destruct r1 as [|v1 [|v2 r2]]; try reflexivity.
  rewrite (IH (List.length r2)) by (cbn; lia). destruct (IsHex v1), (IsHex v2); reflexivity.
Qed.
Lemma refEscapable2b_same cs : inset cs 37 = false -> forall r n, refEscapable2b cs n r = refEscapable cs n r.
Proof.
  intros H37 r. remember (List.length r) as m eqn:Em. revert r Em.
  induction m as [m IH] using lt_wf_ind. intros r -> n.
  destruct r as [|v r1]; [reflexivity|]. cbn [refEscapable refEscapable2b].
  destruct (N.eqb_spec v 37) as [->|Hv].
  - rewrite H37. cbn [negb]. destruct r1 as [|v1 [|v2 r2]]; try reflexivity.
    rewrite (IH (List.length r2)) by (cbn; lia). reflexivity.
  - rewrite (IH (List.length r1)) by (cbn; lia). reflexivity.
Qed.
Lemma refEscapable2_same cs : inset cs 37 = false -> forall r, refEscapable2 cs r = refEscapable cs 0 r.
Proof.
  intros H37 r. induction r as [|v r1 IH]; [reflexivity|]. 
  cbn [refEscapable2]. destruct (inset cs v) eqn:Ev; cbn [negb].
  - cbn [refEscapable]. rewrite Ev. cbn [negb]. now rewrite IH.
  - destruct (v =? 37) eqn:E37.
    + now rewrite refEscapable2b_same.
    + cbn [refEscapable]. rewrite Ev, E37. reflexivity.
Qed.

(** * The copying loop *)
Lemma unescLoop_dec cls : cls 37 = false -> forall run tok, Decodes cls run tok -> forall k m dst j,
  j + len tok <= k -> unescLoop (Some k) m dst j run = Some (wr m (dst + j) tok, j + len tok).
Proof.
  intros H37 run tok HD.
  induction HD as [|x r t Hx HD IH|h1 h2 v1 v2 r t _ Hh1 Hh2 HD IH]; intros k m dst j Hk.
  - cbn. now rewrite N.add_0_r.
  - rewrite len_cons in *. cbn [unescLoop]. replace (j <? k) with true by lia.
    assert (x <> 37) by congruence. replace (x =? 37) with false by lia. cbn [negb].
    rewrite IH by lia. cbn [wr]. replace (dst + (j + 1)) with (dst + j + 1) by lia. f_equal. f_equal. lia.
  - rewrite len_cons in *. cbn [unescLoop]. replace (j <? k) with true by lia.
    change (37 =? 37) with true. cbn [negb].
    assert (E1 : IsHex h1 = true) by (apply IsHex_value; eauto). assert (E2 : IsHex h2 = true) by (apply IsHex_value; eauto).
    rewrite E1, E2. cbn [andb]. rewrite IH by lia. cbn [wr]. replace (dst + (j + 1)) with (dst + j + 1) by lia.
    unfold unescapeToByte. rewrite (hexVal_value _ _ Hh1), (hexVal_value _ _ Hh2). replace (v1 * 16 + v2) with (16 * v1 + v2) by lia.
    f_equal. f_equal. lia.
Qed.

(** Storing a given string after a successful [Alloc (len b + 2)]. *)
Lemma store_ok a p a' b m : cap a < two16 -> 8 <= aused a -> Alloc (len b + 2) a = (p, a') ->
  aused a + 2 + len b <= cap a -> m = wr (mem a) (aused a + 2) b ->
  p = aused a /\ cap a' = cap a /\ mem a' = mem a /\ u16 (p + 2) = aused a + 2 /\ p <> NILPTR /\
  exists m', putUint16 (setMem a' m) p (len b) = Some m' /\
   forall r, refines true a (AOk (aused a + 2) (setMem a' m') r) (Ok b (mkst r (aused a + 2 + len b))).
Proof.
  intros Hc H8 EA Hfit ->. unfold two16 in Hc.
  assert (Hw : aused a + (len b + 2) < two32) by (unfold two32; lia).
  pose proof (Alloc_spec (len b + 2) a Hw) as (Hp & Hau & Hm & Hcp & _). rewrite EA in Hp, Hau, Hm, Hcp. cbn [fst snd] in *.
  replace (len b + 2 =? 0) with false in * by lia. cbn [negb andb] in *.
  replace (aused a + (len b + 2) <=? cap a) with true in * by lia.
  assert (Hp' : p = aused a). { rewrite Hp. apply u16_small. unfold two16. lia. } clear Hp. subst p.
  assert (Hu : u16 (aused a + 2) = aused a + 2) by (apply u16_small; unfold two16; lia).
  repeat split; auto; [unfold NILPTR; lia|].
  unfold putUint16. cbn [cap mem setMem]. rewrite Hcp. replace (cap a <? aused a + 2) with false by lia.
  eexists. split; [reflexivity|]. intros r. cbn [refines rest used aused cap mem setMem].
  repeat split; auto; cbn [cap mem setMem]; try lia.
  - intros i Hi. rewrite !upd_other by lia. apply wr_outside. lia.
  - etransitivity; [|exact (readBytes_wr b (mem a) (aused a + 2))]. apply readBytes_ext. intros i Hi. rewrite !upd_other by lia. reflexivity.
  - replace (aused a + 2 - 2) with (aused a) by lia. replace (aused a + 2 - 1) with (aused a + 1) by lia.
    rewrite (upd_other _ (aused a + 1)) by lia. rewrite !upd_same.
    pose proof (N.div_mod (u16 (len b)) 256 ltac:(discriminate)). lia.
Qed.

Lemma AllocCString_ok a b r : cap a < two16 -> 8 <= aused a -> aused a + 2 + len b <= cap a ->
  refines true a (withRest r (AllocCString b a)) (Ok b (mkst r (aused a + 2 + len b))).
Proof.
  intros Hc H8 Hfit. unfold AllocCString. rewrite (u32_small (len b + 2)) by (unfold two16, two32 in *; lia).
  destruct (Alloc (len b + 2) a) as [p a'] eqn:EA.
  destruct (store_ok a p a' b _ Hc H8 EA Hfit eq_refl) as (-> & Hcp & Hm & Hu & Hn & m' & Hput & HR).
  replace (aused a =? NILPTR) with false by lia. rewrite writeBytes_spec, Hcp, Hu, Hm.
  replace (aused a + 2 + len b <=? cap a) with true by lia. rewrite orb_true_r.
  cbn [withRest]. rewrite Hput. cbn [withRest]. apply HR.
Qed.
Lemma AllocCString_nomem a b : cap a < two16 -> 8 <= aused a <= cap a -> len b < 2147483640 -> cap a < aused a + 2 + len b ->
  exists a', AllocCString b a = AFail a' [] /\ aused a' = aused a /\ mem a' = mem a /\ cap a' = cap a.
Proof.
  intros Hc H8 Hlen Hfit. unfold AllocCString. unfold two16 in Hc.
  rewrite (u32_small (len b + 2)) by (unfold two32 in *; lia).
  assert (Hw : aused a + (len b + 2) < two32) by (unfold two32; lia).
  pose proof (Alloc_spec (len b + 2) a Hw) as (Hp & Hau & Hm & Hcp & _).
  destruct (Alloc (len b + 2) a) as [p a'] eqn:EA. cbn [fst snd] in *.
  replace (len b + 2 =? 0) with false in * by lia. cbn [negb andb] in *.
  replace (aused a + (len b + 2) <=? cap a) with false in * by lia. subst p. change (NILPTR =? NILPTR) with true. cbn iota.
  eexists. repeat split; auto.
Qed.

Lemma unescSize_exact l k d : 2 * k <= l -> l + d < two32 -> unescSize l k d = l - 2 * k + d.
Proof.
  intros H1 H2. unfold unescSize, two32 in *. rewrite Z.mod_small by lia. lia.
Qed.

Lemma UnescNum_ok a cls run tok k r : cls 37 = false -> Decodes cls run tok -> len run = len tok + 2 * k ->
  cap a < two16 -> 8 <= aused a -> aused a + 2 + len tok <= cap a -> len run < two16 ->
  refines true a (withRest r (AllocCStringWithUnescapeNum run k a)) (Ok tok (mkst r (aused a + 2 + len tok))).
Proof.
  intros H37 HD Hl Hc H8 Hfit Hrun. unfold AllocCStringWithUnescapeNum.
  destruct (N.eqb_spec k 0) as [->|Hk].
  { assert (run = tok) by (eapply Decodes_same_len; eauto; lia). subst. apply AllocCString_ok; assumption. }
  assert (Htok : 0 < len tok). { destruct HD; [cbn in Hl; lia| |]; rewrite len_cons; lia. }
  rewrite unescSize_exact by (unfold two16, two32 in *; lia).
  replace (len run - 2 * k + 2) with (len tok + 2) by lia.
  destruct (Alloc (len tok + 2) a) as [p a'] eqn:EA.
  destruct (store_ok a p a' tok _ Hc H8 EA Hfit eq_refl) as (-> & Hcp & Hm & Hu & Hn & m' & Hput & HR).
  replace (aused a =? NILPTR) with false by lia. rewrite Hu, Hcp. replace (cap a <=? aused a + 2) with false by lia.
  replace (len run <? 2 * k) with false by lia. replace (len run - 2 * k) with (len tok) by lia.
  rewrite (unescLoop_dec cls H37 run tok HD) by lia. rewrite !N.add_0_r, Hm, N.add_0_l, Hput. cbn [withRest]. apply HR.
Qed.

Lemma ParseEscapable2_refines cs a r : inset cs 37 = false -> cap a < two16 -> 8 <= aused a -> aused a + 3 + len r <= cap a ->
  refines true a (ParseEscapable2 cs a r) (paEscapable cs (envOf a) (mkst r (aused a))).
Proof.
  intros H37 Hc H8 Hroom. unfold ParseEscapable2, paEscapable. cbn [rest used].
  assert (Hr : roomy (envOf a) (aused a + 3 + len r)) by exact Hroom.
  rewrite (roomy_lt _ _ _ Hr) by lia. cbn [negb].
  assert (Hr' : roomy (envOf a) (aused a + 2 + len r + 1)) by (eapply roomy_mono; [exact Hr|lia]).
  destruct (refEscapable_spec cs r 0) as [(run & tok & r' & k & Hq & HD & He & Hl & E)|(run & tok & r' & k & Hq & HD & He & Hl & E)]; rewrite E.
  - assert (E2 : escLoop cs (envOf a) (aused a + 2) r = EStop tok r') by (apply escLoop_EStop; eauto).
    rewrite E2. destruct tok as [|x tok].
    + inversion HD; subst. cbn. repeat split; auto; try lia.
    + assert (Hn : refLen run =? 0 = false). { unfold refLen. rewrite Hl, len_cons. lia. } rewrite Hn.
      assert (len run <= len r) by (rewrite Hq, len_app; lia).
      rewrite (roomy_lt _ _ _ Hr) by (rewrite Hl in *; lia). cbn [negb]. rewrite N.add_0_l.
      eapply UnescNum_ok; eauto; unfold two16 in *; lia.
  - destruct (escLoop_spec cs (envOf a) r (aused a + 2) Hr') as [(run2 & t & q & Hq2 & HD2 & He2 & E2 & _)|(run2 & t & q & Hq2 & HD2 & He2 & E2)].
    + exfalso. destruct (Decodes_det _ _ _ q HD2 run tok r') as (_ & _ & <-); auto; [now rewrite <- Hq2|]. eapply ends_not_bad; eauto.
    + rewrite E2. destruct (Decodes_det _ _ _ q HD2 run tok r') as (_ & _ & <-); auto; [now rewrite <- Hq2|].
      cbn. repeat split; auto; try lia.
Qed.
Lemma ParseEscapableEmpty2_refines cs a r : inset cs 37 = false -> cap a < two16 -> 8 <= aused a -> aused a + 3 + len r <= cap a ->
  refines true a (ParseEscapableEnableEmpty2 cs a r) (paEscapableEmpty cs (envOf a) (mkst r (aused a))).
Proof.
  intros H37 Hc H8 Hroom. unfold ParseEscapableEnableEmpty2, paEscapableEmpty. cbn [rest used].
  assert (Hr : roomy (envOf a) (aused a + 3 + len r)) by exact Hroom.
  rewrite (roomy_lt _ _ _ Hr) by lia. cbn [negb].
  assert (Hr' : roomy (envOf a) (aused a + 2 + len r + 1)) by (eapply roomy_mono; [exact Hr|lia]).
  destruct (refEscapable_spec cs r 0) as [(run & tok & r' & k & Hq & HD & He & Hl & E)|(run & tok & r' & k & Hq & HD & He & Hl & E)]; rewrite E.
  - assert (E2 : escLoop cs (envOf a) (aused a + 2) r = EStop tok r') by (apply escLoop_EStop; eauto).
    rewrite E2. assert (len run <= len r) by (rewrite Hq, len_app; lia).
    rewrite (roomy_lt _ _ _ Hr) by (rewrite Hl in *; lia). cbn [negb]. rewrite N.add_0_l.
    eapply UnescNum_ok; eauto; unfold two16 in *; lia.
  - destruct (escLoop_spec cs (envOf a) r (aused a + 2) Hr') as [(run2 & t & q & Hq2 & HD2 & He2 & E2 & _)|(run2 & t & q & Hq2 & HD2 & He2 & E2)].
    + exfalso. destruct (Decodes_det _ _ _ q HD2 run tok r') as (_ & _ & <-); auto; [now rewrite <- Hq2|]. eapply ends_not_bad; eauto.
    + rewrite E2. destruct (Decodes_det _ _ _ q HD2 run tok r') as (_ & _ & <-); auto; [now rewrite <- Hq2|].
      cbn. repeat split; auto; try lia.
Qed.

Lemma two_step_same cs a r : inset cs 37 = false -> cap a < two16 -> 8 <= aused a -> aused a + 3 + len r <= cap a ->
  sameOutcome (ParseEscapable2 cs a r) (ParseEscapable cs a r) /\
  sameOutcome (ParseEscapableEnableEmpty2 cs a r) (ParseEscapableEnableEmpty cs a r).
Proof.
  intros H37 Hc H8 Hroom. assert (H32 : cap a < two32) by (unfold two16, two32 in *; lia). split.
  - eapply refines_same; eauto; [apply ParseEscapable2_refines; assumption|apply refine_Escapable; [apply envOf_cap|assumption]].
  - eapply refines_same; eauto; [apply ParseEscapableEmpty2_refines; assumption|apply refine_EscapableEmpty; [apply envOf_cap|assumption]].
Qed.
