(** Consequences of the refinement, stated on the byte layer. *)
From Verif Require Import Base Charset BaseLemmas Lws LwsProofs Str StrSpec StrProofs Num Arena ArenaProofs ArenaOps ArenaOpsProofs.

Definition envOf (a : arena) : env := defaultEnv (Some (cap a)).
Lemma envOf_cap a : envCap (envOf a) a. Proof. reflexivity. Qed.

(** A maximal run of the class. *)
Definition maximalRun (cs : charset) (r tok r' : bytes) : Prop :=
  r = tok ++ r' /\ Forall (fun x => inset cs x = true) tok /\ match r' with [] => True | x :: _ => inset cs x = false end.
Lemma maximalRun_span cs r tok r' : maximalRun cs r tok r' <-> span (inset cs) r = (tok, r').
Proof.
  unfold maximalRun. split.
  - intros (-> & Ha & Hs). apply span_exact.
    + apply forallb_forall. rewrite Forall_forall in Ha. exact Ha.
    + destruct r'; cbn; [reflexivity|]. now rewrite Hs.
  - intros E. split; [eapply span_app; eauto|]. split.
    + apply span_all in E. rewrite forallb_forall in E. apply Forall_forall. exact E.
    + apply span_stops in E. destruct r'; cbn in *; [exact I|]. now apply negb_true_iff.
Qed.

Lemma refines_read ato a v p a' r' : cap a < two16 -> refines ato a (AOk p a' r') v ->
  exists tok s, v = Ok tok s /\ rest s = r' /\ used s = aused a' /\ aused a' = aused a + 2 + len tok /\
    (p < cap a -> readCString a' p = Some tok) /\ p = aused a + 2.
Proof.
  intros Hc H. destruct v as [tok s|s| |]; try contradiction. destruct H as (H1 & H2 & H3 & H4 & H5 & H6 & H7 & H8).
  assert (Hsm : u16 (aused a + 2) = aused a + 2) by (apply u16_small; unfold two16 in *; lia).
  exists tok, s. repeat split; auto; [|congruence]. intros Hp.
  rewrite H3. apply stored_read; [rewrite H4; unfold two16 in *; lia| |assumption]. rewrite H4. rewrite H3, Hsm in Hp. exact Hp.
Qed.

(** * Reading back (C09) *)
Lemma CString_ok a cs r p a' r' : cap a < two16 ->
  ParseAndAllocCString cs a r = AOk p a' r' ->
  exists tok, maximalRun cs r tok r' /\ tok <> [] /\ readCString a' p = Some tok /\ aused a' = aused a + 2 + len tok.
Proof.
  intros Hc E. pose proof (refine_CString (envOf a) a (envOf_cap a) ltac:(unfold two16, two32 in *; lia) cs r) as R. rewrite E in R.
  destruct (refines_read _ _ _ _ _ _ Hc R) as (tok & s & Ev & H1 & H2 & H3 & H4 & H5).
  exists tok. unfold paCString in Ev. cbn [used rest] in Ev.
  destruct (negb (ltMem _ _)); [discriminate|]. destruct (span (inset cs) r) as [t q] eqn:Es. destruct (negb (fits _ _ _)); [discriminate|].
  destruct t as [|y t]; [discriminate|]. unfold envOf, ltMem in Ev. cbn [memend defaultEnv] in Ev.
  destruct (N.ltb_spec (aused a + 2 + len (y :: t)) (cap a)); cbn [negb] in Ev; [|discriminate]. injection Ev as <- <-. cbn in H1. subst q.
  split; [now apply maximalRun_span|]. split; [discriminate|]. split; [apply H4; lia|assumption].
Qed.
(** ... and it succeeds whenever there is room for one byte more than the string. *)
Lemma CString_succeeds a cs r tok r' : cap a < two16 -> maximalRun cs r tok r' -> tok <> [] ->
  aused a + 2 + len tok < cap a ->
  exists p a', ParseAndAllocCString cs a r = AOk p a' r'.
Proof.
  intros Hc Hm Hne Hfit. apply maximalRun_span in Hm.
  pose proof (refine_CString (envOf a) a (envOf_cap a) ltac:(unfold two16, two32 in *; lia) cs r) as R.
  assert (Ev : paCString cs (envOf a) (mkst r (aused a)) = Ok tok (mkst r' (aused a + 2 + len tok))).
  { unfold paCString. cbn [used rest]. rewrite Hm. unfold envOf, ltMem, fits, leMem. cbn [memend defaultEnv].
    replace (aused a + 2 <? cap a) with true by lia. cbn [negb].
    replace (aused a + 2 + len tok <=? cap a) with true by lia. rewrite orb_true_r. cbn [negb].
    replace (aused a + 2 + len tok <? cap a) with true by lia. cbn [negb]. now destruct tok. }
  rewrite Ev in R. destruct (ParseAndAllocCString cs a r) as [p a1 r1| | |]; try contradiction.
  destruct R as (R1 & _). cbn in R1. subst r1. eauto.
Qed.

Lemma Escapable_ok a cs r p a' r' : cap a < two16 -> aused a + 3 + len r <= cap a ->
  ParseAndAllocCStringEscapable cs a r = AOk p a' r' ->
  exists run tok, r = run ++ r' /\ Decodes (inset cs) run tok /\ endsRun (inset cs) r' /\ tok <> [] /\
    readCString a' p = Some tok /\ aused a' = aused a + 2 + len tok.
Proof.
  intros Hc Hroom E. pose proof (refine_Escapable (envOf a) a (envOf_cap a) ltac:(unfold two16, two32 in *; lia) cs r) as R. rewrite E in R.
  destruct (refines_read _ _ _ _ _ _ Hc R) as (tok & s & Ev & H1 & H2 & H3 & H4 & H5).
  apply paEscapable_ok in Ev; [|exact Hroom]. cbn [rest used] in Ev. destruct Ev as (run & E1 & E2 & E3 & E4 & _).
  exists run, tok. subst r'. repeat split; auto. apply H4. lia.
Qed.

Lemma Tel_ok a cs r p a' r' : cap a < two16 ->
  ParseAndAllocTelNumber cs a r = AOk p a' r' ->
  exists plus run, r = plus ++ run ++ r' /\ (plus = [] \/ plus = [43]) /\ maximalRun cs (run ++ r') run r' /\
    removeVisual run <> [] /\
    readCString a' p = Some (plus ++ removeVisual run) /\ aused a' = aused a + 2 + len (plus ++ removeVisual run).
Proof.
  intros Hc E. pose proof (refine_TelNumber (envOf a) a (envOf_cap a) ltac:(unfold two16, two32 in *; lia) cs r) as R. rewrite E in R.
  destruct (refines_read _ _ _ _ _ _ Hc R) as (tok & s & Ev & H1 & H2 & H3 & H4 & H5).
  unfold paTelNumber in Ev. cbn [used rest] in Ev.
  destruct (negb (ltMem _ _)); [discriminate|].
  set (pv := match r with x :: r0 => if x =? 43 then ([43], r0) else ([], r) | [] => ([], r) end) in *.
  assert (Hpv : r = fst pv ++ snd pv /\ (fst pv = [] \/ fst pv = [43])).
  { subst pv. destruct r as [|x r0]; [auto|]. destruct (N.eqb_spec x 43) as [->|]; auto. }
  destruct pv as [plus r0]. cbn [fst snd] in Hpv. destruct Hpv as [-> Hplus].
  destruct (span (inset cs) r0) as [run q] eqn:Es. fold (removeVisual run) in Ev.
  destruct (negb (fits _ _ _)); [discriminate|].
  pose proof (span_app _ _ _ _ Es) as ->.
  destruct (removeVisual run) as [|y num] eqn:En; [discriminate|].
  unfold envOf, ltMem in Ev. cbn [memend defaultEnv] in Ev.
  destruct (N.ltb_spec (aused a + 2 + len (plus ++ y :: num)) (cap a)) as [Hlt|]; cbn [negb] in Ev; [|discriminate].
  injection Ev as <- <-. cbn [rest] in H1. subst q.
  exists plus, run. repeat split; auto; try (apply maximalRun_span in Es; apply Es).
  - rewrite En. discriminate.
  - rewrite En. apply H4. lia.
  - rewrite En. exact H3.
Qed.

(** * Failures (C10) *)
(** The input position part; [used] and stored strings follow from the refinement. *)
Lemma refines_fail_used a v a' r' : refines true a (AFail a' r') v ->
  aused a' = aused a /\ agreeBelow (mem a) (mem a') (aused a) /\ cap a' = cap a.
Proof. destruct v; cbn; try contradiction. intros (_ & _ & H1 & H2 & _ & H3 & _). auto. Qed.
Lemma frame_read a a' p b : cap a < two16 -> cap a' = cap a -> agreeBelow (mem a) (mem a') (aused a) ->
  stored a p b -> p + len b <= aused a -> p < cap a -> readCString a' p = Some b.
Proof.
  intros Hc Hcp Hag Hst Hle Hp. replace p with (u16 p) at 1 by (apply u16_small; unfold two16 in *; lia).
  apply stored_read; [rewrite Hcp; unfold two16 in *; lia|now rewrite Hcp|]. eapply stored_frame; eauto.
Qed.

Lemma CString_fail_atomic a cs r a' r' : cap a < two32 -> ParseAndAllocCString cs a r = AFail a' r' ->
  r' = r /\ aused a' = aused a /\ agreeBelow (mem a) (mem a') (aused a).
Proof.
  intros Hc E. pose proof (refine_CString (envOf a) a (envOf_cap a) Hc cs r) as R. rewrite E in R.
  pose proof R as R'. apply refines_fail_used in R' as (H1 & H2 & _). split; [|auto].
  unfold ParseAndAllocCString in E. destruct (cap a <=? _); [now injection E as <- <-|].
  destruct (runLoop _ _ _ _ _) as [[[m u] q]|]; [|discriminate].
  destruct (Nat.eqb _ _); [now injection E as <- <-|]. destruct (cap a <=? u); [now injection E as <- <-|].
  unfold finish in E. destruct (putUint16 _ _ _); discriminate.
Qed.
Lemma CStringEmpty_fail_atomic a cs r a' r' : cap a < two32 -> ParseAndAllocCStringEnableEmpty cs a r = AFail a' r' ->
  r' = r /\ aused a' = aused a /\ agreeBelow (mem a) (mem a') (aused a).
Proof.
  intros Hc E. pose proof (refine_CStringEmpty (envOf a) a (envOf_cap a) Hc cs r) as R. rewrite E in R.
  pose proof R as R'. apply refines_fail_used in R' as (H1 & H2 & _). split; [|auto].
  unfold ParseAndAllocCStringEnableEmpty in E. destruct (cap a <=? _); [now injection E as <- <-|].
  destruct (runLoop _ _ _ _ _) as [[[m u] q]|]; [|discriminate].
  destruct (cap a <=? u); [now injection E as <- <-|].
  unfold finish in E. destruct (putUint16 _ _ _); discriminate.
Qed.
Lemma Escapable_fail_used a cs r a' r' : cap a < two32 -> ParseAndAllocCStringEscapable cs a r = AFail a' r' ->
  aused a' = aused a /\ agreeBelow (mem a) (mem a') (aused a).
Proof.
  intros Hc E. pose proof (refine_Escapable (envOf a) a (envOf_cap a) Hc cs r) as R. rewrite E in R.
  apply refines_fail_used in R as (H1 & H2 & _). auto.
Qed.
Lemma Tel_fail_used a cs r a' r' : cap a < two32 -> ParseAndAllocTelNumber cs a r = AFail a' r' ->
  aused a' = aused a /\ agreeBelow (mem a) (mem a') (aused a).
Proof.
  intros Hc E. pose proof (refine_TelNumber (envOf a) a (envOf_cap a) Hc cs r) as R. rewrite E in R.
  apply refines_fail_used in R as (H1 & H2 & _). auto.
Qed.
(** Counterexamples: the position moves on a malformed escape and on an all-separator number; a failing
    quoted string leaks arena space. *)
Lemma Escapable_fail_moves : exists a r a' r', ParseAndAllocCStringEscapable SIP_USER a r = AFail a' r' /\ r' <> r.
Proof. exists (Init 100), (s2b "ab%zz"). vm_compute. do 2 eexists. split; [reflexivity|discriminate]. Qed.
Lemma Tel_fail_moves : exists a r a' r', ParseAndAllocTelNumber TEL_PHONE_DIGIT a r = AFail a' r' /\ r' <> r.
Proof. exists (Init 100), (s2b "--;"). vm_compute. do 2 eexists. split; [reflexivity|discriminate]. Qed.
Lemma Quoted_fail_leaks : exists a r a' r', ParseAndAllocSipQuotedString a r = AFail a' r' /\ aused a < aused a'.
Proof. exists (Init 100), (s2b """ab c"). vm_compute. do 2 eexists. split; reflexivity. Qed.

(** * Exhaustion panics (C11) *)
Lemma exhaustion_panics : exists c r, ParseAndAllocCString DIGIT (Init c) r = APanic /\ len r < 10.
Proof. exists 4, (s2b "123456"). vm_compute. auto. Qed.
(** Exactly when: the run is longer than the room left after the prefix. *)
Lemma CString_panics_iff a cs r : cap a < two32 ->
  ParseAndAllocCString cs a r = APanic <->
  aused a + 2 < cap a /\ cap a < aused a + 2 + len (fst (span (inset cs) r)).
Proof.
  intros Hc. pose proof (refine_CString (envOf a) a (envOf_cap a) Hc cs r) as R.
  assert (Ev : paCString cs (envOf a) (mkst r (aused a)) = Panic <-> aused a + 2 < cap a /\ cap a < aused a + 2 + len (fst (span (inset cs) r))).
  { unfold paCString. cbn [used rest]. destruct (span (inset cs) r) as [t q]. cbn [fst].
    unfold envOf, ltMem, fits, leMem. cbn [memend defaultEnv].
    destruct (N.ltb_spec (aused a + 2) (cap a)); cbn [negb]; [|split; [discriminate|lia]].
    destruct (N.eqb_spec (len t) 0); cbn [orb negb].
    - split; [|lia]. destruct t; [discriminate|]. destruct (negb _); discriminate.
    - destruct (N.leb_spec (aused a + 2 + len t) (cap a)); cbn [negb]; [|split; [lia|reflexivity]].
      split; [|lia]. destruct t; [discriminate|]. destruct (negb _); discriminate. }
  rewrite <- Ev. destruct (ParseAndAllocCString cs a r) as [p a1 r1|a1 r1| |], (paCString cs (envOf a) (mkst r (aused a))); cbn in R; try contradiction;
  split; intros H; discriminate || reflexivity.
Qed.

(** * Independence of old contents (C12) *)
Definition sameOutcome (x y : ares) : Prop :=
  match x, y with
  | AOk p1 a1 r1, AOk p2 a2 r2 => p1 = p2 /\ r1 = r2 /\ aused a1 = aused a2 /\ (p1 < cap a1 -> readCString a1 p1 = readCString a2 p2)
  | AFail a1 r1, AFail a2 r2 => r1 = r2 /\ aused a1 = aused a2
  | APanic, APanic => True
  | ALoop, ALoop => True
  | _, _ => False
  end.
Lemma refines_same ato a1 a2 x y v : cap a1 < two16 -> cap a1 = cap a2 -> aused a1 = aused a2 ->
  refines ato a1 x v -> refines ato a2 y v -> sameOutcome x y.
Proof.
  intros Hc Hcc Hu R1 R2. destruct x as [p1 b1 r1|b1 r1| |], y as [p2 b2 r2|b2 r2| |], v as [tok s|s| |]; cbn in R1, R2; try contradiction; cbn; auto.
  - pose proof R1 as (A1 & A2 & A3 & A4 & _). pose proof R2 as (B1 & B2 & B3 & B4 & _).
    assert (p1 = p2) by (rewrite A3, B3, Hu; reflexivity). repeat split; try congruence.
    intros Hp. rewrite A4 in Hp.
    destruct (refines_read ato a1 (Ok tok s) p1 b1 r1 Hc R1) as (t1 & s1 & [= <- <-] & _ & _ & _ & Q1 & _).
    destruct (refines_read ato a2 (Ok tok s) p2 b2 r2 ltac:(lia) R2) as (t2 & s2 & [= <- <-] & _ & _ & _ & Q2 & _).
    rewrite Q1 by assumption. rewrite Q2; [reflexivity|]. rewrite <- Hcc. congruence.
  - destruct R1 as (A1 & A2 & _), R2 as (B1 & B2 & _). split; congruence.
Qed.
Lemma stale_independent a1 a2 r cs : cap a1 < two16 -> cap a1 = cap a2 -> aused a1 = aused a2 ->
  sameOutcome (ParseAndAllocCString cs a1 r) (ParseAndAllocCString cs a2 r) /\
  sameOutcome (ParseAndAllocCStringEnableEmpty cs a1 r) (ParseAndAllocCStringEnableEmpty cs a2 r) /\
  sameOutcome (ParseAndAllocCStringEscapable cs a1 r) (ParseAndAllocCStringEscapable cs a2 r) /\
  sameOutcome (ParseAndAllocCStringEscapableEnableEmpty cs a1 r) (ParseAndAllocCStringEscapableEnableEmpty cs a2 r) /\
  sameOutcome (ParseAndAllocTelNumber cs a1 r) (ParseAndAllocTelNumber cs a2 r) /\
  sameOutcome (ParseAndAllocSipQuotedString a1 r) (ParseAndAllocSipQuotedString a2 r).
Proof.
  intros Hc Hcc Hu. assert (H32 : cap a1 < two32) by (unfold two16, two32 in *; lia). assert (H32' : cap a2 < two32) by (unfold two16, two32 in *; lia).
  assert (E2 : envCap (envOf a1) a2) by (unfold envCap, envOf; cbn; congruence).
  repeat apply conj.
  - eapply refines_same; eauto; [apply refine_CString; [apply envOf_cap|assumption]|rewrite Hu; apply refine_CString; assumption].
  - eapply refines_same; eauto; [apply refine_CStringEmpty; [apply envOf_cap|assumption]|rewrite Hu; apply refine_CStringEmpty; assumption].
  - eapply refines_same; eauto; [apply refine_Escapable; [apply envOf_cap|assumption]|rewrite Hu; apply refine_Escapable; assumption].
  - eapply refines_same; eauto; [apply refine_EscapableEmpty; [apply envOf_cap|assumption]|rewrite Hu; apply refine_EscapableEmpty; assumption].
  - eapply refines_same; eauto; [apply refine_TelNumber; [apply envOf_cap|assumption]|rewrite Hu; apply refine_TelNumber; assumption].
  - eapply refines_same; eauto; [apply refine_Quoted; [apply envOf_cap|assumption]|rewrite Hu; apply refine_Quoted; assumption].
Qed.

(** RemoveTelUriVisualSeperator on a stored string. *)
Lemma RemoveVisual_ok a p b : cap a < two16 -> stored a p b -> p < cap a -> len b < two16 ->
  exists a', RemoveTelUriVisualSeperator p a = Some a' /\ readCString a' p = Some (removeVisual b) /\ aused a' = aused a /\
    forall i, i < p - 2 \/ p + len b <= i -> mem a' i = mem a i.
Proof.
  intros Hc (H2 & Hle & Hrd & Hpre) Hp Hb.
  assert (Hfl : len (removeVisual b) <= len b).
  { unfold removeVisual, len. clear. induction b as [|x b IH]; cbn; [lia|]. destruct (negb _); cbn; lia. }
  unfold RemoveTelUriVisualSeperator.
  assert (ES : Strlen a p = Some (len b)).
  { unfold Strlen, NILPTR. replace (p =? 0) with false by lia.
    assert (E : u16 (p + two16 - 2) = p - 2).
    { unfold u16. replace (p + two16 - 2) with (p - 2 + 1 * two16) by (unfold two16; lia). rewrite N.mod_add by discriminate. apply N.mod_small. unfold two16 in *; lia. }
    rewrite E. replace (cap a <? p - 2 + 2) with false by lia. f_equal. replace (p - 2 + 1) with (p - 1) by lia.
    rewrite Hpre. apply u16_small. exact Hb. }
  rewrite ES. destruct (visLoop_spec (N.to_nat (len b)) (mem a) p p ltac:(lia)) as (V1 & V2 & V3).
  assert (Erd : readBytes (mem a) p (N.to_nat (len b)) = b) by (unfold len; rewrite Nat2N.id; exact Hrd).
  rewrite Erd in *. destruct (visLoop (mem a) p p (N.to_nat (len b))) as [m w]. cbn [fst snd] in *. subst w.
  unfold putUint16. cbn [cap mem setMem]. replace (cap a <? p - 2 + 2) with false by lia.
  replace (p + len (removeVisual b) - p) with (len (removeVisual b)) by lia.
  set (m' := upd (upd m _ _) _ _). eexists. split; [reflexivity|]. split; [|split; [reflexivity|]].
  - replace p with (u16 p) at 1 by (apply u16_small; unfold two16 in *; lia).
    apply stored_read; [cbn [cap setMem]; unfold two16 in *; lia|cbn [cap setMem]; lia|].
    unfold stored. cbn [cap mem setMem]. split; [lia|]. split; [lia|]. split.
    + etransitivity; [|exact V2]. apply readBytes_ext. intros i Hi. unfold m'. rewrite !upd_other by lia. reflexivity.
    + unfold m'. replace (p - 2 + 1) with (p - 1) by lia. rewrite (upd_other _ (p - 1)) by lia. rewrite !upd_same.
      pose proof (N.div_mod (u16 (len (removeVisual b))) 256 ltac:(discriminate)). lia.
  - intros i Hi. cbn [mem setMem]. unfold m'. rewrite !upd_other by lia. apply V3. rewrite N2Nat.id. lia.
Qed.
