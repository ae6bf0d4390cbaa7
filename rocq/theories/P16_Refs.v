(** C46: references into the input and the two-step string parses; C15, last part. *)
From Verif Require Import Base Charset CharsetSpec BaseLemmas Lws LwsProofs Str StrSpec StrProofs Num Arena ArenaProofs ArenaOps ArenaOpsProofs ArenaTop Ref RefProofs.

(** A reference made by Parse is the maximal run of the class at the position (possibly empty). *)
Theorem C46_reference_is_run : forall cs r tok r', refParse cs r = (tok, r') <-> maximalRun cs r tok r'.
Proof. intros. rewrite refParse_span. symmetry. apply maximalRun_span. Qed.
Print Assumptions C46_reference_is_run.

(** A reference made by ParseEscapable is exactly a run of plain bytes and well-formed escapes that cannot be continued,
    and the number reported is the number of its escapes (each makes the text two bytes longer than what it denotes). *)
Theorem C46_escapable_reference : forall cs r n run r',
  refEscapable cs 0 r = RStop n run r' <->
  exists tok, r = run ++ r' /\ Decodes (inset cs) run tok /\ endsRun (inset cs) r' /\ len run = len tok + 2 * n.
Proof.
  intros. destruct (refEscapable_spec cs r 0) as [(run1 & tok1 & r1 & k & Hq & HD & He & Hl & E)|(run1 & tok1 & r1 & k & Hq & HD & He & Hl & E)];
  rewrite E; (split; [|intros (tok & Hq2 & HD2 & He2 & Hl2)]).
  - intros [= <- <- <-]. rewrite N.add_0_l. eauto.
  - destruct (Decodes_det _ _ _ r1 HD run tok r') as (<- & <- & <-); auto; [now rewrite <- Hq|]. f_equal. lia.
  - discriminate.
  - exfalso. destruct (Decodes_det _ _ _ r1 HD run tok r') as (_ & _ & <-); auto; [now rewrite <- Hq|]. eapply ends_not_bad; eauto.
Qed.
Print Assumptions C46_escapable_reference.
(** It is refused exactly at a malformed escape. *)
Theorem C46_escapable_refused : forall cs r,
  (exists n r', refEscapable cs 0 r = RBad n r' /\ badEscape (inset cs) r') <->
  exists run tok r', r = run ++ r' /\ Decodes (inset cs) run tok /\ badEscape (inset cs) r'.
Proof.
  intros. destruct (refEscapable_spec cs r 0) as [(run1 & tok1 & r1 & k & Hq & HD & He & Hl & E)|(run1 & tok1 & r1 & k & Hq & HD & He & Hl & E)];
  rewrite E; split.
  - intros (n & r' & H & _). discriminate.
  - intros (run & tok & r' & Hq2 & HD2 & He2). exfalso.
    destruct (Decodes_det _ _ _ r1 HD run tok r') as (_ & _ & <-); auto; [now rewrite <- Hq|]. eapply ends_not_bad; eauto.
  - intros _. eauto 6.
  - intros _. eauto.
Qed.
Print Assumptions C46_escapable_refused.

(** The three variants of the scan: equal, except that the pointer variant crashes at the end of the input
    and that ParseEscapable2 reads a "%" as an escape even if the class contains it. *)
Theorem C46_variants : forall cs r,
  (r <> [] -> refEscapable3 cs r = refEscapable cs 0 r) /\ refEscapable3 cs [] = RPanic /\
  (inset cs 37 = false -> refEscapable2 cs r = refEscapable cs 0 r).
Proof.
  intros. repeat split.
  - intros H. destruct r; [congruence|]. apply refEscapable3_same.
  - intros H. now apply refEscapable2_same.
Qed.
Print Assumptions C46_variants.

(** Copying a run of [n] escapes into the arena stores what it denotes: the string reads back exactly, takes its
    length and two bytes, and what was stored before is untouched. *)
Theorem C46_unescape_exact : forall a cs run tok n, inset cs 37 = false -> Decodes (inset cs) run tok -> len run = len tok + 2 * n ->
  cap a < 65536 -> 8 <= aused a -> aused a + 2 + len tok < cap a -> len run < 65536 ->
  exists p a' r, AllocCStringWithUnescapeNum run n a = AOk p a' r /\ readCString a' p = Some tok /\ aused a' = aused a + 2 + len tok /\ cap a' = cap a /\ agreeBelow (mem a) (mem a') (aused a).
Proof.
  intros a cs run tok n H37 HD Hl Hc H8 Hfit Hrun.
  pose proof (UnescNum_ok a (inset cs) run tok n [] H37 HD Hl Hc H8 ltac:(lia) Hrun) as R.
  destruct (AllocCStringWithUnescapeNum run n a) as [p a' r'|a' r'| |]; cbn [withRest] in R; try contradiction.
  exists p, a', r'. pose proof R as (_ & _ & _ & Hcp & Hau & _ & Hag & _).
  destruct (refines_read _ _ _ _ _ _ Hc R) as (t & s & [= <- <-] & _ & _ & _ & Hrd & Hp).
  repeat split; auto. apply Hrd. lia.
Qed.
Print Assumptions C46_unescape_exact.
Example C46_unescape_case : exists a run tok n p a' r, inset SIP_USER 37 = false /\ Decodes (inset SIP_USER) run tok /\ run = s2b "a%41%2fb" /\ tok = s2b "aA/b" /\ n = 2 /\ aused a = 8 /\ cap a = 108 /\ AllocCStringWithUnescapeNum run n a = AOk p a' r /\ readCString a' p = Some tok.
Proof.
  exists (Init 100), (s2b "a%41%2fb"), (s2b "aA/b"), 2.
  eexists. eexists. eexists.
  split; [vm_compute; reflexivity|]. split.
  { cbn. apply DecPlain; [vm_compute; reflexivity|].
    apply (DecEsc _ 52 49 4 1); [vm_compute; reflexivity|unfold hexDigitValue; lia|unfold hexDigitValue; lia|].
    apply (DecEsc _ 50 102 2 15); [vm_compute; reflexivity|unfold hexDigitValue; lia|unfold hexDigitValue; lia|].
    apply DecPlain; [vm_compute; reflexivity|]. constructor. }
  do 5 (split; [reflexivity|]). split; [vm_compute; reflexivity|]. vm_compute. reflexivity.
Qed.

(** C15: the two-step escapable parses are interchangeable with the one-step ones (same result, same rest of the input, same
    string, same memory used), for a class without "%" and an arena with room for the text. *)
Theorem C15_two_step : forall cs a r, inset cs 37 = false -> cap a < 65536 -> 8 <= aused a -> aused a + 3 + len r <= cap a ->
  sameOutcome (ParseEscapable2 cs a r) (ParseEscapable cs a r) /\
  sameOutcome (ParseEscapableEnableEmpty2 cs a r) (ParseEscapableEnableEmpty cs a r).
Proof. exact two_step_same. Qed.
Print Assumptions C15_two_step.
(** Without room they are not: the two-step parse needs one byte less. *)
Theorem C15_two_step_full_refuted : exists cs a r, ~ sameOutcome (ParseEscapable2 cs a r) (ParseEscapable cs a r).
Proof. exists SIP_USER, (Init 5), (s2b "abc@"). vm_compute. tauto. Qed.
Print Assumptions C15_two_step_full_refuted.

(** The token parse through a reference: with room it is the one-step parse; without room it reports success and returns
    no string. *)
Theorem C15_sip_token : forall a r, cap a < 65536 -> 8 <= aused a -> aused a + 3 + len r <= cap a ->
  match ParseAndAllocSipToken a r, ParseAndAllocSipToken2 a r with
  | Some (p, true, a1, r1), AOk q a2 r2 => p = q /\ r1 = r2 /\ aused a1 = aused a2 /\ readCString a1 p = readCString a2 q
  | Some (_, false, a1, r1), AFail a2 r2 => r1 = r2 /\ aused a1 = aused a2
  | _, _ => False
  end.
Proof.
  intros a r Hc H8 Hroom. unfold ParseAndAllocSipToken, ParseAndAllocSipToken2. rewrite refParse_span.
  destruct (span (inset SIP_USER) r) as [tok r'] eqn:Es. pose proof Es as Hm. apply maximalRun_span in Hm.
  assert (Hle : len tok <= len r) by (destruct Hm as (-> & _); rewrite len_app; lia).
  destruct tok as [|x tok].
  - cbn [refLen len List.length N.of_nat]. change (refLen [] =? 0) with true. cbn iota.
    pose proof (refine_CString (envOf a) a (envOf_cap a) ltac:(unfold two32; lia) SIP_USER r) as R.
    assert (Ev : paCString SIP_USER (envOf a) (mkst r (aused a)) = Fail (mkst r (aused a))).
    { unfold paCString. cbn [used rest]. rewrite Es. destruct (negb _); [reflexivity|]. cbn [len List.length N.of_nat].
      unfold fits. reflexivity. }
    rewrite Ev in R. destruct (ParseAndAllocCString SIP_USER a r) as [p a1 r1|a1 r1| |]; try contradiction.
    destruct R as (R1 & R2 & _). cbn in R1, R2. destruct Hm as (Hr & _). cbn in Hr. subst r'. split; congruence.
  - assert (Hn : refLen (x :: tok) =? 0 = false) by (unfold refLen; rewrite len_cons; lia). rewrite Hn.
    destruct (CString_succeeds a SIP_USER r (x :: tok) r' Hc Hm ltac:(discriminate) ltac:(lia)) as (q & a2 & E2). rewrite E2.
    destruct (CString_ok _ _ _ _ _ _ Hc E2) as (t2 & Hm2 & _ & Hrd2 & Hu2).
    assert (t2 = x :: tok). { apply maximalRun_span in Hm2. congruence. } subst t2.
    pose proof (AllocCString_ok a (x :: tok) r' Hc H8 ltac:(lia)) as R.
    destruct (AllocCString (x :: tok) a) as [p a1 r1|a1 r1| |]; cbn [withRest] in R; try contradiction.
    destruct (refines_read _ _ _ _ _ _ Hc R) as (t & s & [= <- <-] & _ & _ & Hau & Hrd & Hp).
    pose proof (refine_CString (envOf a) a (envOf_cap a) ltac:(unfold two32; lia) SIP_USER r) as R2. rewrite E2 in R2.
    destruct (refines_read _ _ _ _ _ _ Hc R2) as (_ & _ & _ & _ & _ & _ & _ & Hq).
    repeat split; try congruence. rewrite Hrd by lia. congruence.
Qed.
Print Assumptions C15_sip_token.
Theorem C15_sip_token_refuted : exists a r a', ParseAndAllocSipToken a r = Some (NILPTR, true, a', []) /\ r <> [].
Proof. exists (Init 4), (s2b "alice"). eexists. split; [vm_compute; reflexivity|discriminate]. Qed.
Print Assumptions C15_sip_token_refuted.

(** AllocCStringWithUnescapeNum2 is not interchangeable with AllocCStringWithUnescapeNum: what is read back is not the string. *)
Theorem C15_unescape_num2_refuted : exists b n p1 a1 p2 a2,
  AllocCStringWithUnescapeNum b n (Init 100) = AOk p1 a1 [] /\ readCString a1 p1 = Some (s2b "aA/b") /\
  AllocCStringWithUnescapeNum2 b n (Init 100) = AOk p2 a2 [] /\ readCString a2 p2 <> Some (s2b "aA/b").
Proof.
  exists (s2b "a%41%2fb"), 2. eexists. eexists. eexists. eexists.
  split; [vm_compute; reflexivity|]. split; [vm_compute; reflexivity|]. split; [vm_compute; reflexivity|]. vm_compute. discriminate.
Qed.
Print Assumptions C15_unescape_num2_refuted.
(** AllocCStringWithUnescape of a text with an escape releases memory that is in use: an earlier string is overwritten by the next one. *)
Theorem C46_unescape_refuted : exists a0 p0 b0 a1 p1 a2 p2 a3,
  AllocCString b0 a0 = AOk p0 a1 [] /\ readCString a1 p0 = Some b0 /\
  AllocCStringWithUnescape (s2b "a%41") a1 = AOk p1 a2 [] /\ aused a2 < aused a1 /\
  AllocCString (s2b "xyz") a2 = AOk p2 a3 [] /\ readCString a3 p0 <> Some b0.
Proof.
  exists (Init 100). eexists. exists (s2b "abcdef"). eexists. eexists. eexists. eexists. eexists.
  split; [vm_compute; reflexivity|]. split; [vm_compute; reflexivity|]. split; [vm_compute; reflexivity|].
  split; [vm_compute; reflexivity|]. split; [vm_compute; reflexivity|]. vm_compute. discriminate.
Qed.
Print Assumptions C46_unescape_refuted.
(** ... and of a text without one it is AllocCString. *)
Theorem C46_unescape_plain : forall b a, ~ In 37 b -> AllocCStringWithUnescape b a = AllocCString b a.
Proof.
  intros b a H. unfold AllocCStringWithUnescape.
  assert (E : existsb (fun x => x =? 37) b = false).
  { apply not_true_is_false. intros E. apply existsb_exists in E as (x & Hx & E). apply N.eqb_eq in E. subst. auto. }
  now rewrite E.
Qed.
Print Assumptions C46_unescape_plain.
