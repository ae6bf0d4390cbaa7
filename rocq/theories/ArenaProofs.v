From Verif Require Import Base Charset BaseLemmas Lws LwsProofs Str Num Arena.

(** Writing a byte string. *)
Fixpoint wr (m : N -> N) (u : N) (b : bytes) : N -> N :=
  match b with [] => m | v :: b' => wr (upd m u v) (u + 1) b' end.

Lemma upd_same m i v : upd m i v i = v.
Proof. unfold upd. now rewrite N.eqb_refl. Qed.
Lemma upd_other m i v a : a <> i -> upd m i v a = m a.
Proof. unfold upd. intros H. now apply N.eqb_neq in H as ->. Qed.

Lemma wr_app m u a b : wr m u (a ++ b) = wr (wr m u a) (u + len a) b.
Proof.
  revert m u; induction a as [|x a IH]; intros m u; cbn [wr app].
  - now rewrite len_nil, N.add_0_r.
  - rewrite IH, len_cons. replace (u + (len a + 1)) with (u + 1 + len a) by lia. reflexivity.
Qed.
Lemma wr_outside b : forall m u a, a < u \/ u + len b <= a -> wr m u b a = m a.
Proof.
  induction b as [|x b IH]; intros m u a H; cbn [wr]; [reflexivity|]. rewrite len_cons in H.
  rewrite IH by lia. apply upd_other. lia.
Qed.
Lemma readBytes_ext m m' n : forall p, (forall i, p <= i < p + N.of_nat n -> m i = m' i) -> readBytes m p n = readBytes m' p n.
Proof.
  induction n as [|n IH]; intros p H; cbn [readBytes]; [reflexivity|]. f_equal.
  - apply H. lia.
  - apply IH. intros i Hi. apply H. lia.
Qed.
Lemma readBytes_wr b : forall m u, readBytes (wr m u b) u (List.length b) = b.
Proof.
  induction b as [|x b IH]; intros m u; cbn [wr readBytes List.length]; [reflexivity|]. f_equal.
  - rewrite wr_outside by lia. apply upd_same.
  - apply IH.
Qed.

Lemma writeBytes_spec capn b : forall m u, writeBytes capn m u b =
  if (len b =? 0) || (u + len b <=? capn) then Some (wr m u b, u + len b) else None.
Proof.
  induction b as [|x b IH]; intros m u; cbn [writeBytes wr].
  - rewrite len_nil, N.add_0_r. reflexivity.
  - rewrite len_cons. destruct (N.ltb_spec u capn) as [H|H].
    + rewrite IH. replace (u + 1 + len b) with (u + (len b + 1)) by lia.
      destruct (N.eqb_spec (len b) 0) as [E|E]; cbn [orb].
      * replace (len b + 1 =? 0) with false by lia. cbn [orb].
        replace (u + (len b + 1) <=? capn) with true by lia. reflexivity.
      * replace (len b + 1 =? 0) with false by lia. cbn [orb]. reflexivity.
    + replace (len b + 1 =? 0) with false by lia. cbn [orb].
      replace (u + (len b + 1) <=? capn) with false by lia. reflexivity.
Qed.
Lemma runLoop_spec cs capn r : forall m u,
  runLoop cs capn m u r = match writeBytes capn m u (fst (span (inset cs) r)) with
                          | Some (m', u') => Some (m', u', snd (span (inset cs) r))
                          | None => None end.
Proof.
  induction r as [|x r IH]; intros m u; cbn [runLoop span fst snd writeBytes]; [reflexivity|].
  destruct (inset cs x) eqn:E; [|reflexivity].
  destruct (span (inset cs) r) as [a b] eqn:S. cbn [fst snd writeBytes] in *.
  destruct (u <? capn); [apply IH|reflexivity].
Qed.

(** [fits] is exactly "no index panic". *)
Definition envCap (e : env) (a : arena) : Prop := memend e = Some (cap a).
Lemma writeBytes_fits e a m u b : envCap e a -> writeBytes (cap a) m u b =
  if fits e u (len b) then Some (wr m u b, u + len b) else None.
Proof. unfold envCap, fits, leMem. intros ->. apply writeBytes_spec. Qed.

Definition agreeBelow (m m' : N -> N) (n : N) : Prop := forall i, i < n -> m' i = m i.
Lemma agreeBelow_refl m n : agreeBelow m m n. Proof. intros i _; reflexivity. Qed.
Lemma agreeBelow_trans m m' m'' n : agreeBelow m m' n -> agreeBelow m' m'' n -> agreeBelow m m'' n.
Proof. intros H1 H2 i Hi. rewrite H2, H1; auto. Qed.
Lemma agreeBelow_le m m' n k : k <= n -> agreeBelow m m' n -> agreeBelow m m' k.
Proof. intros H1 H2 i Hi. apply H2. lia. Qed.
Lemma agreeBelow_wr m u b n : n <= u -> agreeBelow m (wr m u b) n.
Proof. intros H i Hi. apply wr_outside. lia. Qed.

(** A string is stored with its data at [q]: two length bytes below, then the bytes. *)
Definition stored (a : arena) (q : N) (b : bytes) : Prop :=
  2 <= q /\ q + len b <= cap a /\ readBytes (mem a) q (List.length b) = b /\
  mem a (q - 2) + 256 * mem a (q - 1) = u16 (len b).

(** The refinement relation between a byte-level run started in [a] and a value-level run.
    [atomic] says whether a failure must leave [used] unchanged. *)
Definition refines (atomic : bool) (a : arena) (r : ares) (v : res bytes) : Prop :=
  match r, v with
  | AOk p a' r', Ok tok s => rest s = r' /\ used s = aused a' /\ p = u16 (aused a + 2) /\ cap a' = cap a /\
        aused a' = aused a + 2 + len tok /\ aused a' <= cap a /\ agreeBelow (mem a) (mem a') (aused a) /\
        stored a' (aused a + 2) tok
  | AFail a' r', Fail s => rest s = r' /\ used s = aused a' /\ cap a' = cap a /\
        agreeBelow (mem a) (mem a') (aused a) /\ aused a <= aused a' /\ (atomic = true -> aused a' = aused a) /\
        (aused a <= cap a -> aused a' <= cap a)
  | APanic, Panic => True
  | ALoop, Loop => True
  | _, _ => False
  end.

Lemma round1 u : u < two32 -> RoundToAlign1 u = u.
Proof.
  intros H. unfold RoundToAlign1, u32. replace (u + 1 - 1) with u by lia.
  rewrite (N.mod_small u) by assumption.
  change (two32 - 1) with (N.ones 32). rewrite N.land_ones. apply N.mod_small. exact H.
Qed.

Lemma finish_ok a base b m0 r : cap a < two32 -> base + 2 + len b <= cap a ->
  agreeBelow (mem a) m0 base -> readBytes m0 (base + 2) (List.length b) = b ->
  match finish (setMem a m0) base (base + 2 + len b) r with
  | AOk p a' r' => r' = r /\ p = u16 (base + 2) /\ cap a' = cap a /\ aused a' = base + 2 + len b /\
       agreeBelow (mem a) (mem a') base /\ stored a' (base + 2) b
  | _ => False
  end.
Proof.
  intros Hc Hb Hag Hrd. unfold finish, putUint16. cbn [cap mem setMem].
  replace (base + 2 + len b - base - 2) with (len b) by lia.
  replace (cap a <? base + 2) with false by lia.
  cbn [cap mem aused]. repeat split; auto.
  - apply round1. lia.
  - intros i Hi. rewrite !upd_other by lia. apply Hag, Hi.
  - lia.
  - cbn [mem]. etransitivity; [|exact Hrd]. apply readBytes_ext. intros i Hi. rewrite !upd_other by lia. reflexivity.
  - cbn [mem]. replace (base + 2 - 2) with base by lia. replace (base + 2 - 1) with (base + 1) by lia.
    rewrite (upd_other _ (base + 1)) by lia. rewrite !upd_same.
    pose proof (N.div_mod (u16 (len b)) 256 ltac:(discriminate)). lia.
Qed.

Section Bridge.
  Variable e : env.
  Variable a : arena.
  Hypothesis He : envCap e a.
  Hypothesis Hcap : cap a < two32.

  Lemma ltMem_cap u : ltMem e u = (u <? cap a).
  Proof. unfold ltMem. now rewrite He. Qed.
  Lemma leMem_cap u : leMem e u = (u <=? cap a).
  Proof. unfold leMem. now rewrite He. Qed.

  Lemma refine_finish at_ b m0 r r' :
    aused a + 2 + len b <= cap a -> agreeBelow (mem a) m0 (aused a) ->
    readBytes m0 (aused a + 2) (List.length b) = b -> r = r' ->
    refines at_ a (finish (setMem a m0) (aused a) (aused a + 2 + len b) r) (Ok b (mkst r' (aused a + 2 + len b))).
  Proof.
    intros H1 H2 H3 <-. pose proof (finish_ok a (aused a) b m0 r Hcap H1 H2 H3) as H.
    destruct (finish (setMem a m0) (aused a) (aused a + 2 + len b) r) as [p a' r0| | |]; try contradiction.
    destruct H as (-> & -> & Hc & Hu & Hag & Hs). cbn [refines rest used]. rewrite Hu.
    repeat split; auto; apply Hs.
  Qed.

  Lemma refine_fail at_ m0 r r' :
    agreeBelow (mem a) m0 (aused a) -> r = r' -> refines at_ a (AFail (setMem a m0) r) (Fail (mkst r' (aused a))).
  Proof. intros H <-. cbn. repeat split; auto; lia. Qed.
  Lemma refine_fail0 at_ r : refines at_ a (AFail a r) (Fail (mkst r (aused a))).
  Proof. cbn. repeat split; auto; try lia; intros i _; reflexivity. Qed.

  Lemma span_empty_iff f r : Nat.eqb (List.length (snd (span f r))) (List.length r) = match fst (span f r) with [] => true | _ => false end.
  Proof.
    destruct (span f r) as [t r'] eqn:E. apply span_app in E. subst r. cbn [fst snd]. rewrite app_length.
    destruct t as [|x t]; cbn [List.length]; [apply Nat.eqb_refl|]. apply Nat.eqb_neq. lia.
  Qed.

  Lemma refine_CString cs r :
    refines true a (ParseAndAllocCString cs a r) (paCString cs e (mkst r (aused a))).
  Proof.
    unfold ParseAndAllocCString, paCString. cbn [used rest]. rewrite ltMem_cap.
    destruct (N.leb_spec (cap a) (aused a + 2)) as [H|H].
    - replace (aused a + 2 <? cap a) with false by lia. cbn [negb]. apply refine_fail0.
    - replace (aused a + 2 <? cap a) with true by lia. cbn [negb].
      rewrite runLoop_spec. pose proof (span_empty_iff (inset cs) r) as Hemp.
      destruct (span (inset cs) r) as [tok r'] eqn:E. cbn [fst snd] in *.
      rewrite (writeBytes_fits e a _ _ _ He). destruct (fits e (aused a + 2) (len tok)) eqn:F; cbn [negb]; [|exact I].
      rewrite Hemp. destruct tok as [|x tok].
      + apply refine_fail; [|reflexivity]. apply agreeBelow_wr. lia.
      + rewrite ltMem_cap. set (t := x :: tok) in *. clearbody t.
        destruct (N.leb_spec (cap a) (aused a + 2 + len t)) as [H2|H2].
        * replace (aused a + 2 + len t <? cap a) with false by lia. cbn [negb]. apply refine_fail; [|reflexivity].
          apply agreeBelow_wr. lia.
        * replace (aused a + 2 + len t <? cap a) with true by lia. cbn [negb].
          apply refine_finish; [lia| |apply readBytes_wr|reflexivity]. apply agreeBelow_wr. lia.
  Qed.

  Lemma refine_CStringEmpty cs r :
    refines true a (ParseAndAllocCStringEnableEmpty cs a r) (paCStringEmpty cs e (mkst r (aused a))).
  Proof.
    unfold ParseAndAllocCStringEnableEmpty, paCStringEmpty. cbn [used rest]. rewrite ltMem_cap.
    destruct (N.leb_spec (cap a) (aused a + 2)) as [H|H].
    - replace (aused a + 2 <? cap a) with false by lia. cbn [negb]. apply refine_fail0.
    - replace (aused a + 2 <? cap a) with true by lia. cbn [negb].
      rewrite runLoop_spec. destruct (span (inset cs) r) as [t r'] eqn:E. cbn [fst snd] in *.
      rewrite (writeBytes_fits e a _ _ _ He). destruct (fits e (aused a + 2) (len t)) eqn:F; cbn [negb]; [|exact I].
      rewrite ltMem_cap.
      destruct (N.leb_spec (cap a) (aused a + 2 + len t)) as [H2|H2].
      * replace (aused a + 2 + len t <? cap a) with false by lia. cbn [negb]. apply refine_fail; [|reflexivity].
        apply agreeBelow_wr. lia.
      * replace (aused a + 2 + len t <? cap a) with true by lia. cbn [negb].
        apply refine_finish; [lia| |apply readBytes_wr|reflexivity]. apply agreeBelow_wr. lia.
  Qed.

  Lemma escLoopA_spec cs : forall n r m u, (List.length r <= n)%nat ->
    match escLoop cs e u r with
    | EStop tok r' => escLoopA cs (cap a) m u r = EAStop (wr m u tok) (u + len tok) r'
    | EBad r' => exists m', escLoopA cs (cap a) m u r = EABad m' r' /\ agreeBelow m m' u
    | ENoMem => exists m', escLoopA cs (cap a) m u r = EANoMem m' /\ agreeBelow m m' u
    | EPanic => escLoopA cs (cap a) m u r = EAPanic
    end.
  Proof.
    induction n as [|n IH]; intros r m u Hn.
    - destruct r; [|cbn in Hn; lia]. cbn [escLoop escLoopA wr]. rewrite len_nil, N.add_0_r. reflexivity.
    - destruct r as [|v r1]; cbn [escLoop escLoopA].
      { cbn [escLoop escLoopA wr]. rewrite len_nil, N.add_0_r. reflexivity. }
      cbn [List.length] in Hn. rewrite !ltMem_cap.
      assert (Hstep : forall x rr, (List.length rr <= n)%nat ->
        match escCons x (escLoop cs e (u + 1) rr) with
        | EStop tok r' => escLoopA cs (cap a) (upd m u x) (u + 1) rr = EAStop (wr m u tok) (u + len tok) r'
        | EBad r' => exists m', escLoopA cs (cap a) (upd m u x) (u + 1) rr = EABad m' r' /\ agreeBelow m m' u
        | ENoMem => exists m', escLoopA cs (cap a) (upd m u x) (u + 1) rr = EANoMem m' /\ agreeBelow m m' u
        | EPanic => escLoopA cs (cap a) (upd m u x) (u + 1) rr = EAPanic
        end).
      { intros x rr Hrr. specialize (IH rr (upd m u x) (u + 1) Hrr).
        assert (Hag : forall m', agreeBelow (upd m u x) m' (u + 1) -> agreeBelow m m' u).
        { intros m' Hm i Hi. rewrite Hm by lia. apply upd_other. lia. }
        destruct (escLoop cs e (u + 1) rr) as [tok r'|r'| |]; cbn [escCons].
        - rewrite IH. cbn [wr]. rewrite len_cons. f_equal. lia.
        - destruct IH as (m' & -> & Hm). exists m'. auto.
        - destruct IH as (m' & -> & Hm). exists m'. auto.
        - exact IH. }
      destruct (inset cs v).
      { destruct (u <? cap a); [|reflexivity]. apply Hstep. lia. }
      destruct (v =? 37).
      { destruct r1 as [|v1 [|v2 r2]]; try (eexists; split; [reflexivity|apply agreeBelow_refl]).
        destruct (negb (IsHex v1) || negb (IsHex v2))%bool; [eexists; split; [reflexivity|apply agreeBelow_refl]|].
        destruct (u <? cap a); [|eexists; split; [reflexivity|apply agreeBelow_refl]].
        apply Hstep. cbn [List.length] in Hn. lia. }
      cbn [escLoop escLoopA wr]. rewrite len_nil, N.add_0_r. reflexivity.
  Qed.

  Lemma escLoop_len cs : forall n r u tok r', (List.length r <= n)%nat -> escLoop cs e u r = EStop tok r' ->
    (List.length r' <= List.length r)%nat /\ (tok = [] <-> List.length r' = List.length r).
  Proof.
    induction n as [|n IH]; intros r u tok r' Hn.
    - destruct r; [|cbn in Hn; lia]. cbn. intros [= <- <-]. cbn. intuition.
    - destruct r as [|v r1]; cbn [escLoop]; [intros [= <- <-]; cbn; intuition|].
      cbn [List.length] in *.
      assert (Hstep : forall x rr, (List.length rr <= n)%nat -> (List.length rr <= List.length r1)%nat ->
        escCons x (escLoop cs e (u + 1) rr) = EStop tok r' ->
        (List.length r' <= S (List.length r1))%nat /\ (tok = [] <-> List.length r' = S (List.length r1))).
      { intros x rr H1 H2 E. destruct (escLoop cs e (u + 1) rr) as [t q| | |] eqn:E2; try discriminate.
        cbn in E. injection E as <- <-. destruct (IH rr _ _ _ H1 E2). split; [lia|]. split; [discriminate|lia]. }
      destruct (inset cs v).
      { destruct (ltMem e u); [|discriminate]. apply Hstep; lia. }
      destruct (v =? 37).
      { destruct r1 as [|v1 [|v2 r2]]; try discriminate.
        destruct (negb (IsHex v1) || negb (IsHex v2))%bool; [discriminate|].
        destruct (ltMem e u); [|discriminate]. apply Hstep; cbn [List.length] in *; lia. }
      intros [= <- <-]. cbn. intuition.
  Qed.

  Lemma refine_Escapable cs r :
    refines true a (ParseAndAllocCStringEscapable cs a r) (paEscapable cs e (mkst r (aused a))).
  Proof.
    unfold ParseAndAllocCStringEscapable, paEscapable. cbn [used rest]. rewrite ltMem_cap.
    destruct (N.leb_spec (cap a) (aused a + 2)) as [H|H].
    - replace (aused a + 2 <? cap a) with false by lia. cbn [negb]. apply refine_fail0.
    - replace (aused a + 2 <? cap a) with true by lia. cbn [negb].
      pose proof (escLoopA_spec cs _ r (mem a) (aused a + 2) (le_n _)) as HA.
      destruct (escLoop cs e (aused a + 2) r) as [tok r'|r'| |] eqn:E.
      + rewrite HA. destruct (escLoop_len cs _ _ _ _ _ (le_n _) E) as [_ Hemp].
        destruct tok as [|x tok].
        * rewrite (proj1 Hemp eq_refl), Nat.eqb_refl. apply refine_fail; [|reflexivity]. apply agreeBelow_wr. lia.
        * replace (Nat.eqb (List.length r') (List.length r)) with false.
          2: { symmetry. apply Nat.eqb_neq. intros Hl. apply Hemp in Hl. discriminate. }
          rewrite ltMem_cap. set (t := x :: tok) in *. clearbody t.
          destruct (N.leb_spec (cap a) (aused a + 2 + len t)) as [H2|H2].
          -- replace (aused a + 2 + len t <? cap a) with false by lia. cbn [negb]. apply refine_fail; [|reflexivity].
             apply agreeBelow_wr. lia.
          -- replace (aused a + 2 + len t <? cap a) with true by lia. cbn [negb].
             apply refine_finish; [lia| |apply readBytes_wr|reflexivity]. apply agreeBelow_wr. lia.
      + destruct HA as (m' & -> & Hm). apply refine_fail; [|reflexivity]. eapply agreeBelow_le; [|exact Hm]. lia.
      + destruct HA as (m' & -> & Hm). apply refine_fail; [|reflexivity]. eapply agreeBelow_le; [|exact Hm]. lia.
      + rewrite HA. exact I.
  Qed.

  Lemma refine_EscapableEmpty cs r :
    refines true a (ParseAndAllocCStringEscapableEnableEmpty cs a r) (paEscapableEmpty cs e (mkst r (aused a))).
  Proof.
    unfold ParseAndAllocCStringEscapableEnableEmpty, paEscapableEmpty. cbn [used rest]. rewrite ltMem_cap.
    destruct (N.leb_spec (cap a) (aused a + 2)) as [H|H].
    - replace (aused a + 2 <? cap a) with false by lia. cbn [negb]. apply refine_fail0.
    - replace (aused a + 2 <? cap a) with true by lia. cbn [negb].
      pose proof (escLoopA_spec cs _ r (mem a) (aused a + 2) (le_n _)) as HA.
      destruct (escLoop cs e (aused a + 2) r) as [t r'|r'| |] eqn:E.
      + rewrite HA. rewrite ltMem_cap.
        destruct (N.leb_spec (cap a) (aused a + 2 + len t)) as [H2|H2].
        -- replace (aused a + 2 + len t <? cap a) with false by lia. cbn [negb]. apply refine_fail; [|reflexivity].
           apply agreeBelow_wr. lia.
        -- replace (aused a + 2 + len t <? cap a) with true by lia. cbn [negb].
           apply refine_finish; [lia| |apply readBytes_wr|reflexivity]. apply agreeBelow_wr. lia.
      + destruct HA as (m' & -> & Hm). apply refine_fail; [|reflexivity]. eapply agreeBelow_le; [|exact Hm]. lia.
      + destruct HA as (m' & -> & Hm). apply refine_fail; [|reflexivity]. eapply agreeBelow_le; [|exact Hm]. lia.
      + rewrite HA. exact I.
  Qed.

  Lemma refine_FromPos mid cs r : suffix mid r ->
    refines true a (ParseAndAllocCStringFromPos mid cs a r) (paCStringFromPos mid cs e (mkst r (aused a))).
  Proof.
    intros [pre0 ->]. unfold ParseAndAllocCStringFromPos, paCStringFromPos. cbn [used rest].
    replace (List.length (pre0 ++ mid) - List.length mid)%nat with (List.length pre0) by (rewrite app_length; lia).
    rewrite firstn_app, firstn_all, Nat.sub_diag. cbn [firstn]. rewrite app_nil_r.
    rewrite !ltMem_cap.
    rewrite (writeBytes_fits e a _ _ _ He).
    replace (cap a <=? len pre0 + (aused a + 2)) with (negb (aused a + 2 + len pre0 <? cap a)) by lia.
    destruct (negb (beq pre0 []) && negb (aused a + 2 + len pre0 <? cap a))%bool eqn:C1.
    { apply refine_fail0. }
    assert (Hf : fits e (aused a + 2) (len pre0) = true).
    { unfold fits. rewrite leMem_cap. destruct pre0 as [|x p]; [reflexivity|]. cbn [beq negb andb] in C1.
      apply orb_true_intro. right. lia. }
    rewrite Hf.
    destruct (N.leb_spec (cap a) (aused a + 2 + len pre0)) as [H2|H2].
    { replace (aused a + 2 + len pre0 <? cap a) with false by lia. cbn [negb].
      apply refine_fail; [|reflexivity]. apply agreeBelow_wr. lia. }
    replace (aused a + 2 + len pre0 <? cap a) with true by lia. cbn [negb].
    rewrite runLoop_spec. destruct (span (inset cs) mid) as [tok r'] eqn:E. cbn [fst snd].
    rewrite (writeBytes_fits e a _ _ _ He).
    destruct (fits e (aused a + 2 + len pre0) (len tok)) eqn:F; cbn [negb]; [|exact I].
    assert (Hagw : agreeBelow (mem a) (wr (wr (mem a) (aused a + 2) pre0) (aused a + 2 + len pre0) tok) (aused a)).
    { rewrite <- wr_app. apply agreeBelow_wr. lia. }
    assert (Hl : Nat.eqb (List.length r') (List.length (pre0 ++ mid)) = match pre0 ++ tok with [] => true | _ => false end).
    { apply span_app in E. subst mid. rewrite !app_length. destruct pre0 as [|x p]; cbn [app List.length].
      - destruct tok as [|y t]; cbn [List.length]; [apply Nat.eqb_refl|apply Nat.eqb_neq; lia].
      - apply Nat.eqb_neq. lia. }
    rewrite Hl. destruct (pre0 ++ tok) as [|x t] eqn:Et.
    { apply refine_fail; [assumption|reflexivity]. }
    rewrite ltMem_cap.
    assert (Hlen : len pre0 + len tok = len (x :: t)) by (rewrite <- Et, len_app; reflexivity).
    replace (aused a + 2 + len pre0 + len tok) with (aused a + 2 + len (x :: t)) by lia.
    destruct (N.leb_spec (cap a) (aused a + 2 + len (x :: t))) as [H3|H3].
    { replace (aused a + 2 + len (x :: t) <? cap a) with false by lia. cbn [negb].
      apply refine_fail; [assumption|reflexivity]. }
    replace (aused a + 2 + len (x :: t) <? cap a) with true by lia. cbn [negb].
    apply refine_finish; [lia|assumption| |reflexivity].
    rewrite <- wr_app, Et. apply readBytes_wr.
  Qed.

  Lemma telLoop_spec cs r : forall m u n,
    telLoop cs (cap a) m u n r =
    let run := fst (span (inset cs) r) in
    let num := filter (fun v => negb (IsTelVisualSperator v)) run in
    match writeBytes (cap a) m u num with
    | Some (m', u') => Some (m', u', n + len num, snd (span (inset cs) r))
    | None => None
    end.
  Proof.
    induction r as [|v r IH]; intros m u n; cbn [telLoop span fst snd filter writeBytes].
    - rewrite len_nil, N.add_0_r. reflexivity.
    - destruct (inset cs v) eqn:E.
      2: { cbn [fst snd filter writeBytes]. rewrite len_nil, N.add_0_r. reflexivity. }
      destruct (span (inset cs) r) as [x y] eqn:S. cbn [fst snd filter] in *.
      destruct (IsTelVisualSperator v); cbn [negb writeBytes]; [apply IH|].
      destruct (u <? cap a); [|reflexivity]. rewrite IH. cbn [fst snd].
      destruct (writeBytes (cap a) (upd m u v) (u + 1) _) as [[m' u']|]; [|reflexivity].
      do 3 f_equal. rewrite len_cons. lia.
  Qed.

  Lemma refine_TelNumber cs r :
    refines true a (ParseAndAllocTelNumber cs a r) (paTelNumber cs e (mkst r (aused a))).
  Proof.
    unfold ParseAndAllocTelNumber, paTelNumber. cbn [used rest]. rewrite ltMem_cap.
    destruct (N.leb_spec (cap a) (aused a + 2)) as [H|H].
    { replace (aused a + 2 <? cap a) with false by lia. cbn [negb]. apply refine_fail0. }
    replace (aused a + 2 <? cap a) with true by lia. cbn [negb].
    set (pv := match r with x :: r0 => if x =? 43 then ([43], r0) else ([], r) | [] => ([], r) end).
    assert (Hp : match r with
                 | x :: r1 => if x =? 43 then (upd (mem a) (aused a + 2) x, aused a + 2 + 1, r1) else (mem a, aused a + 2, r)
                 | [] => (mem a, aused a + 2, r) end
                 = (wr (mem a) (aused a + 2) (fst pv), aused a + 2 + len (fst pv), snd pv) /\ (len (fst pv) <= 1)).
    { subst pv. destruct r as [|x r1].
      - cbn [fst snd wr]. rewrite len_nil, N.add_0_r. split; [reflexivity|lia].
      - destruct (N.eqb_spec x 43) as [->|]; cbn [fst snd wr].
        + split; [reflexivity|unfold len; cbn; lia].
        + rewrite len_nil, N.add_0_r. split; [reflexivity|lia]. }
    destruct pv as [plus r0]. cbn [fst snd] in Hp. destruct Hp as [-> Hpl].
    rewrite telLoop_spec. cbv zeta. destruct (span (inset cs) r0) as [run r'] eqn:E. cbn [fst snd].
    set (num := filter _ run).
    rewrite (writeBytes_fits e a _ _ _ He). rewrite N.add_0_l.
    assert (Hff : fits e (aused a + 2) (len (plus ++ num)) = fits e (aused a + 2 + len plus) (len num)).
    { unfold fits. rewrite !leMem_cap, len_app. destruct (N.eqb_spec (len num) 0) as [E0|E0]; cbn [orb].
      - rewrite E0, N.add_0_r. destruct (len plus =? 0); cbn; [reflexivity|]. lia.
      - replace (len plus + len num =? 0) with false by lia. cbn [orb]. f_equal. lia. }
    rewrite Hff. destruct (fits e (aused a + 2 + len plus) (len num)); cbn [negb]; [|exact I].
    rewrite <- wr_app.
    assert (Hag : agreeBelow (mem a) (wr (mem a) (aused a + 2) (plus ++ num)) (aused a)) by (apply agreeBelow_wr; lia).
    destruct num as [|x num'] eqn:En.
    { rewrite len_nil. cbn. apply refine_fail; [assumption|reflexivity]. }
    replace (len (x :: num') =? 0) with false by (rewrite len_cons; lia).
    rewrite ltMem_cap. replace (aused a + 2 + len plus + len (x :: num')) with (aused a + 2 + len (plus ++ x :: num')) by (rewrite len_app; lia).
    set (t := plus ++ x :: num') in *. clearbody t.
    destruct (N.leb_spec (cap a) (aused a + 2 + len t)) as [H2|H2].
    - replace (aused a + 2 + len t <? cap a) with false by lia. cbn [negb]. apply refine_fail; [assumption|reflexivity].
    - replace (aused a + 2 + len t <? cap a) with true by lia. cbn [negb].
      apply refine_finish; [lia|assumption|apply readBytes_wr|reflexivity].
  Qed.

  (** Quoted strings. *)
  Lemma span_ext f g r : (forall x, f x = g x) -> span f r = span g r.
  Proof. intros H. induction r as [|x r IH]; cbn; [reflexivity|]. now rewrite H, IH. Qed.

  Lemma copyLWS_spec m u r :
    ParseAndCopyLWS (cap a) m u r =
    match copyLWS e u r with
    | Some (w, r', ok) => Some (wr m u w, u + len w, r', ok)
    | None => None
    end.
  Proof.
    unfold ParseAndCopyLWS, copyLWS. rewrite runLoop_spec.
    rewrite (span_ext (inset WSP_CHAR) isWsp) by (intros x; apply IsWspChar_isWsp).
    destruct (span isWsp r) as [w1 r1]. cbn [fst snd]. rewrite (writeBytes_fits e a _ _ _ He).
    destruct (fits e u (len w1)); cbn [negb]; [|reflexivity].
    destruct r1 as [|x [|y r2]]; try reflexivity.
    destruct ((x =? 13) && (y =? 10))%bool; [|reflexivity].
    rewrite (writeBytes_fits e a _ _ _ He). change (len [x; x]) with 2.
    destruct (fits e (u + len w1) 2); cbn [negb]; [|reflexivity].
    assert (Hw : forall w2, wr (wr (wr m u w1) (u + len w1) [x; x]) (u + len w1 + 2) w2 = wr m u (w1 ++ [x; x] ++ w2)).
    { intros w2. rewrite !wr_app. reflexivity. }
    assert (Hl2 : u + len w1 + 2 = u + len (w1 ++ [x; x])) by (rewrite len_app; change (len [x; x]) with 2; lia).
    destruct r2 as [|z r2].
    - rewrite (Hw []) || idtac. rewrite wr_app, Hl2. reflexivity.
    - destruct (isWsp z) eqn:Ez; cbn [negb].
      + rewrite runLoop_spec. rewrite (span_ext (inset WSP_CHAR) isWsp) by (intros q; apply IsWspChar_isWsp).
        destruct (span isWsp (z :: r2)) as [w2 r3]. cbn [fst snd].
        rewrite (writeBytes_fits e a _ _ _ He).
        destruct (fits e (u + len w1 + 2) (len w2)); cbn [negb]; [|reflexivity].
        rewrite Hw. do 3 f_equal. rewrite !len_app. change (len [x; x]) with 2. f_equal. lia.
      + rewrite wr_app, Hl2. reflexivity.
  Qed.

  Lemma qLoopA_spec f : forall m u U r,
    match qLoop f e u U r with
    | QOk tok r' => qLoopA f (cap a) m u U r = QAOk (wr m u tok) (u + len tok) r'
    | QFail r' U' => exists m', qLoopA f (cap a) m u U r = QAFail m' U' r' /\ agreeBelow m m' u /\ (U <= u -> U <= U')
    | QPanic => qLoopA f (cap a) m u U r = QAPanic
    | QLoop => qLoopA f (cap a) m u U r = QALoop
    end.
  Proof.
    induction f as [|f IH]; intros m u U r; cbn [qLoop qLoopA]; [reflexivity|].
    destruct r as [|v r1].
    { eexists. split; [reflexivity|]. split; [apply agreeBelow_refl|lia]. }
    destruct (v =? 34). { cbn [wr]. rewrite len_nil. f_equal. lia. }
    assert (Hstep' : forall w U1 rr, (U1 = U \/ U1 = u + len w) ->
      match qApp w (qLoop f e (u + len w) U1 rr) with
      | QOk tok r' => qLoopA f (cap a) (wr m u w) (u + len w) U1 rr = QAOk (wr m u tok) (u + len tok) r'
      | QFail r' U' => exists m', qLoopA f (cap a) (wr m u w) (u + len w) U1 rr = QAFail m' U' r' /\ agreeBelow m m' u /\ (U <= u -> U <= U')
      | QPanic => qLoopA f (cap a) (wr m u w) (u + len w) U1 rr = QAPanic
      | QLoop => qLoopA f (cap a) (wr m u w) (u + len w) U1 rr = QALoop
      end).
    { intros w U1 rr HU1. specialize (IH (wr m u w) (u + len w) U1 rr).
      destruct (qLoop f e (u + len w) U1 rr) as [tok r'|r' U'| |]; cbn [qApp].
      - rewrite IH, wr_app, len_app. f_equal. lia.
      - destruct IH as (m' & -> & Hag & HUU). exists m'. repeat split.
        + eapply agreeBelow_trans; [apply agreeBelow_wr, N.le_refl|]. eapply agreeBelow_le; [|exact Hag]. lia.
        + intros HU. lia.
      - exact IH.
      - exact IH. }
    destruct (IsLwsChar v).
    { rewrite copyLWS_spec. destruct (copyLWS e u (v :: r1)) as [[[w r'] [|]]|]; [| |reflexivity].
      - apply Hstep'. now right.
      - eexists; split; [reflexivity|split; [apply agreeBelow_wr, N.le_refl|lia]]. }
    destruct (IsSipQuotedText v).
    { rewrite (writeBytes_fits e a _ _ _ He). unfold fits. change (len [v]) with 1.
      replace (leMem e (u + 1)) with (ltMem e u) by (rewrite ltMem_cap, leMem_cap; lia).
      change (1 =? 0) with false. cbn [orb].
      destruct (ltMem e u); [|reflexivity]. apply (Hstep' [v] U r1). now left. }
    destruct (v =? 92).
    { destruct r1 as [|x r2]; [eexists; split; [reflexivity|split; [apply agreeBelow_refl|lia]]|].
      rewrite (writeBytes_fits e a _ _ _ He). unfold fits. change (len [v; x]) with 2. change (2 =? 0) with false. cbn [orb].
      destruct (leMem e (u + 2)); [|reflexivity]. apply (Hstep' [v; x] U r2). now left. }
    eexists; split; [reflexivity|split; [apply agreeBelow_refl|lia]].
  Qed.

  (** While bytes are written, they fit. *)
  Lemma copyLWS_fits u r w r' ok : u <= cap a -> copyLWS e u r = Some (w, r', ok) -> u + len w <= cap a.
  Proof.
    unfold copyLWS. intros Hu.
    assert (HF : forall v n, v <= cap a -> fits e v n = true -> v + n <= cap a).
    { intros v n Hv. unfold fits. rewrite leMem_cap. destruct (N.eqb_spec n 0); lia. }
    destruct (span isWsp r) as [w1 r1]. destruct (fits e u (len w1)) eqn:F1; cbn [negb]; [|discriminate].
    apply HF in F1; [|assumption].
    destruct r1 as [|x [|y r2]]; try (intros [= <- <- <-]; assumption).
    destruct ((x =? 13) && (y =? 10))%bool; [|intros [= <- <- <-]; assumption].
    destruct (fits e (u + len w1) 2) eqn:F2; cbn [negb]; [|discriminate]. apply HF in F2; [|assumption].
    assert (H2 : u + len (w1 ++ [x; x]) <= cap a) by (rewrite len_app; change (len [x; x]) with 2; lia).
    destruct r2 as [|z r2]; [intros [= <- <- <-]; assumption|].
    destruct (isWsp z); cbn [negb]; [|intros [= <- <- <-]; assumption].
    destruct (span isWsp (z :: r2)) as [w2 r3]. destruct (fits e (u + len w1 + 2) (len w2)) eqn:F3; cbn [negb]; [|discriminate].
    apply HF in F3; [|assumption]. intros [= <- <- <-]. rewrite !len_app, !len_cons. lia.
  Qed.
  Lemma qLoop_fits f : forall u U r tok r', u <= cap a -> qLoop f e u U r = QOk tok r' -> u + len tok <= cap a.
  Proof.
    induction f as [|f IH]; intros u U r tok r' Hu; cbn [qLoop]; [discriminate|].
    destruct r as [|v r1]; [discriminate|].
    destruct (v =? 34). { intros [= <- <-]. rewrite len_nil. lia. }
    destruct (IsLwsChar v).
    { destruct (copyLWS e u (v :: r1)) as [[[w r2] [|]]|] eqn:C; try discriminate.
      apply copyLWS_fits in C; [|assumption].
      destruct (qLoop f e (u + len w) (u + len w) r2) as [t q| | |] eqn:Q; try discriminate.
      cbn. intros [= <- <-]. apply IH in Q; [|assumption]. rewrite len_app. lia. }
    destruct (IsSipQuotedText v).
    { rewrite ltMem_cap. destruct (N.ltb_spec u (cap a)) as [Hlt|]; [|discriminate].
      destruct (qLoop f e (u + 1) U r1) as [t q| | |] eqn:Q; try discriminate.
      cbn. intros [= <- <-]. apply IH in Q; [|lia]. rewrite len_cons. lia. }
    destruct (v =? 92); [|discriminate]. destruct r1 as [|x r2]; [discriminate|].
    rewrite leMem_cap. destruct (N.leb_spec (u + 2) (cap a)); [|discriminate].
    destruct (qLoop f e (u + 2) U r2) as [t q| | |] eqn:Q; try discriminate.
    cbn. intros [= <- <-]. apply IH in Q; [|lia]. rewrite !len_cons. lia.
  Qed.

  (** A lone CR or LF inside a quoted string: no progress, for ever. *)
  Lemma qLoop_stuck f : forall u U r v r1, r = v :: r1 -> (v =? 34) = false -> IsLwsChar v = true ->
    copyLWS e u r = Some ([], r, true) -> qLoop f e u U r = QLoop.
  Proof.
    induction f as [|f IH]; intros u U r v r1 -> H34 Hl Hc; cbn [qLoop]; [reflexivity|].
    rewrite H34, Hl, Hc. rewrite len_nil, N.add_0_r. erewrite IH; eauto.
  Qed.
  Lemma copyLWS_nil u r r' ok : copyLWS e u r = Some ([], r', ok) -> r' = r /\ ok = true.
  Proof.
    unfold copyLWS. destruct (span isWsp r) as [w1 r1] eqn:E. apply span_app in E as Ha.
    destruct (fits e u (len w1)); cbn [negb]; [|discriminate].
    destruct r1 as [|x [|y r2]]; try (intros [= -> <- <-]; subst; split; reflexivity).
    destruct ((x =? 13) && (y =? 10))%bool; [|intros [= -> <- <-]; subst; split; reflexivity].
    destruct (fits e (u + len w1) 2); cbn [negb]; [|discriminate].
    destruct r2 as [|z r2]; [intros [= H _ _]; destruct w1; discriminate|].
    destruct (isWsp z); cbn [negb]; [|intros [= H _ _]; destruct w1; discriminate].
    destruct (span isWsp (z :: r2)) as [w2 r3]. destruct (fits _ _ _); cbn [negb]; [|discriminate].
    intros [= H _ _]; destruct w1; discriminate.
  Qed.
  Lemma copyLWS_fits2 u r w r' ok : cap a < u -> copyLWS e u r = Some (w, r', ok) -> w = [].
  Proof.
    unfold copyLWS. intros Hu.
    assert (HF : forall n, fits e u n = true -> n = 0).
    { intros n. unfold fits. rewrite leMem_cap. destruct (N.eqb_spec n 0); lia. }
    destruct (span isWsp r) as [w1 r1]. destruct (fits e u (len w1)) eqn:F1; cbn [negb]; [|discriminate].
    apply HF in F1. destruct w1 as [|? ?]; [|rewrite len_cons in F1; lia].
    destruct r1 as [|x [|y r2]]; try (intros [= <- <- <-]; reflexivity).
    destruct ((x =? 13) && (y =? 10))%bool; [|intros [= <- <- <-]; reflexivity].
    rewrite len_nil, N.add_0_r. destruct (fits e u 2) eqn:F2; cbn [negb]; [|discriminate].
    apply HF in F2. discriminate.
  Qed.
  Lemma qLoop_failU f : forall u U r r' U', U <= cap a -> qLoop f e u U r = QFail r' U' -> U' <= cap a.
  Proof.
    induction f as [|f IH]; intros u U r r' U' HU; cbn [qLoop]; [discriminate|].
    destruct r as [|v r1]; [intros [= <- <-]; assumption|].
    destruct (v =? 34) eqn:E34; [discriminate|].
    destruct (IsLwsChar v) eqn:El.
    { destruct (copyLWS e u (v :: r1)) as [[[w r2] ok]|] eqn:C; [|discriminate].
      destruct (N.leb_spec u (cap a)) as [Hu|Hu].
      - pose proof (copyLWS_fits _ _ _ _ _ Hu C) as Hf. destruct ok; [|intros [= <- <-]; assumption].
        destruct (qLoop f e (u + len w) (u + len w) r2) as [t q|q U2| |] eqn:Q; try discriminate.
        cbn. intros [= <- <-]. eapply IH; [|exact Q]. assumption.
      - pose proof (copyLWS_fits2 _ _ _ _ _ Hu C) as ->. destruct (copyLWS_nil _ _ _ _ C) as [-> ->].
        rewrite len_nil, N.add_0_r. erewrite qLoop_stuck; eauto. discriminate. }
    destruct (IsSipQuotedText v).
    { destruct (ltMem e u); [|discriminate].
      destruct (qLoop f e (u + 1) U r1) as [t q|q U2| |] eqn:Q; try discriminate.
      cbn. intros [= <- <-]. eapply IH; eauto. }
    destruct (v =? 92); [|intros [= <- <-]; assumption]. destruct r1 as [|x r2]; [intros [= <- <-]; assumption|].
    destruct (leMem e (u + 2)); [|discriminate].
    destruct (qLoop f e (u + 2) U r2) as [t q|q U2| |] eqn:Q; try discriminate.
    cbn. intros [= <- <-]. eapply IH; eauto.
  Qed.

  (** A failing quoted string may leave [used] advanced (not atomic). *)
  Lemma refine_Quoted r :
    refines false a (ParseAndAllocSipQuotedString a r) (paQuoted e (mkst r (aused a))).
  Proof.
    unfold ParseAndAllocSipQuotedString, paQuoted. cbn [used rest]. rewrite ParseSWS_eq.
    destruct (ParseSWS_2 r) as [|x r1]; [exact I|].
    destruct (x =? 34); cbn [negb]; [|apply refine_fail0].
    pose proof (qLoopA_spec (S (List.length r1)) (mem a) (aused a + 2) (aused a) r1) as H.
    destruct (qLoop (S (List.length r1)) e (aused a + 2) (aused a) r1) as [tok r'|r' U'| |] eqn:Q.
    - rewrite H. rewrite leMem_cap. destruct (N.leb_spec (aused a + 2) (cap a)) as [Hc|Hc]; cbn [negb].
      + apply refine_finish; [|apply agreeBelow_wr; lia|apply readBytes_wr|reflexivity].
        eapply qLoop_fits; [|exact Q]. exact Hc.
      + unfold finish, putUint16. cbn [cap setMem]. replace (cap a <? aused a + 2) with true by lia. exact I.
    - destruct H as (m' & -> & Hag & HU). cbn [refines setUsed setMem mem cap aused rest used]. repeat split; auto.
      + eapply agreeBelow_le; [|exact Hag]. lia.
      + apply HU. lia.
      + discriminate.
      + intros Hac. eapply qLoop_failU; [|exact Q]. exact Hac.
    - rewrite H. exact I.
    - rewrite H. exact I.
  Qed.
End Bridge.

(** Reading back through the 16-bit pointer, for arenas of at most 65536 bytes. *)
Lemma stored_read a q b : cap a <= two16 -> q < cap a -> stored a q b -> readCString a (u16 q) = Some b.
Proof.
  intros Hc Hq (H2 & Hle & Hrd & Hpre). unfold two16 in *.
  assert (Hu : u16 q = q) by (unfold u16, two16; apply N.mod_small; lia). rewrite Hu.
  unfold readCString, Strlen, NILPTR. replace (q =? 0) with false by lia.
  assert (E : u16 (q + two16 - 2) = q - 2).
  { unfold u16, two16. replace (q + 65536 - 2) with (q - 2 + 1 * 65536) by lia. rewrite N.mod_add by discriminate. apply N.mod_small. lia. }
  rewrite E. replace (cap a <? q - 2 + 2) with false by lia. replace (q - 2 + 1) with (q - 1) by lia.
  replace (cap a <=? q) with false by lia. f_equal. rewrite Hpre. unfold u16, two16. rewrite N.mod_small by lia.
  unfold len. rewrite Nat2N.id. exact Hrd.
Qed.
(** Strings stored below [used] survive any operation that does not write below [used]. *)
Lemma stored_frame a a' q b : stored a q b -> q + len b <= aused a -> cap a' = cap a ->
  agreeBelow (mem a) (mem a') (aused a) -> stored a' q b.
Proof.
  intros (H2 & Hle & Hrd & Hpre) Hb Hc Hag. repeat split; auto.
  - now rewrite Hc.
  - etransitivity; [|exact Hrd]. apply readBytes_ext. intros i Hi. apply Hag. unfold len in Hb. lia.
  - rewrite <- Hpre. rewrite !Hag by lia. reflexivity.
Qed.
