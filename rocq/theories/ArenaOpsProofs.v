From Verif Require Import Base Charset BaseLemmas Lws LwsProofs Str Num Arena ArenaProofs ArenaOps.

(** Memory primitives (C41). *)
Lemma zeroBytes_spec n : forall m p a, zeroBytes m p n a = if (p <=? a) && (a <? p + N.of_nat n) then 0 else m a.
Proof.
  induction n as [|n IH]; intros m p a; cbn [zeroBytes].
  - replace ((p <=? a) && (a <? p + N.of_nat 0))%bool with false by lia. reflexivity.
  - rewrite IH. unfold upd. destruct (N.eqb_spec a p) as [->|Hne].
    + replace ((p <=? p) && (p <? p + N.of_nat (S n)))%bool with true by lia. now destruct (_ && _)%bool.
    + replace ((p <=? a) && (a <? p + N.of_nat (S n)))%bool with ((p + 1 <=? a) && (a <? p + 1 + N.of_nat n))%bool by lia.
      reflexivity.
Qed.
Lemma zeroWords_spec n : forall m p a, zeroWords m p n a = if (p <=? a) && (a <? p + 8 * N.of_nat n) then 0 else m a.
Proof.
  induction n as [|n IH]; intros m p a; cbn [zeroWords].
  - replace ((p <=? a) && (a <? p + 8 * N.of_nat 0))%bool with false by lia. reflexivity.
  - rewrite IH, zeroBytes_spec. change (N.of_nat 8) with 8.
    destruct ((p <=? a) && (a <? p + 8))%bool eqn:E1; destruct ((p + 8 <=? a) && (a <? p + 8 + 8 * N.of_nat n))%bool eqn:E2;
    destruct ((p <=? a) && (a <? p + 8 * N.of_nat (S n)))%bool eqn:E3; try reflexivity; exfalso; lia.
Qed.
Lemma words_spec n : N.shiftl (N.shiftr n 3) 3 = 8 * (n / 8) /\ N.shiftr n 3 = n / 8.
Proof. rewrite N.shiftl_mul_pow2, N.shiftr_div_pow2. change (2 ^ 3) with 8. split; [lia|reflexivity]. Qed.
Lemma zeroMix m p n a :
  zeroBytes (zeroWords m p (N.to_nat (N.shiftr n 3))) (p + N.shiftl (N.shiftr n 3) 3) (N.to_nat (n - N.shiftl (N.shiftr n 3) 3)) a
  = if (p <=? a) && (a <? p + n) then 0 else m a.
Proof.
  rewrite zeroBytes_spec, zeroWords_spec. destruct (words_spec n) as [-> ->]. rewrite !N2Nat.id.
  pose proof (N.mul_div_le n 8 ltac:(discriminate)). set (q := 8 * (n / 8)) in *. clearbody q.
  destruct ((p <=? a) && (a <? p + q))%bool eqn:E1; destruct ((p + q <=? a) && (a <? p + q + (n - q)))%bool eqn:E2;
  destruct ((p <=? a) && (a <? p + n))%bool eqn:E3; try reflexivity; exfalso; lia.
Qed.
Lemma ZeroMem_spec m p n a : ZeroMem m p n a = if (p <=? a) && (a <? p + n) then 0 else m a.
Proof.
  unfold ZeroMem. destruct (N.eqb_spec n 0) as [->|Hn].
  - replace ((p <=? a) && (a <? p + 0))%bool with false by lia. reflexivity.
  - destruct (32 <? n); [|apply zeroMix]. unfold ZeroMem2. rewrite zeroBytes_spec, N2Nat.id. reflexivity.
Qed.
Lemma ZeroByteSlice_spec m p n a : ZeroByteSlice m p n a = if (p <=? a) && (a <? p + n) then 0 else m a.
Proof.
  unfold ZeroByteSlice. destruct (N.eqb_spec n 0) as [->|Hn]; [|apply zeroMix].
  replace ((p <=? a) && (a <? p + 0))%bool with false by lia. reflexivity.
Qed.
Lemma ZeroByteSlice2_spec m p n a : ZeroByteSlice2 m p n a = if (p <=? a) && (a <? p + n) then 0 else m a.
Proof. unfold ZeroByteSlice2. rewrite zeroBytes_spec, N2Nat.id. reflexivity. Qed.

(** Memcpy between non-overlapping ranges copies exactly. *)
Lemma copyBytes_spec n : forall m p1 p2 a,
  p1 + N.of_nat n <= p2 \/ p2 + N.of_nat n <= p1 ->
  copyBytes m p1 p2 n a = if (p1 <=? a) && (a <? p1 + N.of_nat n) then m (p2 + (a - p1)) else m a.
Proof.
  induction n as [|n IH]; intros m p1 p2 a Hd; cbn [copyBytes].
  - replace ((p1 <=? a) && (a <? p1 + N.of_nat 0))%bool with false by lia. reflexivity.
  - rewrite IH by lia.
    destruct ((p1 <=? a) && (a <? p1 + N.of_nat (S n)))%bool eqn:E.
    + destruct (N.eqb_spec a p1) as [->|Hne].
      * replace ((p1 + 1 <=? p1) && (p1 <? p1 + 1 + N.of_nat n))%bool with false by lia. rewrite upd_same. f_equal. lia.
      * replace ((p1 + 1 <=? a) && (a <? p1 + 1 + N.of_nat n))%bool with true by lia. rewrite upd_other by lia. f_equal. lia.
    + replace ((p1 + 1 <=? a) && (a <? p1 + 1 + N.of_nat n))%bool with false by lia. apply upd_other. lia.
Qed.
Lemma copyWords_spec n : forall m p1 p2 a,
  p1 + 8 * N.of_nat n <= p2 \/ p2 + 8 * N.of_nat n <= p1 ->
  copyWords m p1 p2 n a = if (p1 <=? a) && (a <? p1 + 8 * N.of_nat n) then m (p2 + (a - p1)) else m a.
Proof.
  induction n as [|n IH]; intros m p1 p2 a Hd; cbn [copyWords].
  - replace ((p1 <=? a) && (a <? p1 + 8 * N.of_nat 0))%bool with false by lia. reflexivity.
  - rewrite IH by lia. unfold copyWord.
    destruct ((p1 + 8 <=? a) && (a <? p1 + 8 + 8 * N.of_nat n))%bool eqn:E1.
    + replace ((p1 <=? p2 + 8 + (a - (p1 + 8))) && (p2 + 8 + (a - (p1 + 8)) <? p1 + 8))%bool with false by lia.
      replace ((p1 <=? a) && (a <? p1 + 8 * N.of_nat (S n)))%bool with true by lia. f_equal. lia.
    + destruct ((p1 <=? a) && (a <? p1 + 8))%bool eqn:E2.
      * replace ((p1 <=? a) && (a <? p1 + 8 * N.of_nat (S n)))%bool with true by lia. reflexivity.
      * replace ((p1 <=? a) && (a <? p1 + 8 * N.of_nat (S n)))%bool with false by lia. reflexivity.
Qed.
Lemma Memcpy_spec m p1 p2 n a : p1 + n <= p2 \/ p2 + n <= p1 ->
  Memcpy m p1 p2 n a = if (p1 <=? a) && (a <? p1 + n) then m (p2 + (a - p1)) else m a.
Proof.
  intros Hd. unfold Memcpy. destruct (words_spec n) as [-> ->].
  pose proof (N.mul_div_le n 8 ltac:(discriminate)) as Hle.
  rewrite copyBytes_spec by (rewrite N2Nat.id; lia). rewrite N2Nat.id.
  rewrite !copyWords_spec by (rewrite N2Nat.id; lia). rewrite N2Nat.id.
  set (q := 8 * (n / 8)) in *. clearbody q.
  destruct ((p1 + q <=? a) && (a <? p1 + q + (n - q)))%bool eqn:E1.
  - replace ((p1 <=? p2 + q + (a - (p1 + q))) && (p2 + q + (a - (p1 + q)) <? p1 + q))%bool with false by lia.
    replace ((p1 <=? a) && (a <? p1 + n))%bool with true by lia. f_equal. lia.
  - destruct ((p1 <=? a) && (a <? p1 + q))%bool eqn:E2.
    + replace ((p1 <=? a) && (a <? p1 + n))%bool with true by lia. reflexivity.
    + replace ((p1 <=? a) && (a <? p1 + n))%bool with false by lia. reflexivity.
Qed.

(** Alloc, exactly, when [used + size] does not wrap. *)
Lemma u32_small x : x < two32 -> u32 x = x. Proof. apply N.mod_small. Qed.
Lemma u16_small x : x < two16 -> u16 x = x. Proof. apply N.mod_small. Qed.

Lemma u32_diff n x y : x = y + n -> n < two32 -> u32 (x + two32 - y) = n.
Proof. intros -> H. unfold u32. replace (y + n + two32 - y) with (n + 1 * two32) by lia. rewrite N.mod_add by discriminate. apply N.mod_small, H. Qed.

Lemma Alloc_spec n a : aused a + n < two32 ->
  let fit := (negb (n =? 0) && (aused a + n <=? cap a))%bool in
  fst (Alloc n a) = (if fit then u16 (aused a) else NILPTR) /\
  aused (snd (Alloc n a)) = (if fit then aused a + n else aused a) /\
  mem (snd (Alloc n a)) = mem a /\ cap (snd (Alloc n a)) = cap a /\
  allocNum (snd (Alloc n a)) = u32 (allocNum a + 1) /\
  allocNumOk (snd (Alloc n a)) = (if fit then u32 (allocNumOk a + 1) else allocNumOk a) /\
  allocReqBytes (snd (Alloc n a)) = u32 (allocReqBytes a + n).
Proof.
  intros Hw. unfold Alloc. rewrite (u32_small (aused a + n) Hw), (round1 (aused a + n) Hw).
  destruct (N.leb_spec n 0) as [H|H].
  - replace (n =? 0) with true by lia. cbn. repeat split; reflexivity.
  - replace (n =? 0) with false by lia. cbn [negb andb].
    destruct (N.ltb_spec (cap a) (aused a + n)) as [H2|H2].
    + replace (aused a + n <=? cap a) with false by lia. cbn. repeat split; reflexivity.
    + replace (aused a + n <=? cap a) with true by lia. cbn. repeat split; reflexivity.
Qed.

(** History invariant. *)
Fixpoint blocksOK (bs : list (N * N)) (top : N) : Prop :=
  match bs with
  | [] => 8 <= top
  | (p, n) :: bs' => 0 < n /\ p + n <= top /\ blocksOK bs' p
  end.
Lemma blocksOK_le bs t t' : t <= t' -> blocksOK bs t -> blocksOK bs t'.
Proof. destruct bs as [|[p n] bs]; cbn; [lia|]. intuition lia. Qed.
Lemma blocksOK_range bs : forall t, blocksOK bs t -> Forall (fun b => 8 <= fst b /\ 0 < snd b /\ fst b + snd b <= t) bs.
Proof.
  induction bs as [|[p n] bs IH]; intros t H; cbn in *; constructor.
  - cbn. destruct H as (Hn & Hp & Hb). assert (8 <= p); [|lia]. clear -Hb. revert p Hb.
    induction bs as [|[q k] bs IH]; intros p H; cbn in *; [exact H|]. destruct H as (? & ? & H). apply IH in H. lia.
  - destruct H as (Hn & Hp & Hb). eapply Forall_impl; [|apply (IH p Hb)]. cbn. intros [q k]; cbn. lia.
Qed.
Lemma blocksOK_disjoint bs : forall t, blocksOK bs t -> ForallOrdPairs disjoint bs.
Proof.
  induction bs as [|[p n] bs IH]; intros t H; cbn in *; constructor.
  - destruct H as (Hn & Hp & Hb). eapply Forall_impl; [|apply (blocksOK_range _ _ Hb)].
    intros [q k]; cbn. unfold disjoint; cbn. lia.
  - destruct H as (_ & _ & Hb). eapply IH, Hb.
Qed.
Lemma blocksOK_8 bs t : blocksOK bs t -> 8 <= t.
Proof.
  revert t; induction bs as [|[q k] bs IH]; intros t H; cbn in *; [exact H|].
  destruct H as (? & ? & H). apply IH in H. lia.
Qed.
Lemma blocksOK_filter k bs : forall t, blocksOK bs t -> 8 <= k -> blocksOK (filter (fun b => fst b + snd b <=? k) bs) (N.min t k).
Proof.
  induction bs as [|[p n] bs IH]; intros t H Hk; cbn [filter blocksOK] in *; [lia|].
  destruct H as (Hn & Hp & Hb). specialize (IH p Hb Hk). cbn [fst snd].
  destruct (N.leb_spec (p + n) k) as [Hl|Hl].
  - cbn [blocksOK]. repeat split; [assumption|lia|]. replace p with (N.min p k) at 1 by lia. exact IH.
  - eapply blocksOK_le; [|exact IH]. lia.
Qed.

Definition strOK (a : arena) (s : N * bytes) : Prop :=
  stored a (fst s) (snd s) /\ fst s + len (snd s) <= aused a.
Definition Inv (h : hist) : Prop :=
  aused (ar h) <= cap (ar h) /\ blocksOK (live h) (aused (ar h)) /\ Forall (strOK (ar h)) (strs h).

Lemma strOK_mono a a' s : strOK a s -> cap a' = cap a -> aused a <= aused a' ->
  agreeBelow (mem a) (mem a') (aused a) -> strOK a' s.
Proof.
  intros [H1 H2] Hc Hu Hag. split; [|lia]. eapply stored_frame; eauto.
Qed.

Lemma strStep_ok ato (v : P bytes) r res h h' :
  cap (ar h) < two16 -> Inv h ->
  refines ato (ar h) res (v (defaultEnv (Some (cap (ar h)))) (mkst r (aused (ar h)))) ->
  strStep res (tokOf v (ar h) r) h = Some h' -> Inv h' /\ cap (ar h') = cap (ar h).
Proof.
  intros Hc (Hu & Hb & Hs) Hr. unfold strStep, tokOf.
  destruct res as [p a' r'|a' r'| |]; cbn [refines] in Hr.
  - destruct (v _ _) as [tok s|s| |]; try contradiction.
    destruct Hr as (_ & _ & Hp & Hcap & Hau & Hle & Hag & Hst). intros [= <-]. cbn [ar]. split; [|assumption].
    assert (Hp2 : p = aused (ar h) + 2).
    { rewrite Hp. apply u16_small. lia. }
    unfold Inv. cbn [ar live strs]. split; [lia|]. split.
    + cbn [blocksOK]. split; [lia|]. split; [lia|]. replace (p - 2) with (aused (ar h)) by lia. exact Hb.
    + constructor.
      * split; cbn [fst snd]; rewrite Hp2; [exact Hst|lia].
      * eapply Forall_impl; [|exact Hs]. intros s0 H0. eapply strOK_mono; eauto. lia.
  - destruct (v _ _) as [tok s|s| |]; try contradiction.
    destruct Hr as (_ & Hus & Hcap & Hag & Hle & _ & Hc2). intros [= <-]. cbn [ar]. split; [|assumption].
    unfold Inv. cbn [ar live strs]. split; [lia|]. split; [eapply blocksOK_le; eauto|].
    eapply Forall_impl; [|exact Hs]. intros s0 H0. eapply strOK_mono; eauto.
  - discriminate.
  - discriminate.
Qed.

Lemma AllocCString_inv b h h' : cap (ar h) < two16 -> len b < 2147483640 -> Inv h ->
  strStep (AllocCString b (ar h)) b h = Some h' -> Inv h' /\ cap (ar h') = cap (ar h).
Proof.
  intros Hc Hb (Hu & Hbl & Hs). set (a := ar h) in *. unfold two16 in Hc.
  assert (H8 : 8 <= aused a) by (eapply blocksOK_8; eauto).
  unfold AllocCString. assert (Hw : aused a + (len b + 2) < two32) by (unfold two32; lia).
  rewrite (u32_small (len b + 2)) by (unfold two32 in *; lia).
  pose proof (Alloc_spec (len b + 2) a Hw) as (Hp & Hau & Hm & Hcp & _). 
  destruct (Alloc (len b + 2) a) as [p a'] eqn:EA. cbn [fst snd] in *.
  replace (len b + 2 =? 0) with false in * by lia. cbn [negb andb] in *.
  destruct (N.leb_spec (aused a + (len b + 2)) (cap a)) as [Hf|Hf].
  - assert (Hp' : p = aused a). { rewrite Hp. apply u16_small. unfold two16. lia. }
    clear Hp. subst p. replace (aused a =? NILPTR) with false by (unfold NILPTR; lia).
    rewrite (u16_small (aused a + 2)) by (unfold two16; lia).
    rewrite writeBytes_spec, Hcp, Hm. replace (aused a + 2 + len b <=? cap a) with true by lia. rewrite orb_true_r.
    unfold putUint16. cbn [cap mem setMem]. rewrite Hcp. replace (cap a <? aused a + 2) with false by lia.
    cbn [strStep]. intros [= <-]. cbn [ar cap setMem]. split; [|assumption].
    set (m2 := upd (upd (wr (mem a) (aused a + 2) b) (aused a) (u16 (len b) mod 256)) (aused a + 1) (u16 (len b) / 256)).
    unfold Inv. cbn [ar live strs aused cap setMem]. split; [lia|]. split.
    + cbn [blocksOK]. split; [lia|]. split; [lia|]. replace (aused a + 2 - 2) with (aused a) by lia. exact Hbl.
    + constructor.
      * split; cbn [fst snd aused setMem]; [|lia]. unfold stored. cbn [cap mem setMem]. subst m2.
        split; [lia|]. split; [lia|]. split.
        { etransitivity; [|exact (readBytes_wr b (mem a) (aused a + 2))]. apply readBytes_ext. intros i Hi. rewrite !upd_other by lia. reflexivity. }
        replace (aused a + 2 - 2) with (aused a) by lia. replace (aused a + 2 - 1) with (aused a + 1) by lia.
        rewrite (upd_other _ (aused a + 1)) by lia. rewrite !upd_same.
        pose proof (N.div_mod (u16 (len b)) 256 ltac:(discriminate)). lia.
      * eapply Forall_impl; [|exact Hs]. intros s0 H0. eapply strOK_mono; [exact H0|cbn; assumption|cbn; lia|].
        intros i Hi. subst m2. cbn [mem setMem]. rewrite !upd_other by lia. apply wr_outside. lia.
  - subst p. cbn [N.eqb]. change (NILPTR =? NILPTR) with true. cbn iota. cbn [strStep]. intros [= <-]. cbn [ar].
    split; [|assumption]. unfold Inv. cbn [ar live strs]. split; [lia|]. split; [rewrite Hau; assumption|].
    eapply Forall_impl; [|exact Hs]. intros s0 H0. eapply strOK_mono; [exact H0|assumption|lia|].
    rewrite Hm. apply agreeBelow_refl.
Qed.

Lemma blk_inv p a' n h :
  cap (ar h) < two16 -> Inv h -> cap a' = cap (ar h) -> agreeBelow (mem (ar h)) (mem a') (aused (ar h)) ->
  (p = NILPTR /\ aused a' = aused (ar h) \/ 0 < n /\ p = aused (ar h) /\ aused a' = aused (ar h) + n /\ aused a' <= cap (ar h)) ->
  Inv (blkStep (p, a') n h) /\ cap (ar (blkStep (p, a') n h)) = cap (ar h).
Proof.
  intros Hc (Hu & Hbl & Hs) Hcp Hag Hcase. assert (H8 : 8 <= aused (ar h)) by (eapply blocksOK_8; eauto).
  unfold blkStep. cbn [fst snd ar]. split; [|assumption]. unfold Inv. cbn [ar live strs].
  split; [|split].
  - destruct Hcase as [[-> ->]|(H1 & H2 & -> & H3)]; [now rewrite Hcp|]. now rewrite Hcp.
  - destruct Hcase as [[-> ->]|(H1 & -> & -> & H3)].
    + exact Hbl.
    + replace (aused (ar h) =? NILPTR) with false by (unfold NILPTR; lia). cbn [blocksOK]. repeat split; [assumption|lia|assumption].
  - eapply Forall_impl; [|exact Hs]. intros s0 H0. eapply strOK_mono; eauto. destruct Hcase as [[_ ->]|(_ & _ & -> & _)]; lia.
Qed.

Lemma Alloc_case n a : cap a < two16 -> 8 <= aused a <= cap a -> n < 2147483648 ->
  let pa := Alloc n a in
  cap (snd pa) = cap a /\ mem (snd pa) = mem a /\
  (fst pa = NILPTR /\ aused (snd pa) = aused a \/ 0 < n /\ fst pa = aused a /\ aused (snd pa) = aused a + n /\ aused (snd pa) <= cap a).
Proof.
  intros Hc [H8 Hu] Hn. unfold two16 in Hc. destruct (Alloc_spec n a) as (Hp & Hau & Hm & Hcp & _); [unfold two32; lia|].
  cbv zeta. rewrite Hcp, Hm, Hp, Hau. split; [reflexivity|]. split; [reflexivity|].
  destruct (N.eqb_spec n 0) as [->|Hn0]; cbn [negb andb]; [left; auto|].
  destruct (N.leb_spec (aused a + n) (cap a)); [right|left; auto].
  repeat split; try lia. apply u16_small. unfold two16. lia.
Qed.

Lemma AllocWithClear_case n a : cap a < two16 -> 8 <= aused a <= cap a -> n < 2147483648 ->
  let pa := AllocWithClear n a in
  cap (snd pa) = cap a /\ agreeBelow (mem a) (mem (snd pa)) (aused a) /\
  (fst pa = NILPTR /\ aused (snd pa) = aused a \/ 0 < n /\ fst pa = aused a /\ aused (snd pa) = aused a + n /\ aused (snd pa) <= cap a /\
     (forall i, mem (snd pa) i = if (aused a <=? i) && (i <? aused a + n) then 0 else mem a i)).
Proof.
  intros Hc Hu Hn. destruct (Alloc_case n a Hc Hu Hn) as (Hcp & Hm & Hcase). unfold AllocWithClear.
  destruct (Alloc n a) as [p a']. cbn [fst snd] in *.
  destruct Hcase as [[-> Hau]|(H0 & -> & Hau & Hle)].
  - rewrite Hau, N.eqb_refl. cbn [fst snd]. split; [assumption|]. split; [rewrite Hm; apply agreeBelow_refl|]. left; auto.
  - replace (aused a' =? aused a) with false by lia. cbn [fst snd cap mem aused setMem].
    rewrite (u32_diff n) by (unfold two16, two32 in *; lia).
    assert (Hz : forall i, ZeroMem (mem a') (aused a) n i = if (aused a <=? i) && (i <? aused a + n) then 0 else mem a i).
    { intros i. rewrite ZeroMem_spec, Hm. reflexivity. }
    split; [assumption|]. split; [|right; repeat split; auto].
    intros i Hi. rewrite Hz. replace (aused a <=? i) with false by lia. reflexivity.
Qed.

Lemma FreePart_spec n a : 8 <= aused a -> aused a < two32 - 8 -> n <= Used a ->
  mem (FreePart n a) = mem a /\ cap (FreePart n a) = cap a /\ aused (FreePart n a) = n + 8.
Proof.
  intros H8 Hb Hn. unfold Used, u32, PREFIX_LEN in Hn.
  replace (aused a + two32 - 8) with (aused a - 8 + 1 * two32) in Hn by (unfold two32 in *; lia).
  rewrite N.mod_add, N.mod_small in Hn by (unfold two32 in *; lia || discriminate).
  unfold FreePart. unfold PREFIX_LEN. rewrite (u32_small (n + 8)) by (unfold two32 in *; lia).
  replace (aused a <=? n) with false by lia. replace (n + 8 <? 8) with false by lia. cbn. auto.
Qed.

Lemma step_inv h o h' : cap (ar h) < two16 -> Inv h -> saneOp h o -> step h o = Some h' -> Inv h' /\ cap (ar h') = cap (ar h).
Proof.
  intros Hc Hi Hs. pose proof Hi as (Hu & Hbl & Hst). assert (H8 : 8 <= aused (ar h)) by (eapply blocksOK_8; eauto).
  assert (He : envCap (defaultEnv (Some (cap (ar h)))) (ar h)) by reflexivity.
  assert (Hc32 : cap (ar h) < two32) by (unfold two16, two32 in *; lia).
  destruct o; cbn [step saneOp] in *.
  - intros [= <-]. destruct (Alloc_case n (ar h) Hc ltac:(lia) Hs) as (H1 & H2 & H3).
    destruct (Alloc n (ar h)) as [p a']. cbn [fst snd] in *. apply blk_inv; auto. rewrite H2. apply agreeBelow_refl.
  - intros [= <-]. destruct (AllocWithClear_case n (ar h) Hc ltac:(lia) Hs) as (H1 & H2 & H3).
    destruct (AllocWithClear n (ar h)) as [p a']. cbn [fst snd] in *. apply blk_inv; auto. destruct H3 as [H3|H3]; [left; assumption|right; tauto].
  - unfold AllocEx. destruct (Alloc_case n (ar h) Hc ltac:(lia) Hs) as (H1 & H2 & H3).
    destruct (Alloc n (ar h)) as [p a']. cbn [fst snd] in *.
    destruct H3 as [[-> Hau]|(H0 & -> & Hau & Hle)].
    + rewrite Hau, N.eqb_refl. intros [= <-]. apply blk_inv; auto. rewrite H2; apply agreeBelow_refl.
    + replace (aused a' =? aused (ar h)) with false by lia. rewrite (u32_diff n) by (unfold two16, two32 in *; lia).
      intros [= <-]. apply blk_inv; auto.
      rewrite H2; apply agreeBelow_refl.
  - intros H. eapply AllocCString_inv; eauto.
  - eapply strStep_ok; eauto. apply refine_CString; assumption.
  - eapply strStep_ok; eauto. apply refine_CStringEmpty; assumption.
  - eapply strStep_ok; eauto. apply refine_Escapable; assumption.
  - eapply strStep_ok; eauto. apply refine_EscapableEmpty; assumption.
  - eapply strStep_ok; eauto. apply refine_TelNumber; assumption.
  - eapply strStep_ok; eauto. apply refine_Quoted; assumption.
  - intros [= <-]. cbn [ar cap FreeAll]. split; [|reflexivity]. unfold Inv. cbn. unfold PREFIX_LEN. split; [lia|split; [lia|constructor]].
  - intros [= <-]. destruct (FreePart_spec n (ar h) H8 ltac:(unfold two16, two32 in *; lia) Hs) as (Hm & Hcp & Hau).
    cbn [ar]. split; [|assumption]. 
    assert (Hn : n + 8 <= aused (ar h)).
    { revert Hs. unfold Used, u32, PREFIX_LEN. replace (aused (ar h) + two32 - 8) with (aused (ar h) - 8 + 1 * two32) by (unfold two32; lia).
      rewrite N.mod_add, N.mod_small by (unfold two32, two16 in *; lia || discriminate). lia. }
    unfold Inv. cbn [ar live strs]. rewrite Hcp, Hau. split; [lia|]. split.
    + replace (n + 8) with (N.min (aused (ar h)) (n + 8)) by lia. unfold PREFIX_LEN. apply blocksOK_filter; [|lia]. 
      replace (N.min (aused (ar h)) (n + 8)) with (N.min (aused (ar h)) (n + 8)) by reflexivity. exact Hbl.
    + apply Forall_forall. intros s Hin. apply filter_In in Hin as [Hin Hle]. rewrite Forall_forall in Hst.
      destruct (Hst s Hin) as [H1 H2]. split; [|unfold PREFIX_LEN in Hle; lia].
      destruct H1 as (A1 & A2 & A3 & A4). repeat split; try assumption; rewrite ?Hcp, ?Hm; assumption.
  - intros [= <-]. cbn. split; [exact Hi|reflexivity].
Qed.

Lemma Init_inv c : c + 8 < two16 -> Inv (initH c) /\ cap (ar (initH c)) = c + 8.
Proof.
  intros Hc. cbn. unfold u32, PREFIX_LEN. rewrite N.mod_small by (unfold two16, two32 in *; lia).
  unfold Inv. cbn. unfold u32, PREFIX_LEN. rewrite N.mod_small by (unfold two16, two32 in *; lia). repeat split; try lia. constructor.
Qed.

Lemma run_inv os : forall h h', cap (ar h) < two16 -> Inv h -> saneRun h os -> run h os = Some h' ->
  Inv h' /\ cap (ar h') = cap (ar h).
Proof.
  induction os as [|o os IH]; intros h h' Hc Hi Hs; cbn [run saneRun] in *; [intros [= <-]; auto|].
  destruct Hs as [Ho Hs]. destruct (step h o) as [h1|] eqn:E; [|discriminate]. intros Hr.
  destruct (step_inv _ _ _ Hc Hi Ho E) as [Hi1 Hc1]. destruct (IH h1 h') as [H1 H2]; auto; [lia|]. split; [assumption|congruence].
Qed.

(** Everything a history guarantees, in terms of Used/Left/Capacity and reading strings back. *)
Lemma history_ok c os h : c + 8 < two16 -> saneRun (initH c) os -> run (initH c) os = Some h ->
  Used (ar h) <= Capacity (ar h) /\ Capacity (ar h) = c /\ Used (ar h) + Left (ar h) = c /\
  ForallOrdPairs disjoint (live h) /\
  Forall (fun b => fst b <> NILPTR /\ 0 < snd b /\ fst b + snd b <= c + 8) (live h) /\
  Forall (fun s => fst s + len (snd s) <= c + 8 /\ (fst s < c + 8 -> readCString (ar h) (fst s) = Some (snd s))) (strs h).
Proof.
  intros Hc Hs Hr. destruct (Init_inv c Hc) as [Hi0 Hc0].
  destruct (run_inv os (initH c) h ltac:(lia) Hi0 Hs Hr) as [(Hu & Hb & Hst) Hcap]. rewrite Hc0 in Hcap.
  assert (H8 : 8 <= aused (ar h)) by (eapply blocksOK_8; eauto).
  assert (EU : Used (ar h) = aused (ar h) - 8) by (unfold Used, PREFIX_LEN; apply u32_diff; unfold two16, two32 in *; lia).
  assert (EC : Capacity (ar h) = c) by (unfold Capacity, PREFIX_LEN; apply u32_diff; unfold two16, two32 in *; lia).
  assert (EL : Left (ar h) = cap (ar h) - aused (ar h)) by (unfold Left; apply u32_diff; unfold two16, two32 in *; lia).
  rewrite EU, EC, EL, Hcap. split; [lia|]. split; [reflexivity|]. split; [lia|]. split; [eapply blocksOK_disjoint; eauto|]. split.
  - eapply Forall_impl; [|apply (blocksOK_range _ _ Hb)]. intros [p n]; cbn [fst snd]. unfold NILPTR. lia.
  - eapply Forall_impl; [|exact Hst]. intros [p b] [H1 H2]. cbn [fst snd] in *. split; [lia|]. intros Hlt.
    replace p with (u16 p) at 1 by (apply u16_small; unfold two16 in *; lia).
    apply stored_read; [unfold two16 in *; lia|lia|assumption].
Qed.

(** Data is never changed by later operations (other than freeing): a string stored before an operation
    that does not free is still listed, hence still reads back. *)
Definition noFree (o : op) : Prop := match o with OFreeAll | OFreePart _ => False | _ => True end.
Lemma step_keeps h o h' : noFree o -> step h o = Some h' -> incl (strs h) (strs h') /\ incl (live h) (live h').
Proof.
  assert (HS : forall res tok, strStep res tok h = Some h' -> incl (strs h) (strs h') /\ incl (live h) (live h')).
  { intros res tok. unfold strStep. destruct res; try discriminate; intros [= <-]; cbn; split; auto using incl_refl, incl_tl. }
  assert (HB : forall pa n, incl (strs h) (strs (blkStep pa n h)) /\ incl (live h) (live (blkStep pa n h))).
  { intros pa n. unfold blkStep. cbn. split; [apply incl_refl|]. destruct (fst pa =? NILPTR); auto using incl_refl, incl_tl. }
  destruct o; cbn [step noFree]; intros Hn; try (apply HS); try contradiction.
  - intros [= <-]. apply HB.
  - intros [= <-]. apply HB.
  - destruct (AllocEx n (ar h)) as [[p k] a']. intros [= <-]. apply HB.
  - intros [= <-]. split; apply incl_refl.
Qed.
Lemma run_keeps os : forall h h', Forall noFree os -> run h os = Some h' -> incl (strs h) (strs h') /\ incl (live h) (live h').
Proof.
  induction os as [|o os IH]; intros h h' Hf; cbn [run].
  - intros [= <-]. split; apply incl_refl.
  - inversion Hf; subst. destruct (step h o) as [h1|] eqn:E; [|discriminate]. intros Hr.
    destruct (step_keeps _ _ _ H1 E). destruct (IH _ _ H2 Hr). split; eapply incl_tran; eauto.
Qed.
Lemma run_app a : forall h b, run h (a ++ b) = match run h a with Some h' => run h' b | None => None end.
Proof. induction a as [|o a IH]; intros h b; cbn [run app]; [reflexivity|]. destruct (step h o); auto. Qed.
Lemma saneRun_app a : forall h b, saneRun h (a ++ b) -> saneRun h a.
Proof. induction a as [|o a IH]; intros h b; cbn [saneRun app]; [auto|]. intros [H1 H2]. split; [assumption|]. destruct (step h o); eauto. Qed.

Lemma history_frame c os1 os2 h1 h2 : c + 8 < two16 -> saneRun (initH c) (os1 ++ os2) -> Forall noFree os2 ->
  run (initH c) os1 = Some h1 -> run h1 os2 = Some h2 ->
  forall p b, In (p, b) (strs h1) -> p < c + 8 -> readCString (ar h1) p = Some b /\ readCString (ar h2) p = Some b.
Proof.
  intros Hc Hs Hf H1 H2 p b Hin Hp.
  assert (R : run (initH c) (os1 ++ os2) = Some h2) by (rewrite run_app, H1; exact H2).
  destruct (history_ok c os1 h1 Hc (saneRun_app _ _ _ Hs) H1) as (_ & _ & _ & _ & _ & S1).
  destruct (history_ok c (os1 ++ os2) h2 Hc Hs R) as (_ & _ & _ & _ & _ & S2).
  destruct (run_keeps os2 _ _ Hf H2) as [Hk _]. rewrite Forall_forall in S1, S2.
  split; [apply (S1 (p, b) Hin)|apply (S2 (p, b) (Hk _ Hin))]; assumption.
Qed.

(** Counters (C05): calls and requested bytes, modulo 2^32, for block operations. *)
Definition blkOp (o : op) : Prop := match o with OAlloc _ | OAllocClear _ | OAllocEx _ | OFreeAll => True | _ => False end.
Definition reqOf (o : op) : N := match o with OAlloc n | OAllocClear n | OAllocEx n => n | _ => 0 end.
Definition isAllocOp (o : op) : bool := match o with OAlloc _ | OAllocClear _ | OAllocEx _ => true | _ => false end.
Lemma u32_add x y : u32 (u32 x + y) = u32 (x + y).
Proof. unfold u32. apply N.add_mod_idemp_l. discriminate. Qed.
Lemma u32_u32 x : u32 (u32 x) = u32 x. Proof. unfold u32. apply N.mod_mod. discriminate. Qed.

Lemma Alloc_counters n a : allocNum (snd (Alloc n a)) = u32 (allocNum a + 1) /\ allocReqBytes (snd (Alloc n a)) = u32 (allocReqBytes a + n) /\
  (fst (Alloc n a) = NILPTR /\ allocNumOk (snd (Alloc n a)) = allocNumOk a /\ aused (snd (Alloc n a)) = aused a
   \/ allocNumOk (snd (Alloc n a)) = u32 (allocNumOk a + 1)).
Proof.
  unfold Alloc. destruct (n <=? 0); [cbn; intuition|]. destruct (cap a <? RoundToAlign1 (u32 (aused a + n))); cbn; intuition.
Qed.
Lemma step_counters h o h' : blkOp o -> step h o = Some h' ->
  allocNum (ar h') = u32 (allocNum (ar h) + (if isAllocOp o then 1 else 0)) \/ (isAllocOp o = false /\ allocNum (ar h') = allocNum (ar h)).
Proof.
  destruct o; cbn [blkOp step isAllocOp]; intros Hb; try contradiction.
  - intros [= <-]. left. apply Alloc_counters.
  - intros [= <-]. left. unfold blkStep, AllocWithClear. pose proof (Alloc_counters n (ar h)) as (H & _).
    destruct (Alloc n (ar h)) as [p a']. destruct (aused a' =? aused (ar h)); exact H.
  - unfold AllocEx. pose proof (Alloc_counters n (ar h)) as (H & _).
    destruct (Alloc n (ar h)) as [p a']. destruct (aused a' =? aused (ar h)); intros [= <-]; left; exact H.
  - intros [= <-]. right. auto.
Qed.
Fixpoint sumN (l : list N) : N := match l with [] => 0 | x :: l' => x + sumN l' end.
Definition countN {A} (f : A -> bool) (l : list A) : N := N.of_nat (List.length (filter f l)).
Definition isFreeAll (o : op) : bool := match o with OFreeAll => true | _ => false end.

Lemma run_counters os : forall h h', Forall blkOp os -> run h os = Some h' ->
  u32 (allocNum (ar h')) = u32 (allocNum (ar h) + countN isAllocOp os) /\
  u32 (allocReqBytes (ar h')) = u32 (allocReqBytes (ar h) + sumN (map reqOf os)) /\
  u32 (freeAllNum (ar h')) = u32 (freeAllNum (ar h) + countN isFreeAll os).
Proof.
  induction os as [|o os IH]; intros h h' Hf; cbn [run].
  - intros [= <-]. unfold countN. cbn. rewrite !N.add_0_r. auto.
  - inversion Hf as [|? ? Ho Hos]; subst. destruct (step h o) as [h1|] eqn:E; [|discriminate]. intros Hr.
    destruct (IH _ _ Hos Hr) as (I1 & I2 & I3). clear IH Hr.
    assert (Hst : u32 (allocNum (ar h1)) = u32 (allocNum (ar h) + countN isAllocOp [o]) /\
      u32 (allocReqBytes (ar h1)) = u32 (allocReqBytes (ar h) + reqOf o) /\
      u32 (freeAllNum (ar h1)) = u32 (freeAllNum (ar h) + countN isFreeAll [o])).
    { assert (HA : forall n, freeAllNum (snd (Alloc n (ar h))) = freeAllNum (ar h)).
      { intros n. unfold Alloc. destruct (n <=? 0); [reflexivity|]. now destruct (cap (ar h) <? RoundToAlign1 (u32 (aused (ar h) + n))). }
      destruct o; cbn [blkOp step] in *; try contradiction;
      unfold countN; cbn [isAllocOp isFreeAll filter List.length reqOf N.of_nat].
      - injection E as <-. cbn [blkStep ar snd]. pose proof (Alloc_counters n (ar h)) as (H1 & H2 & _).
        rewrite H1, H2, HA, !u32_u32, N.add_0_r. auto.
      - injection E as <-. unfold AllocWithClear. pose proof (Alloc_counters n (ar h)) as (H1 & H2 & _). specialize (HA n).
        destruct (Alloc n (ar h)) as [p a']. cbn [fst snd] in *.
        destruct (aused a' =? aused (ar h)); cbn [blkStep ar snd allocNum allocReqBytes freeAllNum setMem]; rewrite H1, H2, HA, !u32_u32, N.add_0_r; auto.
      - unfold AllocEx in E. pose proof (Alloc_counters n (ar h)) as (H1 & H2 & _). specialize (HA n).
        destruct (Alloc n (ar h)) as [p a']. cbn [fst snd] in *.
        destruct (aused a' =? aused (ar h)); injection E as <-; cbn [blkStep ar snd]; rewrite H1, H2, HA, !u32_u32, N.add_0_r; auto.
      - injection E as <-. cbn. rewrite !N.add_0_r, u32_u32. auto. }
    destruct Hst as (S1 & S2 & S3).
    assert (HC : forall (f : op -> bool), countN f (o :: os) = countN f [o] + countN f os).
    { intros f. unfold countN. cbn [filter]. destruct (f o); cbn [List.length filter]; lia. }
    cbn [map sumN]. rewrite !HC. rewrite I1, I2, I3.
    rewrite <- (u32_add (allocNum (ar h1))), <- (u32_add (allocReqBytes (ar h1))), <- (u32_add (freeAllNum (ar h1))).
    rewrite S1, S2, S3, !u32_add, !N.add_assoc. auto.
Qed.

(** A failed allocation changes neither [used] nor memory. *)
Lemma Alloc_fail n a : fst (Alloc n a) = NILPTR -> cap a < two16 -> 8 <= aused a <= cap a -> n < 2147483648 ->
  Used (snd (Alloc n a)) = Used a /\ mem (snd (Alloc n a)) = mem a.
Proof.
  intros H Hc Hu Hn. destruct (Alloc_case n a Hc Hu Hn) as (H1 & H2 & [[H3 H4]|(H3 & H4 & H5 & H6)]).
  - split; [|assumption]. unfold Used. now rewrite H4.
  - exfalso. rewrite H in H4. unfold NILPTR in H4. lia.
Qed.

(** Refutations. *)
(** FreePart above Used() by less than the prefix length grows [used] past the data. *)
Lemma FreePart_grows : exists a, Used a = 0 /\ Used (FreePart 7 a) = 7.
Proof. exists (Init 100). vm_compute. auto. Qed.
(** ... and even past the arena. *)
Lemma FreePart_beyond : exists a n, Used a <= Capacity a /\ Used a <= n /\ Capacity a < Used (FreePart n a).
Proof. exists (Init 3), 7. vm_compute. intuition discriminate. Qed.
(** A request near 2^32 "succeeds" and moves [used] backwards. *)
Lemma Alloc_wraps : exists a n, n < two32 /\ Capacity a < n /\ fst (Alloc n a) <> NILPTR /\ Used (snd (Alloc n a)) < Used a.
Proof. exists (snd (Alloc 50 (Init 100))), (two32 - 40). vm_compute. intuition discriminate. Qed.
(** Arenas above 65535 bytes: the 16-bit pointer wraps and two live blocks get the same address; a block can be "nil". *)
Lemma Alloc_ptr_wraps : exists c, fst (Alloc 8 (Init c)) = fst (Alloc 8 (snd (Alloc 65528 (snd (Alloc 8 (Init c)))))) /\
  fst (Alloc 8 (Init c)) <> NILPTR.
Proof. exists 100000. vm_compute. intuition discriminate. Qed.
Lemma Alloc_ptr_nil : exists c n, let a := snd (Alloc n (Init c)) in
  fst (Alloc 8 a) = NILPTR /\ Used (snd (Alloc 8 a)) = Used a + 8.
Proof. exists 100000, 65528. vm_compute. auto. Qed.
(** The string-storing parses overwrite the requested-bytes statistic instead of adding to it. *)
Lemma reqBytes_overwritten : exists a r, match ParseAndAllocCString DIGIT a r with
  | AOk _ a' _ => allocReqBytes a = 50 /\ allocReqBytes a' = 2 | _ => False end.
Proof. exists (snd (Alloc 50 (Init 100))), (s2b "12;"). vm_compute. auto. Qed.

(** Boolean check of [saneRun], for concrete histories. *)
Definition saneOpb (h : hist) (o : op) : bool :=
  match o with
  | OAlloc n | OAllocClear n | OAllocEx n => n <? 2147483648
  | OString b => len b <? 2147483640
  | OFreePart n => n <=? Used (ar h)
  | _ => true
  end.
Fixpoint saneRunb (h : hist) (os : list op) : bool :=
  match os with
  | [] => true
  | o :: os' => saneOpb h o && match step h o with Some h' => saneRunb h' os' | None => true end
  end.
Lemma saneRunb_ok os : forall h, saneRunb h os = true -> saneRun h os.
Proof.
  induction os as [|o os IH]; intros h; cbn [saneRunb saneRun]; [auto|].
  intros H. apply andb_prop in H as [H1 H2]. split.
  - destruct o; cbn [saneOpb saneOp] in *; try exact I; lia.
  - destruct (step h o); [apply IH; assumption|exact I].
Qed.
