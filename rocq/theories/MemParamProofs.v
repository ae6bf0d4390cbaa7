(** Putting a parsed parameter into the table of recognised ones or at the end of the list. *)
From Verif Require Import Base Charset BaseLemmas Num Lws Str Monad Arena ArenaProofs ArenaOpsProofs Layout Mem MemSim MemTac MemRep MemList.

Section Params.
  Context {A : Type} (node : (N -> N) -> N -> N -> A -> Prop) (size next : N) (names : list bytes) (nameOf : A -> bytes).
  Hypothesis Hnext : next + 2 <= size.
  Hypothesis node_frame : forall m m' p q x, (forall i, p <= i < q -> ~ inR (p + next) 2 i -> m' i = m i) -> node m p q x -> node m' p q x.
  Variable e : env.
  Let n := N.of_nat (List.length names).
  Hypothesis Hn : 0 < n /\ n < 400.
  Notation LI := (LInv node size next n).

  Lemma node_agree m m' p q x : agreeR m m' p q -> node m p q x -> node m' p q x.
  Proof. intros Ag. apply node_frame. intros i Hi _. now apply Ag. Qed.

  (** The new node [p, q) comes after everything in the list so far ([hi]). *)
  Lemma sim_append (W : N -> Prop) lo hi t k l x p q hp a r :
    wfA e a -> LI (mem a) lo hi (fst hp) (snd hp) t k l -> hi <= p -> p + size <= q -> q <= aused a -> node (mem a) p q x -> g16 (mem a) (p + next) = NILPTR ->
    (forall i, snd hp <> NILPTR -> inR (snd hp + next) 2 i -> W i) ->
    forall (v : list A), v = l ++ [x] ->
    sim e W (mAppend next hp p) (ret v) (fun a' hp' v' => LI (mem a') lo (aused a') (fst hp') (snd hp') t k v' /\ keeps (from lo) a a' /\ aused a' = aused a /\ snd hp' = p) a r.
  Proof.
    intros Hw HL L1 L2 L3 Hx Hz HW v ->. num Hw. pose proof (LInv_head _ _ _ _ Hnext node_frame _ _ _ _ _ _ _ _ HL) as (_ & Hpv & _ & Hlh).
    unfold mAppend. destruct (N.eqb_spec (snd hp) NILPTR) as [E|E].
    - apply sim_ret; [exact Hw|]. cbn [fst snd]. split; [|split; [apply (keeps_refl _ e a Hw)|split; reflexivity]].
      replace p with (if snd hp =? NILPTR then p else fst hp) at 1 by (rewrite E; reflexivity).
      eapply (LInv_append node size next n Hnext node_frame (mem a)); eauto; try congruence; try (intros _ i Hi; reflexivity).
    - destruct Hpv as [Hpv|Hpv]; [congruence|]. apply sim_set16; [exact Hw|unfold two16; lia|intros i Hi Hr; apply HW; [exact E|exact Hr]|].
      intros a1 Hw1 K1 U1 V1. num K1. apply sim_ret; [exact Hw1|]. cbn [fst snd]. split; [|split; [eapply keeps_sub; [exact K1|slia]|split; [exact U1|reflexivity]]].
      replace (fst hp) with (if snd hp =? NILPTR then p else fst hp) at 1 by (replace (snd hp =? NILPTR) with false by lia; reflexivity).
      eapply (LInv_append node size next n Hnext node_frame (mem a)); eauto; try congruence; try lia.
      + intros i Hi _ Hr. apply K1; [|exact Hr]. destruct HL as (H8 & _). lia.
      + destruct HL as (H8 & _). eapply node_agree; [|exact Hx]. agr K1.
      + destruct HL as (H8 & _). eapply g16_frame; [|exact Hz]. agr K1.
  Qed.

  Lemma findName_lt ns b : forall i j, findName ns b i = Some j -> (i <= j < i + List.length ns)%nat.
  Proof.
    induction ns as [|y ns IH]; intros i j; cbn [findName List.length]; [discriminate|]. destruct (equalNoCase b y).
    - intros E. injection E as <-. lia.
    - intros E. apply IH in E. lia.
  Qed.

  (** The bytes written: the field [knownParams], the table, the [next] field of the last element. *)
  Definition apW (tbl t prev : N) : N -> Prop := fun i => inR tbl 2 i \/ (t <> NILPTR /\ inR t (2 * n) i) \/ (prev <> NILPTR /\ inR (prev + next) 2 i).
  (** The table afterwards: the same one, none, or a new one. *)
  Definition newT (tbl : N) (a a' : arena) : Prop := g16 (mem a') tbl = g16 (mem a) tbl \/ g16 (mem a') tbl = NILPTR \/ aused a <= g16 (mem a') tbl.
  Lemma sim_setKnown lo hi tbl k l x p q np hp a r :
    wfA e a -> LI (mem a) lo hi (fst hp) (snd hp) (g16 (mem a) tbl) k l -> hi <= p -> p + size <= q -> q <= aused a -> node (mem a) p q x ->
    str (mem a) (p + size) q np (nameOf x) -> np < aused a -> 8 <= tbl -> tbl + 2 <= lo -> (4 < n -> bigTables e = true) ->
    sim e (apW tbl (g16 (mem a) tbl) (snd hp)) (mSetKnown names tbl np p) (setKnown names nameOf k x)
        (fun a' d o => match o with
                       | None => d = false /\ a' = a
                       | Some k' => d = true /\ LI (mem a') lo (aused a') (fst hp) (snd hp) (g16 (mem a') tbl) k' l /\ newT tbl a a' end) a r.
  Proof.
    intros Hw HL L1 L2 L3 Hx Hs Hnp Ht8 Htl Hbig. num Hw. pose proof HL as (H8 & _).
    pose proof (LInv_head _ _ _ _ Hnext node_frame _ _ _ _ _ _ _ _ HL) as (_ & _ & Ht & Hlh).
    set (t := g16 (mem a) tbl) in *. unfold mSetKnown. apply sim_get16. fold t.
    assert (G : forall (W : N -> Prop) (f : unit -> M bool) (pp : P (option (known A))) Q, sim e W (f tt) pp Q a r -> sim e W (mbind (if t =? NILPTR then mret tt else deref t) f) pp Q a r).
    { intros W f pp Q. destruct (N.eqb_spec t NILPTR); [exact (fun H => H)|]. apply sim_deref0; [exact Hw|]. lia. }
    apply G. clear G.
    assert (G : forall (W : N -> Prop) (f : option nat -> M bool) (pp : P (option (known A))) Q, sim e W (f (findName names (nameOf x) 0)) pp Q a r -> sim e W (mbind (mFindName names np) f) pp Q a r).
    { intros W f pp Q H. unfold sim, mbind, mFindName in *. rewrite (str_read e a (p + size) q np (nameOf x)); [exact H|exact Hw|exact Hs|lia|lia]. }
    apply G. clear G. unfold setKnown. destruct (findName names (nameOf x) 0) as [i|] eqn:Ef; [|apply sim_ret; auto].
    apply findName_lt in Ef. assert (Hi : (i < N.to_nat n)%nat) by (unfold n; lia). destruct k as [tb|].
    - (* an existing table *)
      pose proof HL as (_ & tr & _ & _ & _ & _ & (A1 & A2 & _)).
      replace (t =? NILPTR) with false by (unfold NILPTR; lia). apply sim_ret_bind.
      apply sim_set16; [exact Hw|unfold two16; lia|unfold apW, NILPTR; slia|]. intros a1 Hw1 K1 U1 V1. num K1. apply sim_ret; [exact Hw1|]. split; [reflexivity|].
      assert (Et : g16 (mem a1) tbl = t) by (eapply g16_frame; [|reflexivity]; agr K1). split; [|left; exact Et]. rewrite Et.
      eapply (LInv_known node size next n Hnext node_frame (mem a)); eauto; try lia.
      + intros j Hj Hr. apply K1; [lia|exact Hr].
      + eapply node_agree; [|exact Hx]. agr K1.
    - (* the table is allocated now *)
      assert (Et : t = NILPTR). { destruct HL as (_ & tr & _ & _ & _ & _ & T). exact T. }
      rewrite Et. cbn [NILPTR N.eqb]. rewrite N.eqb_refl. fold n.
      pose proof (AllocWithClear_iff e (2 * n) a Hw ltac:(lia) ltac:(lia)) as Hal.
      unfold sim. unfold leMem. rewrite (proj1 Hw). cbn [used rest].
      destruct (N.leb_spec (aused a + 2 * n) (cap a)) as [L|L].
      + destruct Hal as (a1 & Eal & K1 & U1 & Z1 & O1). pose proof (keeps_wf _ _ _ _ Hw K1) as Hw1. num K1.
        assert (G : sim e (orS (inR tbl 2) (from (aused a))) (set16 tbl (aused a) ;~ deref (aused a) ;~ set16 (aused a + 2 * N.of_nat i) p ;~ mret true) (ret tt)
           (fun a' d _ => d = true /\ aused a' = aused a1 /\ LI (mem a') lo (aused a') (fst hp) (snd hp) (g16 (mem a') tbl) (Some (setNth (repeat None (N.to_nat n)) i (Some x))) l /\ newT tbl a a') a1 r).
        { apply sim_set16; [exact Hw1|unfold two16; lia|slia|]. intros a2 Hw2 K2 U2 V2. num K2. repeat carry1 K2.
          apply sim_deref0; [exact Hw2|lia|]. apply sim_set16; [exact Hw2|unfold two16; lia|slia|]. intros a3 Hw3 K3 U3 V3. num K3. repeat carry1 K3.
          apply sim_ret; [exact Hw3|]. split; [reflexivity|]. split; [congruence|]. split; [|right; right; rewrite V2; apply N.le_refl]. rewrite V2.
          assert (Ag : agreeR (mem a) (mem a3) lo (aused a)).
          { intros j Hj. rewrite (proj2 (proj2 (proj2 K3))) by slia. rewrite (proj2 (proj2 (proj2 K2))) by slia. apply K1; [lia|slia]. }
          eapply (LInv_known1 node size next n Hnext node_frame (mem a) (mem a3) lo hi (aused a3)); eauto; try lia.
          - eapply agreeR_sub; [exact Ag|lia|lia].
          - eapply node_agree; [|exact Hx]. eapply agreeR_sub; [exact Ag|lia|lia].
          - intros j Hj. destruct (Nat.eqb_spec j i) as [->|Hne]; [exact V3|].
            assert (Z : g16 (mem a2) (aused a + 2 * N.of_nat j) = 0) by (unfold g16; rewrite !Z1 by lia; reflexivity).
            eapply g16_frame; [|exact Z]. agr K3. }
        unfold sim, ret in G. destruct G as (d & a' & G1 & G2 & G3 & -> & G5 & G6).
        unfold mNewX, mbind at 1 2. rewrite Eal. unfold mbind in *. cbn [rest used] in *.
        destruct (set16 tbl (aused a) e a1 r) as [y0 a2 r2| | |]; try discriminate. destruct (deref (aused a) e a2 r2) as [y1 a3 r3| | |]; try discriminate.
        exists true, a'. unfold mret in *. cbn [rest used]. destruct (set16 (aused a + 2 * N.of_nat i) p e a3 r3) as [y2 a4 r4| | |]; try discriminate.
        split; [exact G1|]. split; [congruence|]. split; [|split; [reflexivity|]].
        * apply (keeps_sub _ (apW tbl NILPTR (snd hp))) in K1; [|unfold apW; slia]. eapply keeps_trans; [exact K1|]. eapply keeps_sub; [exact G3|]. unfold apW; slia.
        * replace (List.length names) with (N.to_nat n) by (unfold n; lia). exact G6.
      + destruct Hal as (a1 & Eal & K1 & U1 & M1). pose proof (keeps_wf _ _ _ _ Hw K1) as Hw1. num K1.
        destruct (Nat.ltb_spec i 4) as [Li|Li].
        * assert (G : sim e (orS (inR tbl 2) (from (aused a))) (set16 tbl NILPTR ;~ deref NILPTR ;~ set16 (NILPTR + 2 * N.of_nat i) p ;~ mret true) (ret tt)
             (fun a' d _ => d = true /\ aused a' = aused a1 /\ LI (mem a') lo (aused a') (fst hp) (snd hp) (g16 (mem a') tbl) None l /\ newT tbl a a') a1 r).
          { apply sim_set16; [exact Hw1|reflexivity|slia|]. intros a2 Hw2 K2 U2 V2. num K2. repeat carry1 K2.
            apply sim_deref0; [exact Hw2|unfold NILPTR; lia|]. apply sim_set16; [exact Hw2|unfold two16; lia|unfold NILPTR; slia|]. intros a3 Hw3 K3 U3 V3.
            num K3. unfold NILPTR in K3. repeat carry1 K3.
            apply sim_ret; [exact Hw3|]. split; [reflexivity|]. split; [congruence|]. split; [|right; left; exact V2]. rewrite V2. rewrite Et in HL.
            eapply (LInv_frame node size next n Hnext node_frame); [|  |exact HL]; [|lia].
            intros j Hj. transitivity (mem a2 j); [apply K3; slia|]. transitivity (mem a1 j); [apply K2; slia|]. now rewrite M1. }
          unfold sim, ret in G. destruct G as (d & a' & G1 & G2 & G3 & -> & G5 & G6).
          unfold mNewX, mbind at 1 2. rewrite Eal. unfold mbind in *. cbn [rest used] in *.
          destruct (set16 tbl NILPTR e a1 r) as [y0 a2 r2| | |]; try discriminate. destruct (deref NILPTR e a2 r2) as [y1 a3 r3| | |]; try discriminate.
          exists true, a'. unfold mret in *. cbn [rest used]. destruct (set16 (NILPTR + 2 * N.of_nat i) p e a3 r3) as [y2 a4 r4| | |]; try discriminate.
          split; [exact G1|]. split; [congruence|]. split; [|split; [reflexivity|exact G6]].
          apply (keeps_sub _ (apW tbl NILPTR (snd hp))) in K1; [|unfold apW; slia]. eapply keeps_trans; [exact K1|]. eapply keeps_sub; [exact G3|]. unfold apW; slia.
        * intros Hb. rewrite Hbig in Hb by lia. discriminate.
  Qed.

  (** SetKnownParams when it is called at all, then the list. *)
  Lemma sim_addParam on lo hi tbl k l x p q np hp a r :
    wfA e a -> LI (mem a) lo hi (fst hp) (snd hp) (g16 (mem a) tbl) k l -> hi <= p -> p + size <= q -> q <= aused a -> node (mem a) p q x -> g16 (mem a) (p + next) = NILPTR ->
    str (mem a) (p + size) q np (nameOf x) -> np < aused a -> 8 <= tbl -> tbl + 2 <= lo -> (on = true -> 4 < n -> bigTables e = true) ->
    sim e (apW tbl (g16 (mem a) tbl) (snd hp))
        (done <~ (if on : bool then mSetKnown names tbl np p else mret false) ;; if done : bool then mret hp else mAppend next hp p)
        (addParam on names nameOf (k, l) x)
        (fun a' hp' kl => LI (mem a') lo (aused a') (fst hp') (snd hp') (g16 (mem a') tbl) (fst kl) (snd kl) /\ (snd hp' = snd hp \/ snd hp' = p) /\ newT tbl a a') a r.
  Proof.
    intros Hw HL L1 L2 L3 Hx Hz Hs Hnp Ht8 Htl Hbig. unfold addParam. cbn [fst snd].
    assert (Fin : forall W : N -> Prop, (forall i, snd hp <> NILPTR -> inR (snd hp + next) 2 i -> W i) -> sim e W (mAppend next hp p) (ret (k, l ++ [x])) (fun a' hp' kl => LI (mem a') lo (aused a') (fst hp') (snd hp') (g16 (mem a') tbl) (fst kl) (snd kl) /\ (snd hp' = snd hp \/ snd hp' = p) /\ newT tbl a a') a r).
    { intros W HW. pose proof (sim_append W lo hi _ k l x p q hp a r Hw HL L1 L2 L3 Hx Hz HW _ eq_refl) as S. revert S. unfold sim, ret. cbn [rest used].
      intros (hp' & a' & S1 & S2 & S3 & S4 & S5 & S6 & S7). exists hp', a'. split; [exact S1|]. split; [exact S2|]. split; [exact S3|]. cbn [fst snd].
      assert (Et : g16 (mem a') tbl = g16 (mem a) tbl). { eapply g16_frame; [|reflexivity]. num Hw.
      pose proof (LInv_head _ _ _ _ Hnext node_frame _ _ _ _ _ _ _ _ HL) as (_ & _ & _ & Hlh). agr S5. }
      split; [rewrite Et; exact S4|]. split; [right; exact S7|left; exact Et]. }
    destruct on.
    - eapply (sim_bind e _ (apW tbl (g16 (mem a) tbl) (snd hp))); [eapply sim_setKnown; eauto|exact Hw|auto|].
      intros d o a1 r1 Hw1 K1 HQ. destruct o as [k'|].
      + destruct HQ as (-> & HQ & HT). apply sim_ret; auto.
      + destruct HQ as (-> & ->). cbn [fst snd]. revert Fin. unfold sim, ret. cbn [rest used]. intros Fin.
        destruct (Fin (apW tbl (g16 (mem a) tbl) (snd hp)) ltac:(unfold apW; slia)) as (hp' & a' & S1 & S2 & S3 & S4).
        exists hp', a'. assert (Er : mAppend next hp p e a r1 = MOk hp' a' r1).
        { revert S1. unfold mAppend, mret, mbind, set16. destruct (snd hp =? NILPTR); intros S1; injection S1 as <- <-; reflexivity. }
        split; [exact Er|]. split; [exact S2|]. split; [|exact S4]. eapply keeps_sub; [exact S3|]. intros i0 _ Hi0. left. exact Hi0.
    - apply sim_ret_bind. apply Fin. unfold apW. slia.
  Qed.
End Params.
