(** Header blocks and messages on the arena simulate the value layer. *)
From Verif Require Import Base Charset BaseLemmas Num Lws Str Monad MethodTree HeaderTree Lookup NameSpec NameProofs Host Uri Tel GenParam Addr StartLine Headers RawHeaders Msg Arena ArenaProofs ArenaOpsProofs StrProofs ArenaTop Layout Mem MemSim MemTac MemUri MemRep MemList Inv MemHostProofs MemParamProofs MemUriProofs MemSipUriProofs MemEnc MemEncProofs MemTel MemTelProofs MemGen MemGenProofs MemAddr MemAddrProofs MemSteps MemStart MemStartProofs MemHdr MemHdrProofs MemBlocks MemMsg.

(** ** The representation *)
(** The header type of entry [s] of the array commonHeaders, and whether its values form a list. *)
Definition slotKind (o : owner) (s : nat) : option (hkind * bool) :=
  match nth_error (slotIndexes o) s with
  | Some i => match infoOf i with
              | Some x => match hiKind x with Some k => Some (k, hiMulti x) | None => None end
              | None => None
              end
  | None => None
  end.
(** What was stored: a raw header, or a value of entry [s]. *)
Inductive item := IRaw (r : raw) | IVal (s : nat) (v : hval).
Definition itemLid (x : item) : nat := match x with IRaw _ => 0%nat | IVal s _ => S s end.
Definition itemNext (o : owner) (x : item) : option N :=
  match x with
  | IRaw _ => Some 6
  | IVal s _ => match slotKind o s with Some (k, true) => Some (nextOff k) | _ => None end
  end.
(** The main type of a Content-Type is not empty. *)
Definition mainOk (v : hval) : Prop := match v with VType t _ _ _ => t <> [] | _ => True end.
(** A SipHeader: its name is stored before it, its value after it. *)
Definition repRaw (m : N -> N) (b p q : N) (r : raw) : Prop :=
  b <= p /\ p + 8 <= q /\ g16 m p = rId r /\ ostr m b p (g16 m (p + 2)) (rName r) /\ str m (p + 8) q (g16 m (p + 4)) (rValue r).
Definition itemOk (o : owner) (m : N -> N) (b p q : N) (x : item) : Prop :=
  match x with
  | IRaw r => repRaw m b p q r
  | IVal s v => match slotKind o s with
                | Some (k, _) => b = p /\ p + hvalSize k <= q /\ repHVal k m p (p + hvalSize k) q v /\ mainOk v
                | None => False
                end
  end.
Notation ltr := (list (N * N * N * item)).
Definition iptrs : nat -> ltr -> list N := ptrsOf itemLid.
Definition ivals : nat -> ltr -> list item := valsOf itemLid.
Definition lastL {A} (l : list A) : list A := match rev l with [] => [] | x :: _ => [x] end.
(** Entry [s]: the list of the values, or the last value. *)
Definition slotInv (o : owner) (m : N -> N) (this : N) (tr : ltr) (h : hset) (s : nat) : Prop :=
  let head := g16 m (slotAt o this s) in
  match slotKind o s with
  | Some (k, true) => chain (nextOff k) m head (iptrs (S s) tr) /\ ivals (S s) tr = map (IVal s) (nth s (hsCommon h) [])
  | _ => head = last (iptrs (S s) tr) NILPTR /\ lastL (ivals (S s) tr) = map (IVal s) (nth s (hsCommon h) [])
  end.
Definition rawInv (o : owner) (m : N -> N) (this : N) (tr : ltr) (h : hset) : Prop :=
  chain 6 m (g16 m (this + rawOff o)) (iptrs 0 tr) /\ ivals 0 tr = map IRaw (hsRaw h).
Definition HInv (o : owner) (m : N -> N) (this lo hi : N) (h : hset) : Prop :=
  exists tr, blocks (itemOk o) m lo hi tr /\ rawInv o m this tr h /\ List.length (hsCommon h) = slotsNum o /\ forall s, (s < slotsNum o)%nat -> slotInv o m this tr h s.

Lemma multi_next o s k : slotKind o s = Some (k, true) -> nextOff k + 2 = hvalSize k.
Proof.
  intros H. assert (L : (s < 19)%nat).
  { unfold slotKind in H. destruct (nth_error (slotIndexes o) s) eqn:E; [|discriminate]. assert (nth_error (slotIndexes o) s <> None) by congruence. apply nth_error_Some in H0. destruct o; cbn in H0; lia. }
  destruct o; do 19 (destruct s as [|s]; [vm_compute in H; first [discriminate|injection H as <-; reflexivity]|]); exfalso; lia.
Qed.
Lemma itemOk_frame o m m' b p q x : (forall i, b <= i < q -> ~ nextR (itemNext o) x p i -> m' i = m i) -> itemOk o m b p q x -> itemOk o m' b p q x.
Proof.
  intros A. destruct x as [r|s v]; cbn [itemOk].
  - unfold nextR in A. cbn [itemNext] in A. intros (H1 & H2 & H3 & H4 & H5). split; [exact H1|]. split; [exact H2|].
    assert (E : forall i, p <= i -> i + 2 <= p + 6 -> g16 m' i = g16 m i) by (intros i L1 L2; unfold g16; rewrite !A by slia; reflexivity).
    rewrite !E by lia. split; [exact H3|]. split; [eapply ostr_frame; [|exact H4]; intros i Hi; apply A; slia|eapply str_frame; [|exact H5]; intros i Hi; apply A; slia].
  - unfold nextR in A. cbn [itemNext] in A. destruct (slotKind o s) as [[k multi]|] eqn:E; [|auto]. intros (-> & H2 & H3 & H4). split; [reflexivity|]. split; [exact H2|]. split; [|exact H4].
    pose proof (nextOff_le k). assert (G : forall i, p <= i < q -> ~ inR (p + nextOff k) (hvalSize k - nextOff k) i -> m' i = m i).
    { intros i Hi Hn. apply A; [exact Hi|]. destruct multi; [|auto]. pose proof (multi_next o s k E). slia. }
    eapply repHVal_frame0; [| |exact H3]; intros i Hi; apply G; slia.
Qed.
Lemma itemOk_in o m b p q x : itemOk o m b p q x -> b <= p /\ p < q /\ forall n, itemNext o x = Some n -> p + n + 2 <= q.
Proof.
  destruct x as [r|s v]; cbn [itemOk itemNext].
  - intros (H1 & H2 & _). split; [exact H1|]. split; [lia|]. intros n E. injection E as <-. lia.
  - destruct (slotKind o s) as [[k multi]|] eqn:E; [|intros []]. intros (-> & H2 & _). pose proof (hInit_le k). split; [lia|]. split; [lia|]. destruct multi; [|discriminate].
    intros n En. injection En as <-. pose proof (multi_next o s k E). lia.
Qed.
Lemma lastL_snoc {A} (l : list A) x : lastL (l ++ [x]) = [x].
Proof. unfold lastL. rewrite rev_app_distr. reflexivity. Qed.

(** One write. *)
Lemma keeps_write e a (W : N -> Prop) p v : wfA e a -> (forall i, inR p 2 i -> W i) -> keeps W a (setMem a (p16 (mem a) p v)).
Proof. intros Hw HW. destruct Hw as (_ & _ & _ & Hc). split; [reflexivity|]. split; [cbn; lia|]. split; [exact Hc|]. intros i _ Hi. cbn. apply p16_other. auto. Qed.
Lemma g16_write m p v q : q + 2 <= p \/ p + 2 <= q -> g16 (p16 m p v) q = g16 m q.
Proof. intros H. apply g16_p16_other. lia. Qed.
Lemma agree_write m p v l h : (forall i, l <= i < h -> ~ inR p 2 i) -> agreeR m (p16 m p v) l h.
Proof. intros H i Hi. apply p16_other. auto. Qed.

Section HInv.
  Variable o : owner.
  Let fr := itemOk_frame o.
  Let inn := itemOk_in o.
  Lemma slotInv_ext m m' this tr h s : g16 m' (slotAt o this s) = g16 m (slotAt o this s) ->
    (forall k p, slotKind o s = Some (k, true) -> In p (iptrs (S s) tr) -> g16 m' (p + nextOff k) = g16 m (p + nextOff k)) -> slotInv o m this tr h s -> slotInv o m' this tr h s.
  Proof.
    intros E H. unfold slotInv. rewrite E. destruct (slotKind o s) as [[k []]|]; auto. intros (H1 & H2). split; [|exact H2]. eapply chain_ext; [|exact H1]. intros p Hp. now apply H.
  Qed.
  Lemma rawInv_ext m m' this tr h : g16 m' (this + rawOff o) = g16 m (this + rawOff o) ->
    (forall p, In p (iptrs 0 tr) -> g16 m' (p + 6) = g16 m (p + 6)) -> rawInv o m this tr h -> rawInv o m' this tr h.
  Proof. intros E H. unfold rawInv. rewrite E. intros (H1 & H2). split; [|exact H2]. eapply chain_ext; [|exact H1]. exact H. Qed.
  (** The field next of an element of the list [j] lies in [lo, hi). *)
  Lemma iptrs_next m lo hi tr j p n : blocks (itemOk o) m lo hi tr -> In p (iptrs j tr) -> (forall x, itemLid x = j -> itemNext o x = Some n) -> lo <= p /\ p + n + 2 <= hi.
  Proof.
    intros H Hp Hn. apply ptrsOf_in in Hp as (b & q & x & Hin & El). pose proof (blocks_in inn H Hin) as (L1 & L2 & Ho). apply inn in Ho as (L3 & L4 & L5). specialize (L5 n (Hn x El)). lia.
  Qed.
  Lemma next_raw x : itemLid x = 0%nat -> itemNext o x = Some 6.
  Proof. destruct x; [reflexivity|discriminate]. Qed.
  Lemma next_slot s k : slotKind o s = Some (k, true) -> forall x, itemLid x = S s -> itemNext o x = Some (nextOff k).
  Proof. intros E x. destruct x as [r|s' v]; [discriminate|]. cbn [itemLid itemNext]. intros Es. injection Es as ->. now rewrite E. Qed.
  Lemma slotAt_apart this s s' : (s < slotsNum o)%nat -> (s' < slotsNum o)%nat -> s <> s' ->
    slotAt o this s + 2 <= slotAt o this s' \/ slotAt o this s' + 2 <= slotAt o this s.
  Proof. intros. unfold slotAt. lia. Qed.
  Lemma slotAt_raw this s : (s < slotsNum o)%nat -> slotAt o this s + 2 <= this + rawOff o \/ this + rawOff o + 2 <= slotAt o this s.
  Proof. unfold slotAt, slotsOff, rawOff, slotsNum. destruct o; lia. Qed.

  Lemma HInv_frame m m' this lo hi h : agreeR m m' lo hi -> (forall s, (s < slotsNum o)%nat -> g16 m' (slotAt o this s) = g16 m (slotAt o this s)) ->
    g16 m' (this + rawOff o) = g16 m (this + rawOff o) -> HInv o m this lo hi h -> HInv o m' this lo hi h.
  Proof.
    intros A E1 E2 (tr & H1 & H2 & H3 & H4). exists tr. split; [eapply (blocks_agree fr inn); eauto|]. split; [|split; [exact H3|]].
    - eapply rawInv_ext; [exact E2| |exact H2]. intros p Hp. pose proof (iptrs_next _ _ _ _ _ _ _ H1 Hp next_raw). unfold g16. rewrite !A by lia. reflexivity.
    - intros s Hs. eapply slotInv_ext; [apply E1, Hs| |apply H4, Hs]. intros k p Ek Hp. pose proof (iptrs_next _ _ _ _ _ _ _ H1 Hp (next_slot s k Ek)). unfold g16. rewrite !A by lia. reflexivity.
  Qed.
  Lemma HInv_hi m this lo hi hi' h : HInv o m this lo hi h -> hi <= hi' -> HInv o m this lo hi' h.
  Proof. intros (tr & H1 & H2) L. exists tr. split; [eapply blocks_hi; eauto|exact H2]. Qed.
  Lemma HInv_empty m this lo hi : lo <= hi -> (forall s, (s < slotsNum o)%nat -> g16 m (slotAt o this s) = NILPTR) -> g16 m (this + rawOff o) = NILPTR -> HInv o m this lo hi (emptyHdrs o).
  Proof.
    intros L E1 E2. exists []. split; [exact L|]. split; [split; [exact E2|reflexivity]|]. split; [destruct o; reflexivity|].
    intros s Hs. assert (En : nth s (hsCommon (emptyHdrs o)) [] = []) by (unfold emptyHdrs; cbn [hsCommon]; apply nth_repeat). unfold slotInv. rewrite En, (E1 s Hs).
    destruct (slotKind o s) as [[k []]|]; split; reflexivity.
  Qed.

  (** The addresses SetHeaders writes to. *)
  Definition hdrW (this lo : N) : N -> Prop := orS (orS (inR (this + slotsOff o) (2 * N.of_nat (slotsNum o))) (inR (this + rawOff o) 2)) (from lo).

  Lemma slotInv_snoc m this tr h h' t s : itemLid (snd t) <> S s -> nth s (hsCommon h') [] = nth s (hsCommon h) [] -> slotInv o m this tr h s -> slotInv o m this (tr ++ [t]) h' s.
  Proof.
    destruct t as [[[b p] q] x]. cbn [snd]. intros Hl En. unfold slotInv, iptrs, ivals. rewrite ptrsOf_snoc, valsOf_snoc, En. replace (Nat.eqb (itemLid x) (S s)) with false by (symmetry; now apply Nat.eqb_neq).
    rewrite !app_nil_r. auto.
  Qed.
  Lemma rawInv_snoc m this tr h h' t : itemLid (snd t) <> 0%nat -> hsRaw h' = hsRaw h -> rawInv o m this tr h -> rawInv o m this (tr ++ [t]) h'.
  Proof.
    destruct t as [[[b p] q] x]. cbn [snd]. intros Hl En. unfold rawInv, iptrs, ivals. rewrite ptrsOf_snoc, valsOf_snoc, En. replace (Nat.eqb (itemLid x) 0) with false by (symmetry; now apply Nat.eqb_neq).
    rewrite !app_nil_r. auto.
  Qed.
  Lemma setNth_length {A} (l : list A) s x : List.length (setNth l s x) = List.length l.
  Proof. revert s. induction l as [|y l IH]; intros [|s]; cbn; auto. Qed.
  Lemma nth_setNth {A} (l : list A) s x d : (s < List.length l)%nat -> nth s (setNth l s x) d = x.
  Proof. revert s. induction l as [|y l IH]; intros [|s]; cbn [List.length setNth nth]; intros H; try lia; [reflexivity|]. apply IH. lia. Qed.
  Lemma nth_setNth_other {A} (l : list A) s s' x d : s <> s' -> nth s' (setNth l s x) d = nth s' l d.
  Proof. revert s s'. induction l as [|y l IH]; intros [|s] [|s'] H; cbn [setNth nth]; auto; try congruence. Qed.

  Variable e : env.
  Variable a : arena.
  Variables this lo hi : N.
  Hypothesis Hw : wfA e a.
  Hypothesis H8 : 8 <= this.
  Hypothesis H8lo : 8 <= lo.
  Hypothesis Hs1 : this + slotsOff o + 2 * N.of_nat (slotsNum o) <= lo.
  Hypothesis Hs2 : this + rawOff o + 2 <= lo.

  Lemma setCommon_run h i k multi b p v r : HInv o (mem a) this lo hi h -> hi <= b -> slotKind o (slotOf o i) = Some (k, multi) -> (slotOf o i < slotsNum o)%nat ->
    itemOk o (mem a) b p (aused a) (IVal (slotOf o i) v) -> (multi = true -> g16 (mem a) (p + nextOff k) = NILPTR) ->
    exists a1, mSetCommon o i multi k this p e a r = MOk tt a1 r /\ aused a1 = aused a /\ keeps (hdrW this lo) a a1 /\ HInv o (mem a1) this lo (aused a) (setCommon o i multi h v).
  Proof.
    intros HI Hb Ek Hslot Hok Hz. set (s := slotOf o i) in *. destruct HI as (tr & B & R & L & S0). num Hw.
    pose proof (inn _ _ _ _ _ Hok) as (P1 & P2 & P3). pose proof (blocks_le inn B) as P4. pose proof (blocks_snoc B Hb (N.le_refl _) Hok) as B'.
    assert (Hp16 : p < two16) by (unfold two16; lia).
    assert (At : slotAt o this s + 2 <= lo) by (unfold slotAt; lia).
    assert (Al : this + slotsOff o <= slotAt o this s) by (unfold slotAt; lia).
    (* storing the address in the array *)
    assert (Store : forall h', List.length (hsCommon h') = slotsNum o -> hsRaw h' = hsRaw h -> (forall s', s' <> s -> nth s' (hsCommon h') [] = nth s' (hsCommon h) []) ->
        (forall m', g16 m' (slotAt o this s) = p -> (forall q k', slotKind o s = Some (k', true) -> In q (iptrs (S s) (tr ++ [(b, p, aused a, IVal s v)])) -> g16 m' (q + nextOff k') = g16 (mem a) (q + nextOff k')) ->
            slotInv o m' this (tr ++ [(b, p, aused a, IVal s v)]) h' s) ->
        exists a1, set16 (slotAt o this s) p e a r = MOk tt a1 r /\ aused a1 = aused a /\ keeps (hdrW this lo) a a1 /\ HInv o (mem a1) this lo (aused a) h').
    { intros h' L' R' E' I'. eexists. split; [reflexivity|]. split; [reflexivity|]. split; [apply (keeps_write e); [exact Hw|]; unfold hdrW, slotAt in *; slia|]. cbn [mem setMem].
      assert (Ag : agreeR (mem a) (p16 (mem a) (slotAt o this s) p) lo (aused a)) by (apply agree_write; slia).
      assert (F : forall j q n, In q (iptrs j (tr ++ [(b, p, aused a, IVal s v)])) -> (forall x, itemLid x = j -> itemNext o x = Some n) -> g16 (p16 (mem a) (slotAt o this s) p) (q + n) = g16 (mem a) (q + n)).
      { intros j q n Hq Hn. pose proof (iptrs_next _ _ _ _ _ _ _ B' Hq Hn). apply g16_write. lia. }
      exists (tr ++ [(b, p, aused a, IVal s v)]). split; [eapply (blocks_agree fr inn); eauto|]. split; [|split; [exact L'|]].
      - eapply (rawInv_ext (mem a)); [apply g16_write; pose proof (slotAt_raw this s Hslot); lia|intros q Hq; eapply F; [exact Hq|exact next_raw]|]. eapply rawInv_snoc; [discriminate|exact R'|exact R].
      - intros s' Hs'. destruct (Nat.eq_dec s' s) as [->|Hne].
        + apply I'; [now apply g16_p16|]. intros q k' Ek' Hq. eapply F; [exact Hq|apply next_slot, Ek'].
        + eapply (slotInv_ext (mem a)); [apply g16_write; pose proof (slotAt_apart this s s' Hslot Hs' (fun E => Hne (eq_sym E))); lia|intros k' q Ek' Hq; eapply F; [exact Hq|apply next_slot, Ek']|].
          eapply slotInv_snoc; [cbn [snd itemLid]; congruence|apply E', Hne|apply S0, Hs']. }
    pose proof (S0 s Hslot) as HS. unfold slotInv in HS. rewrite Ek in HS. unfold mSetCommon. fold s. destruct multi.
    - destruct HS as (HC & HV). unfold mbind at 1, get16 at 1. destruct (N.eqb_spec (g16 (mem a) (slotAt o this s)) NILPTR) as [Hz0|Hnz].
      + (* the first value *)
        assert (E0 : iptrs (S s) tr = []) by (destruct (iptrs (S s) tr) as [|p0 ps] eqn:Ep; [reflexivity|]; exfalso; cbn [chain] in HC; destruct HC as (HC & _);
           assert (In p0 (iptrs (S s) tr)) as Hin by (rewrite Ep; now left); apply (ptrsOf_bound inn B) in Hin; unfold NILPTR in *; lia).
        assert (V0 : ivals (S s) tr = []) by (unfold ivals, iptrs, valsOf, ptrsOf in *; destruct (sel itemLid (S s) tr); [reflexivity|discriminate]).
        apply Store.
        * unfold setCommon. cbn [hsCommon]. rewrite setNth_length. exact L.
        * reflexivity.
        * intros s' Hne. unfold setCommon. cbn [hsCommon]. fold s. apply nth_setNth_other. congruence.
        * intros m' Em Hc. unfold slotInv. rewrite Ek, Em. unfold iptrs, ivals. rewrite ptrsOf_snoc, valsOf_snoc. fold (iptrs (S s) tr). fold (ivals (S s) tr). rewrite E0, V0. cbn [itemLid]. rewrite Nat.eqb_refl. cbn [app chain].
          split; [split; [reflexivity|]|].
          -- rewrite (Hc p k Ek); [apply Hz; reflexivity|]. unfold iptrs. rewrite ptrsOf_snoc. cbn [itemLid]. rewrite Nat.eqb_refl. apply in_or_app. right. now left.
          -- unfold setCommon. cbn [hsCommon]. fold s. rewrite nth_setNth by lia. rewrite V0 in HV. destruct (nth s (hsCommon h) []); [reflexivity|discriminate].
      + (* a further one *)
        assert (Hne : iptrs (S s) tr <> []) by (intros E0; rewrite E0 in HC; cbn [chain] in HC; congruence).
        set (lst := last (iptrs (S s) tr) NILPTR). assert (Hl : In lst (iptrs (S s) tr)) by (now apply last_in).
        pose proof (iptrs_next _ _ _ _ _ _ _ B Hl (next_slot s k Ek)) as (Q1 & Q2).
        assert (Hl' : In lst (iptrs (S s) (tr ++ [(b, p, aused a, IVal s v)]))) by (unfold iptrs; rewrite ptrsOf_snoc; apply in_or_app; now left).
        assert (Run : mAppendTo (nextOff k) (g16 (mem a) (slotAt o this s)) p e a r = MOk true (setMem a (p16 (mem a) (lst + nextOff k) p)) r).
        { unfold mAppendTo. apply walk_spec; [exact HC|exact Hne| |].
          - intros q Hq. apply (ptrsOf_bound inn B) in Hq. unfold NILPTR. lia.
          - pose proof (ptrsOf_length (lid := itemLid) inn (S s) B) as Hlen. unfold iptrs. lia. }
        eexists. split; [unfold mbind; rewrite Run; reflexivity|]. split; [reflexivity|]. split; [apply (keeps_write e); [exact Hw|]; unfold hdrW; slia|]. cbn [mem setMem].
        exists (tr ++ [(b, p, aused a, IVal s v)]). split; [eapply (blocks_link (lid := itemLid) fr inn); [exact B'|exact Hl'|apply next_slot, Ek]|].
        assert (Oth : forall j n q, j <> S s -> (forall x, itemLid x = j -> itemNext o x = Some n) -> In q (iptrs j (tr ++ [(b, p, aused a, IVal s v)])) -> q + n + 2 <= lst + nextOff k \/ lst + nextOff k + 2 <= q + n).
        { intros j n q Hj Hn Hq. eapply (next_apart (lid := itemLid) inn); [exact B'|exact Hq|exact Hl'| |exact Hn|apply next_slot, Ek].
          intros E. subst q. apply ptrsOf_in in Hq as (b1 & q1 & x1 & I1 & L1). apply ptrsOf_in in Hl' as (b2 & q2 & x2 & I2 & L2).
          pose proof (blocks_in inn B' I1) as (_ & _ & O1). pose proof (blocks_in inn B' I2) as (_ & _ & O2). apply inn in O1 as (A1 & A2 & _). apply inn in O2 as (A3 & A4 & _).
          destruct (blocks_apart inn B' I1 I2) as [E|[E|E]]; [congruence|lia|lia]. }
        split; [|split].
        * eapply (rawInv_ext (mem a)); [apply g16_write; lia|intros q Hq; apply g16_write; apply (Oth 0%nat 6 q); [discriminate|exact next_raw|exact Hq]|]. eapply rawInv_snoc; [discriminate|reflexivity|exact R].
        * unfold setCommon. cbn [hsCommon]. rewrite setNth_length. exact L.
        * intros s' Hs'. destruct (Nat.eq_dec s' s) as [->|Hne'].
          -- unfold slotInv. rewrite Ek. rewrite g16_write by lia. split.
             ++ unfold iptrs. eapply (chain_append (lid := itemLid) inn); [exact B'|reflexivity|exact Hp16|exact Hne|apply next_slot, Ek|apply Hz; reflexivity|exact HC].
             ++ unfold ivals. rewrite valsOf_snoc. cbn [itemLid]. rewrite Nat.eqb_refl. fold (ivals (S s) tr). rewrite HV. unfold setCommon. cbn [hsCommon]. fold s. rewrite nth_setNth by lia. rewrite map_app. reflexivity.
          -- eapply (slotInv_ext (mem a)); [apply g16_write; unfold slotAt in *; lia|intros k' q Ek' Hq; apply g16_write; apply (Oth (S s') (nextOff k') q); [congruence|apply next_slot, Ek'|exact Hq]|].
             eapply slotInv_snoc; [cbn [snd itemLid]; congruence|unfold setCommon; cbn [hsCommon]; fold s; apply nth_setNth_other; congruence|apply S0, Hs'].
    - destruct HS as (HC & HV). apply Store.
      + unfold setCommon. cbn [hsCommon]. rewrite setNth_length. exact L.
      + reflexivity.
      + intros s' Hne. unfold setCommon. cbn [hsCommon]. fold s. apply nth_setNth_other. congruence.
      + intros m' Em _. unfold slotInv. rewrite Ek, Em. unfold iptrs, ivals. rewrite ptrsOf_snoc, valsOf_snoc. cbn [itemLid]. rewrite Nat.eqb_refl, last_last, lastL_snoc. split; [reflexivity|].
        unfold setCommon. cbn [hsCommon]. fold s. rewrite nth_setNth by lia. reflexivity.
  Qed.
  Lemma addRaw_run h b p x r : HInv o (mem a) this lo hi h -> hi <= b -> itemOk o (mem a) b p (aused a) (IRaw x) -> g16 (mem a) (p + 6) = NILPTR ->
    exists a1, mAddRaw o this p e a r = MOk tt a1 r /\ aused a1 = aused a /\ keeps (hdrW this lo) a a1 /\ HInv o (mem a1) this lo (aused a) (addRaw h x).
  Proof.
    intros HI Hb Hok Hz. destruct HI as (tr & B & (HC & HV) & L & S0). num Hw.
    pose proof (inn _ _ _ _ _ Hok) as (P1 & P2 & P3). pose proof (blocks_le inn B) as P4. pose proof (blocks_snoc B Hb (N.le_refl _) Hok) as B'.
    assert (Hp16 : p < two16) by (unfold two16; lia).
    unfold mAddRaw. unfold mbind at 1, get16 at 1. destruct (N.eqb_spec (g16 (mem a) (this + rawOff o)) NILPTR) as [Hz0|Hnz].
    - assert (E0 : iptrs 0 tr = []) by (destruct (iptrs 0 tr) as [|p0 ps] eqn:Ep; [reflexivity|]; exfalso; cbn [chain] in HC; destruct HC as (HC & _);
           assert (In p0 (iptrs 0 tr)) as Hin by (rewrite Ep; now left); apply (ptrsOf_bound inn B) in Hin; unfold NILPTR in *; lia).
      assert (V0 : ivals 0 tr = []) by (unfold ivals, iptrs, valsOf, ptrsOf in *; destruct (sel itemLid 0 tr); [reflexivity|discriminate]).
      eexists. split; [reflexivity|]. split; [reflexivity|]. split; [apply (keeps_write e); [exact Hw|]; unfold hdrW; slia|]. cbn [mem setMem].
      assert (Ag : agreeR (mem a) (p16 (mem a) (this + rawOff o) p) lo (aused a)) by (apply agree_write; slia).
      assert (F : forall j q n, In q (iptrs j (tr ++ [(b, p, aused a, IRaw x)])) -> (forall x, itemLid x = j -> itemNext o x = Some n) -> g16 (p16 (mem a) (this + rawOff o) p) (q + n) = g16 (mem a) (q + n)).
      { intros j q n Hq Hn. pose proof (iptrs_next _ _ _ _ _ _ _ B' Hq Hn). apply g16_write. lia. }
      exists (tr ++ [(b, p, aused a, IRaw x)]). split; [eapply (blocks_agree fr inn); eauto|]. split; [|split; [exact L|]].
      + unfold rawInv. rewrite g16_p16 by exact Hp16. unfold iptrs, ivals. rewrite ptrsOf_snoc, valsOf_snoc. cbn [itemLid Nat.eqb]. fold (iptrs 0 tr). fold (ivals 0 tr). rewrite E0, V0. cbn [app chain].
        split; [split; [reflexivity|]|].
        * rewrite (F 0%nat p 6); [exact Hz| |exact next_raw]. unfold iptrs. rewrite ptrsOf_snoc. cbn [itemLid Nat.eqb]. apply in_or_app. right. now left.
        * unfold addRaw. cbn [hsRaw]. rewrite map_app, <- HV, V0. reflexivity.
      + intros s' Hs'. eapply (slotInv_ext (mem a)); [apply g16_write; pose proof (slotAt_raw this s' Hs'); lia|intros k' q Ek' Hq; eapply F; [exact Hq|apply next_slot, Ek']|].
        eapply slotInv_snoc; [discriminate|reflexivity|apply S0, Hs'].
    - assert (Hne : iptrs 0 tr <> []) by (intros E0; rewrite E0 in HC; cbn [chain] in HC; congruence).
      set (lst := last (iptrs 0 tr) NILPTR). assert (Hl : In lst (iptrs 0 tr)) by (now apply last_in).
      pose proof (iptrs_next _ _ _ _ _ _ _ B Hl next_raw) as (Q1 & Q2).
      assert (Hl' : In lst (iptrs 0 (tr ++ [(b, p, aused a, IRaw x)]))) by (unfold iptrs; rewrite ptrsOf_snoc; apply in_or_app; now left).
      assert (Run : mAppendTo 6 (g16 (mem a) (this + rawOff o)) p e a r = MOk true (setMem a (p16 (mem a) (lst + 6) p)) r).
      { unfold mAppendTo. apply walk_spec; [exact HC|exact Hne| |].
        - intros q Hq. apply (ptrsOf_bound inn B) in Hq. unfold NILPTR. lia.
        - pose proof (ptrsOf_length (lid := itemLid) inn 0 B) as Hlen. unfold iptrs. lia. }
      eexists. split; [unfold mbind; rewrite Run; reflexivity|]. split; [reflexivity|]. split; [apply (keeps_write e); [exact Hw|]; unfold hdrW; slia|]. cbn [mem setMem].
      exists (tr ++ [(b, p, aused a, IRaw x)]). split; [eapply (blocks_link (lid := itemLid) fr inn); [exact B'|exact Hl'|exact next_raw]|].
      assert (Oth : forall j n q, j <> 0%nat -> (forall x, itemLid x = j -> itemNext o x = Some n) -> In q (iptrs j (tr ++ [(b, p, aused a, IRaw x)])) -> q + n + 2 <= lst + 6 \/ lst + 6 + 2 <= q + n).
      { intros j n q Hj Hn Hq. eapply (next_apart (lid := itemLid) inn); [exact B'|exact Hq|exact Hl'| |exact Hn|exact next_raw].
        intros E. subst q. apply ptrsOf_in in Hq as (b1 & q1 & x1 & I1 & L1). apply ptrsOf_in in Hl' as (b2 & q2 & x2 & I2 & L2).
        pose proof (blocks_in inn B' I1) as (_ & _ & O1). pose proof (blocks_in inn B' I2) as (_ & _ & O2). apply inn in O1 as (A1 & A2 & _). apply inn in O2 as (A3 & A4 & _).
        destruct (blocks_apart inn B' I1 I2) as [E|[E|E]]; [congruence|lia|lia]. }
      split; [|split].
      + unfold rawInv. rewrite g16_write by lia. split.
        * unfold iptrs. eapply (chain_append (lid := itemLid) inn); [exact B'|reflexivity|exact Hp16|exact Hne|exact next_raw|exact Hz|exact HC].
        * unfold ivals. rewrite valsOf_snoc. cbn [itemLid Nat.eqb]. fold (ivals 0 tr). rewrite HV. unfold addRaw. cbn [hsRaw]. rewrite map_app. reflexivity.
      + exact L.
      + intros s' Hs'. eapply (slotInv_ext (mem a)); [apply g16_write; unfold slotAt in *; lia|intros k' q Ek' Hq; apply g16_write; apply (Oth (S s') (nextOff k') q); [discriminate|apply next_slot, Ek'|exact Hq]|].
        eapply slotInv_snoc; [discriminate|reflexivity|apply S0, Hs'].
  Qed.
End HInv.
