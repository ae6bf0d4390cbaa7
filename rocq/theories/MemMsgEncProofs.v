(** The encoders of header blocks and bodies on the arena write what the value layer says. *)
From Verif Require Import Base Charset BaseLemmas Num Lws Str Monad MethodTree HeaderTree Lookup NameSpec NameProofs Host Uri Tel GenParam Addr StartLine Headers RawHeaders Msg Arena ArenaProofs ArenaOpsProofs StrProofs ArenaTop Layout Mem MemSim MemTac MemUri MemRep MemList Inv MemHostProofs MemParamProofs MemUriProofs MemSipUriProofs MemEnc MemEncProofs MemTel MemTelProofs MemGen MemGenProofs MemAddr MemAddrProofs MemSteps MemStart MemStartProofs MemHdr MemHdrProofs MemBlocks MemMsg MemMsgProofs MemHeadersProofs MemBodyProofs MemMsgEnc Extension.

Lemma ebind_ok {X Y} (m : E X) (f : X -> E Y) e a b x a' b' R : m e a b = EOk x a' b' -> f x e a' b' = R -> ebind m f e a b = R.
Proof. unfold ebind. intros ->. auto. Qed.
Lemma ePut_ok f e a b t : f e a = WOk t -> ePut f e a b = EOk tt a (b ++ t).
Proof. unfold ePut. intros ->. reflexivity. Qed.

Lemma F2_in {A B} (R : A -> B -> Prop) l l' x : Forall2 R l l' -> In x l -> exists y, R x y.
Proof. induction 1 as [|a b l l' H _ IH]; [intros []|]. intros [->|Hi]; eauto. Qed.
Lemma F2_implIn {A B} (R R1 : A -> B -> Prop) l l1 : Forall2 R l l1 -> (forall x y, In y l1 -> R x y -> R1 x y) -> Forall2 R1 l l1.
Proof. induction 1 as [|x y l l1 Hxy F IH]; intros H; [constructor|]. constructor; [apply H; [now left|exact Hxy]|apply IH; intros x0 y0 Hi; apply H; now right]. Qed.
Lemma F2_impl {A B} (R R' : A -> B -> Prop) l l' : (forall x y, R x y -> R' x y) -> Forall2 R l l' -> Forall2 R' l l'.
Proof. intros F. induction 1; constructor; auto. Qed.
Lemma F2_len {A B} (R : A -> B -> Prop) l l' : Forall2 R l l' -> List.length l = List.length l'.
Proof. induction 1; cbn; congruence. Qed.

(** ** What the entries of the array point to *)
Definition valOk (k : hkind) (m : N -> N) (lo hi p : N) (v : hval) : Prop := exists q, lo <= p /\ p + hvalSize k <= q /\ q <= hi /\ repHVal k m p (p + hvalSize k) q v.
Definition slotRep (m : N -> N) (lo hi : N) (k : hkind) (multi : bool) (head : N) (vs : list hval) : Prop :=
  if multi then exists ps, chain (nextOff k) m head ps /\ N.of_nat (List.length ps) <= hi /\ Forall2 (valOk k m lo hi) ps vs
  else (vs = [] /\ head = NILPTR) \/ exists v, vs = [v] /\ valOk k m lo hi head v.
Definition rawRep (m : N -> N) (lo hi head : N) (rs : list raw) : Prop :=
  exists ps, chain 6 m head ps /\ N.of_nat (List.length ps) <= hi /\ Forall2 (fun p x => exists b q, lo <= b /\ q <= hi /\ repRaw m b p q x) ps rs.

Lemma valOk_frame k m m' lo hi p v : agreeR m m' lo hi -> valOk k m lo hi p v -> valOk k m' lo hi p v.
Proof.
  intros A (q & L1 & L2 & L3 & H). exists q. split; [exact L1|]. split; [exact L2|]. split; [exact L3|]. eapply repHVal_frame; [| |exact H]; (eapply agreeR_sub; [exact A|lia|lia]).
Qed.
Lemma slotRep_frame m m' lo hi k multi head vs : agreeR m m' lo hi -> (multi = true -> nextOff k + 2 = hvalSize k) -> slotRep m lo hi k multi head vs -> slotRep m' lo hi k multi head vs.
Proof.
  intros A Hn. unfold slotRep. destruct multi.
  - specialize (Hn eq_refl). intros (ps & H1 & H2 & H3). exists ps. split; [|split; [exact H2|]].
    + eapply chain_ext; [|exact H1]. intros p Hp. apply (F2_in _ _ _ _ H3) in Hp as (v & q & L1 & L2 & L3 & _). unfold g16. rewrite !A by lia. reflexivity.
    + eapply F2_impl; [|exact H3]. intros p v. now apply valOk_frame.
  - intros [H|(v & -> & H)]; [now left|]. right. exists v. split; [reflexivity|]. eapply valOk_frame; eauto.
Qed.

Lemma rawRep_frame m m' lo hi head rs : agreeR m m' lo hi -> rawRep m lo hi head rs -> rawRep m' lo hi head rs.
Proof.
  intros A (ps & H1 & H2 & H3). exists ps. split; [|split; [exact H2|]].
  - eapply chain_ext; [|exact H1]. intros p Hp. apply (F2_in _ _ _ _ H3) in Hp as (v & b & q & L1 & L2 & (L3 & L4 & _)). unfold g16. rewrite !A by lia. reflexivity.
  - eapply F2_impl; [|exact H3]. intros p x (b & q & L1 & L2 & H). exists b, q. split; [exact L1|]. split; [exact L2|].
    apply (itemOk_frame OMsg m m' b p q (IRaw x)); [|exact H]. intros i Hi _. apply A. lia.
Qed.
Lemma sel_F2 {X Y} (lid : X -> nat) (f : Y -> X) (R : N -> Y -> Prop) j tr vs :
  valsOf lid j tr = map f vs -> (forall b p q v, In (b, p, q, f v) tr -> lid (f v) = j -> R p v) -> Forall2 R (ptrsOf lid j tr) vs.
Proof.
  unfold valsOf, ptrsOf. intros E H. assert (G : forall t, In t (sel lid j tr) -> In t tr /\ lid (snd t) = j) by (unfold sel; intros t Ht; apply filter_In in Ht as (H1 & H2); split; [exact H1|now apply Nat.eqb_eq]).
  revert vs E. induction (sel lid j tr) as [|[[[b p] q] x] l IH]; intros [|v vs] E; try discriminate; [constructor|]. cbn [map] in E. injection E as -> E. cbn [map]. constructor.
  - destruct (G (b, p, q, f v) (or_introl eq_refl)) as (G1 & G2). cbn in G2. eapply H; eauto.
  - apply IH; [|exact E]. intros t Ht. apply G. now right.
Qed.
Lemma HInv_slot o m this lo hi h s k multi : HInv o m this lo hi h -> (s < slotsNum o)%nat -> slotKind o s = Some (k, multi) ->
  slotRep m lo hi k multi (g16 m (slotAt o this s)) (nth s (hsCommon h) []).
Proof.
  intros HH Hs Ek. unfold slotRep. destruct multi.
  - destruct HH as (tr & B & _ & _ & S0). specialize (S0 s Hs). unfold slotInv in S0. rewrite Ek in S0. destruct S0 as (C & V). exists (iptrs (S s) tr). split; [exact C|].
    split; [apply (ptrsOf_length (itemOk_in o) _ B)|]. eapply sel_F2; [exact V|]. intros b p q v Hin _. pose proof (blocks_in (itemOk_in o) B Hin) as (L1 & L2 & L3). cbn [itemOk] in L3. rewrite Ek in L3.
    destruct L3 as (-> & L4 & L5 & _). exists q. auto.
  - destruct (slot_read o m this lo hi h s k HH Hs Ek) as [H|(v & q & E1 & L1 & L2 & L3)]; [left; exact H|]. right. exists v. split; [exact E1|]. cbn [itemOk] in L3. rewrite Ek in L3.
    destruct L3 as (_ & L4 & L5 & _). exists q. auto.
Qed.
Lemma HInv_raw o m this lo hi h : HInv o m this lo hi h -> rawRep m lo hi (g16 m (this + rawOff o)) (hsRaw h).
Proof.
  intros (tr & B & (C & V) & _). exists (iptrs 0 tr). split; [exact C|]. split; [apply (ptrsOf_length (itemOk_in o) _ B)|]. eapply sel_F2; [exact V|].
  intros b p q v Hin _. pose proof (blocks_in (itemOk_in o) B Hin) as (L1 & L2 & L3). exists b, q. auto.
Qed.

(** ** Reading them *)
Section Read.
  Variables (e : env) (a : arena) (hi : N).
  Hypothesis Hw : wfA e a.
  Hypothesis Hhi : hi <= aused a.
  Hypothesis Hcap : hi < cap a.
  Lemma enc_chain {A} next (one : N -> Enc) between (enc : A -> bytes) : forall fuel p ps v vs, chain next (mem a) p (p :: ps) ->
    Forall2 (fun p v => p <> NILPTR /\ p <= hi /\ one p e a = WOk (enc v)) (p :: ps) (v :: vs) -> (List.length (p :: ps) <= fuel)%nat ->
    eWalk next one between fuel p e a = WOk (joined enc between (v :: vs)).
  Proof.
    induction fuel as [|f IH]; intros p ps v vs Hc HF Hl; [cbn in Hl; lia|]. inversion HF as [|? ? ? ? (P1 & P2 & P3) HF' E1 E2]; subst. cbn [eWalk joined]. apply (enc_deref e a hi Hhi Hcap); [exact P2|].
    apply enc_app; [exact P3|]. unfold eMem. cbn [chain] in Hc. destruct Hc as (_ & Hc). destruct HF' as [|p1 v1 ps1 vs1 (P4 & P5 & P6) HF2].
    - cbn [chain] in Hc. rewrite Hc. reflexivity.
    - pose proof Hc as Hc2. cbn [chain] in Hc2. destruct Hc2 as (E & Hc2). rewrite E in *. replace (p1 =? NILPTR) with false by lia. cbn [flat_map]. rewrite <- app_assoc. apply enc_app; [reflexivity|].
      apply (IH p1 ps1 v1 vs1); [exact Hc|constructor; auto|cbn in *; lia].
  Qed.
  Lemma enc_chain_list {A} next (one : N -> Enc) between (enc : A -> bytes) p ps vs : chain next (mem a) p ps -> N.of_nat (List.length ps) <= hi ->
    Forall2 (fun p v => p <> NILPTR /\ p <= hi /\ one p e a = WOk (enc v)) ps vs -> eList next one between p e a = WOk (joined enc between vs).
  Proof.
    intros Hc Hl HF. unfold eList. destruct HF as [|p1 v1 ps1 vs1 (P1 & P2 & P3) HF].
    - cbn [chain] in Hc. rewrite Hc. reflexivity.
    - pose proof Hc as (-> & _). replace (p1 =? NILPTR) with false by lia. eapply enc_chain; [exact Hc|constructor; auto|lia].
  Qed.
  Lemma enc_valOk k lo p v : 8 <= lo -> (extHVal v = true -> hi < 32768) -> valOk k (mem a) lo hi p v -> p <> NILPTR /\ p <= hi /\ mEncHVal k p e a = WOk (encHVal e k v).
  Proof.
    intros H8 Ht (q & L1 & L2 & L3 & H). split; [unfold NILPTR; lia|]. split; [lia|]. eapply (enc_hval e a hi); [exact Hw|exact Hhi|exact Hcap|exact Ht| |eapply repHVal_mono; [exact H|apply N.le_refl|exact L3]]. lia.
  Qed.
  Lemma enc_rawOne lo b p q x : 8 <= lo -> lo <= b -> q <= hi -> repRaw (mem a) b p q x -> p <> NILPTR /\ p <= hi /\ mEncRaw p e a = WOk (encRaw x).
  Proof.
    intros H8 L1 L2 (H1 & H2 & H3 & H4 & H5). split; [unfold NILPTR; lia|]. split; [lia|]. unfold mEncRaw, encRaw, eMem. rewrite H3. apply enc_app.
    - unfold rawName. destruct (if rId x =? SIP_HDR_UNKNOWN then None else infoOf (rId x)) as [i|]; [reflexivity|]. destruct (rName x) as [n|]; cbn [ostr] in H4.
      + eapply (enc_cstr e a hi); [exact Hw|exact Hhi|exact Hcap|eapply (str_mono _ b p b hi); [exact H4|lia|lia]].
      + rewrite H4. reflexivity.
    - apply (enc_app e a (eOut (s2b ": ")) _ (s2b ": ") _); [reflexivity|]. apply enc_app; [|reflexivity]. rewrite (str_nonnil _ _ _ _ _ H5). cbn [negb].
      eapply (enc_cstr e a hi); [exact Hw|exact Hhi|exact Hcap|eapply (str_mono _ _ _ (p + 8) hi); [exact H5|lia|lia]].
  Qed.
  Lemma enc_rawHeaders lo p rs : 8 <= lo -> rawRep (mem a) lo hi p rs -> mEncRawHeaders p e a = WOk (encRawHeaders rs).
  Proof.
    intros H8 (ps & H1 & H2 & H3). unfold mEncRawHeaders, encRawHeaders. rewrite <- joined_nil. eapply enc_chain_list; [exact H1|exact H2|]. eapply F2_impl; [|exact H3].
    intros p0 x (b & q & L1 & L2 & H). eapply enc_rawOne; eauto.
  Qed.
  (** An entry that is not a Content-Length. *)
  Lemma slotKind_info o s k multi : slotKind o s = Some (k, multi) -> hiKind (slotInfo (nth s (slotIndexes o) 0)) = Some k /\ hiMulti (slotInfo (nth s (slotIndexes o) 0)) = multi /\ (multi = true -> k <> KContentLength).
  Proof.
    clear. unfold slotKind, slotInfo. intros H. pose proof H as H0. destruct (nth_error (slotIndexes o) s) as [i|] eqn:En; [|discriminate]. rewrite (nth_error_nth _ _ _ En).
    destruct (infoOf i) as [x|] eqn:Ei; [|discriminate]. destruct (hiKind x) as [k'|] eqn:Ek; [|discriminate]. injection H as <- <-. split; [rewrite ?Ek; reflexivity|]. split; [reflexivity|].
    intros Em ->. assert (L : (s < 19)%nat) by (assert (nth_error (slotIndexes o) s <> None) by congruence; apply nth_error_Some in H; destruct o; cbn in H; lia).
    assert (H1 : slotKind o s = Some (KContentLength, true)) by (unfold slotKind; rewrite En, Ei, Ek, Em; reflexivity). clear - L H1.
    destruct o; do 19 (destruct s as [|s]; [vm_compute in H1; discriminate|]); lia.
  Qed.
  Lemma enc_more i k vs : hiKind (slotInfo i) = Some k -> encMore e i vs = flat_map (fun y => s2b ", " ++ encHVal e k y) vs.
  Proof. clear. intros E. unfold encMore. induction vs as [|v vs IH]; [reflexivity|]. cbn [flat_map]. rewrite IH. unfold encSlotValue. rewrite E. reflexivity. Qed.
  Lemma enc_slot o this lo s k multi vs b : 8 <= lo -> (forall v, In v vs -> extHVal v = true -> hi < 32768) -> slotKind o s = Some (k, multi) -> k <> KContentLength ->
    slotRep (mem a) lo hi k multi (g16 (mem a) (slotAt o this s)) vs -> mEncSlot o this s e a b = EOk tt a (b ++ encSlot e (nth s (slotIndexes o) 0, vs)).
  Proof.
    intros H8 Ht Ek Hk HR. destruct (slotKind_info o s k multi Ek) as (I1 & I2 & _). unfold mEncSlot. eapply ebind_ok; [reflexivity|]. unfold encSlot. cbn [fst snd]. unfold slotRep in HR.
    set (i := nth s (slotIndexes o) 0) in *. set (p := g16 (mem a) (slotAt o this s)) in *. cbv zeta. rewrite I1, I2.
    assert (G : (vs = [] /\ p = NILPTR) \/ exists v vs', vs = v :: vs' /\ p <> NILPTR /\ (if multi then ePut (eList (nextOff k) (mEncHVal k) (s2b ", ") p) else mEncOne k p) e a (b ++ hiName (slotInfo i) ++ s2b ": ") =
      EOk tt a ((b ++ hiName (slotInfo i) ++ s2b ": ") ++ encSlotValue e i v ++ (if multi then encMore e i vs' else []))).
    { destruct multi.
      - destruct HR as (ps & C & L & F). destruct vs as [|v vs']; [left; inversion F; subst; split; [reflexivity|exact C]|]. right. exists v, vs'. split; [reflexivity|].
        assert (F2 : Forall2 (fun p v => p <> NILPTR /\ p <= hi /\ mEncHVal k p e a = WOk (encHVal e k v)) ps (v :: vs')) by (apply (F2_implIn _ _ _ _ F); intros p0 v0 Hin Hv; eapply enc_valOk; eauto).
        split; [inversion F2 as [|? ? ? ? (P1 & _) ? E1 E2]; subst; destruct C as (-> & _); exact P1|]. apply ePut_ok. rewrite (enc_more i k vs' I1). unfold encSlotValue. rewrite I1.
        exact (enc_chain_list _ _ _ _ _ _ _ C L F2).
      - destruct HR as [H|(v & -> & Hv)]; [left; exact H|]. right. exists v, []. split; [reflexivity|]. destruct (enc_valOk k lo p v H8 (Ht v (or_introl eq_refl)) Hv) as (P1 & P2 & P3). split; [exact P1|]. rewrite app_nil_r.
        assert (E0 : mEncOne k p = ePut (eDeref p (mEncHVal k p))) by (destruct k; try reflexivity; congruence). rewrite E0. apply ePut_ok. unfold encSlotValue. rewrite I1. apply (enc_deref e a hi Hhi Hcap); auto. }
    destruct G as [(-> & ->)|(v & vs' & -> & P & G)].
    - cbn [N.eqb NILPTR]. rewrite app_nil_r. reflexivity.
    - replace (p =? NILPTR) with false by lia. eapply ebind_ok; [apply ePut_ok; reflexivity|]. eapply ebind_ok; [apply ePut_ok; reflexivity|]. rewrite <- app_assoc.
      eapply ebind_ok; [exact G|]. unfold eText. rewrite (ePut_ok (eOut CRLF) e a _ CRLF eq_refl). f_equal. rewrite <- !app_assoc. reflexivity.
  Qed.
End Read.

(** ** Changing a Content-Length *)
Lemma sel_split {X} (lid : X -> nat) j tr l t : sel lid j tr = l ++ [t] -> exists t1 t2, tr = t1 ++ t :: t2 /\ sel lid j t1 = l /\ sel lid j t2 = [].
Proof.
  induction tr as [|x tr IH] using rev_ind; [destruct l; discriminate|]. unfold sel in *. rewrite filter_app. cbn [filter]. destruct (Nat.eqb (lid (snd x)) j) eqn:Ex.
  - intros E. apply app_inj_tail in E as (E & ->). exists tr, []. auto.
  - rewrite app_nil_r. intros E. destruct (IH E) as (t1 & t2 & -> & H1 & H2). exists t1, (t2 ++ [x]). split; [rewrite <- app_assoc; reflexivity|]. split; [exact H1|]. rewrite filter_app, H2. cbn [filter]. rewrite Ex. reflexivity.
Qed.
Lemma blocks_split {X} (ok : (N -> N) -> N -> N -> N -> X -> Prop) m lo hi t1 b p q x t2 : blocks ok m lo hi (t1 ++ (b, p, q, x) :: t2) ->
  (forall m b p q x, ok m b p q x -> b <= q) ->
  exists mid, mid <= b /\ blocks ok m lo mid t1 /\ ok m b p q x /\ blocks ok m q hi t2.
Proof.
  intros H Hin. revert lo H. induction t1 as [|[[[b1 p1] q1] x1] t1 IH]; intros lo; cbn [app blocks].
  - intros (H1 & H2 & H3). exists lo. split; [exact H1|]. split; [lia|]. auto.
  - intros (H1 & H2 & H3). destruct (IH q1 H3) as (mid & M1 & M2 & M3 & M4). exists mid. auto.
Qed.
Lemma blocks_join {X} (ok : (N -> N) -> N -> N -> N -> X -> Prop) m lo mid hi t1 b p q x t2 : mid <= b -> blocks ok m lo mid t1 -> ok m b p q x -> blocks ok m q hi t2 ->
  (forall m b p q x, ok m b p q x -> b <= q) -> blocks ok m lo hi (t1 ++ (b, p, q, x) :: t2).
Proof.
  intros L H1 H2 H3 Hin. revert lo H1. induction t1 as [|[[[b1 p1] q1] x1] t1 IH]; intros lo; cbn [app blocks].
  - intros H. split; [lia|]. auto.
  - intros (M1 & M2 & M3). auto.
Qed.
Lemma setNth_same {A} (l : list (list A)) s : setNth l s (nth s l []) = l.
Proof. revert s. induction l as [|x l IH]; intros [|s]; cbn; try reflexivity. now rewrite IH. Qed.
Lemma ptrs_change {X} (lid : X -> nat) j t1 (b p q : N) x x' t2 : lid x = lid x' -> ptrsOf lid j (t1 ++ (b, p, q, x) :: t2) = ptrsOf lid j (t1 ++ (b, p, q, x') :: t2).
Proof. intros E. unfold ptrsOf, sel. rewrite !filter_app, !map_app. cbn [filter snd]. rewrite E. destruct (Nat.eqb (lid x') j); reflexivity. Qed.
Lemma vals_change {X} (lid : X -> nat) j t1 (b p q : N) x x' t2 : lid x <> j -> lid x' <> j -> valsOf lid j (t1 ++ (b, p, q, x) :: t2) = valsOf lid j (t1 ++ (b, p, q, x') :: t2).
Proof.
  intros E1 E2. unfold valsOf, sel. rewrite !filter_app, !map_app. cbn [filter snd]. apply Nat.eqb_neq in E1, E2. rewrite E1, E2. reflexivity.
Qed.

Lemma HInv_upd o m m' this lo hi h s n0 n : HInv o m this lo hi h -> (s < slotsNum o)%nat -> slotKind o s = Some (KContentLength, false) -> nth s (hsCommon h) [] = [VNum n0] ->
  (forall i, lo <= i < hi -> ~ inR (g16 m (slotAt o this s)) 8 i -> m' i = m i) -> (forall s', (s' < slotsNum o)%nat -> g16 m' (slotAt o this s') = g16 m (slotAt o this s')) ->
  g16 m' (this + rawOff o) = g16 m (this + rawOff o) -> g32 m' (g16 m (slotAt o this s)) = n ->
  HInv o m' this lo hi (mkhset (setNth (hsCommon h) s [VNum n]) (hsRaw h)).
Proof.
  intros (tr & B & HR & HL & S0) Hs Ek En A G1 G2 Hn. pose proof (S0 s Hs) as Ss. unfold slotInv in Ss. rewrite Ek, En in Ss. destruct Ss as (E1 & E2). set (p := g16 m (slotAt o this s)) in *.
  assert (Hle : forall m b p q x, itemOk o m b p q x -> b <= q) by (intros ? ? ? ? ? Hx; apply itemOk_in in Hx; lia).
  unfold iptrs, ivals, ptrsOf, valsOf in E1, E2. destruct (sel itemLid (S s) tr) as [|t l] eqn:Es using rev_ind; [discriminate|]. clear IHl. rewrite map_app in E1, E2. cbn [map] in E1, E2.
  rewrite last_last in E1. rewrite lastL_snoc in E2. cbn [map] in E2. destruct t as [[[b0 p0] q] x]. unfold eptr in E1. cbn [fst snd] in E1, E2. injection E2 as ->. subst p0.
  destruct (sel_split _ _ _ _ _ Es) as (t1 & t2 & Et & T1 & T2). rewrite Et in B. destruct (blocks_split _ _ _ _ _ _ _ _ _ _ B Hle) as (mid & M1 & B1 & Ok0 & B2).
  assert (I1 : In (b0, p, q, IVal s (VNum n0)) (t1 ++ (b0, p, q, IVal s (VNum n0)) :: t2)) by (apply in_or_app; right; now left).
  pose proof (blocks_in (itemOk_in o) B I1) as (L1 & L2 & _). cbn [itemOk] in Ok0. rewrite Ek in Ok0. destruct Ok0 as (-> & L3 & _). cbn [hvalSize] in L3.
  pose proof (blocks_le (itemOk_in o) B1) as L4. pose proof (blocks_le (itemOk_in o) B2) as L5.
  assert (Cn : forall j p' x' n', In p' (iptrs j tr) -> (forall x, itemLid x = j -> itemNext o x = Some n') -> itemLid x' = j -> j <> S s -> g16 m' (p' + n') = g16 m (p' + n')).
  { intros j p' x' n' Hin Hx Hj Hjs. rewrite Et in Hin. apply ptrsOf_in in Hin as (b2 & q2 & x2 & Hin & Ej). pose proof (blocks_in (itemOk_in o) B Hin) as (N1 & N2 & N3). apply itemOk_in in N3 as (N4 & N5 & N6).
    specialize (N6 n' (Hx x2 Ej)). destruct (blocks_apart (itemOk_in o) B I1 Hin) as [Ee|[Ll|Ll]].
    - injection Ee as <- <- <- <-. cbn [itemLid] in Ej. congruence.
    - unfold g16. rewrite !A by (unfold inR; lia). reflexivity.
    - unfold g16. rewrite !A by (unfold inR; lia). reflexivity. }
  exists (t1 ++ (p, p, q, IVal s (VNum n)) :: t2).
  assert (Ep : forall j, iptrs j (t1 ++ (p, p, q, IVal s (VNum n)) :: t2) = iptrs j tr) by (intros j; rewrite Et; apply ptrs_change; reflexivity).
  assert (Ev : forall j, j <> S s -> ivals j (t1 ++ (p, p, q, IVal s (VNum n)) :: t2) = ivals j tr) by (intros j Hj; rewrite Et; apply vals_change; cbn [itemLid]; congruence).
  split; [|split; [|split; [cbn [hsCommon]; rewrite setNth_length; exact HL|]]].
  - eapply blocks_join; [exact M1| | | |exact Hle].
    + eapply (blocks_agree (itemOk_frame o) (itemOk_in o)); [|exact B1]. intros i Hi. apply A; unfold inR; lia.
    + cbn [itemOk]. rewrite Ek. split; [reflexivity|]. cbn [hvalSize repHVal mainOk]. split; [exact L3|]. split; [exact Hn|exact Logic.I].
    + eapply (blocks_agree (itemOk_frame o) (itemOk_in o)); [|exact B2]. intros i Hi. apply A; unfold inR; lia.
  - destruct HR as (R1 & R2). unfold rawInv. rewrite Ep, Ev by discriminate. cbn [hsRaw]. split; [|exact R2]. rewrite G2. eapply chain_ext; [|exact R1]. intros p' Hp'. eapply (Cn 0%nat p' (IRaw (mkraw 0 None []))); [exact Hp'|exact (next_raw o)|reflexivity|discriminate].
  - intros s' Hs'. destruct (Nat.eq_dec s s') as [<-|Hne].
    + unfold slotInv. rewrite Ek, Ep. cbn [hsCommon]. rewrite nth_setNth by lia. rewrite G1 by exact Hs. fold p. split.
      * unfold iptrs, ptrsOf. rewrite Es, map_app. cbn [map]. rewrite last_last. unfold eptr. reflexivity.
      * unfold ivals, valsOf. unfold sel in *. rewrite filter_app, T1. cbn [filter snd itemLid]. rewrite Nat.eqb_refl, T2, map_app. cbn [map snd]. rewrite lastL_snoc. reflexivity.
    + specialize (S0 s' Hs'). unfold slotInv in *. rewrite Ep, Ev by congruence. cbn [hsCommon]. rewrite nth_setNth_other by exact Hne. rewrite G1 by exact Hs'. destruct (slotKind o s') as [[k' [|]]|] eqn:Ek'; [|exact S0|exact S0].
      destruct S0 as (C & V). split; [|exact V]. eapply chain_ext; [|exact C]. intros p' Hp'. eapply (Cn (S s') p' (IVal s' VStar)); [exact Hp'|exact (next_slot o s' k' Ek')|reflexivity|congruence].
Qed.

(** ** Header blocks *)
Lemma combine_seq {A B} (l : list A) (l' : list B) d d' : List.length l = List.length l' -> combine l l' = map (fun s => (nth s l d, nth s l' d')) (seq 0 (List.length l)).
Proof.
  revert l'. induction l as [|x l IH]; intros [|y l'] E; try discriminate; [reflexivity|]. cbn [combine List.length seq map nth]. f_equal. injection E as E. rewrite (IH l' E), <- seq_shift, map_map. reflexivity.
Qed.
Definition slotText (e : env) (o : owner) (h : hset) (s : nat) : bytes := encSlot e (nth s (slotIndexes o) 0, nth s (hsCommon h) []).
Lemma encHdrs_slots e o h : List.length (hsCommon h) = slotsNum o -> encHdrs o e h = flat_map (slotText e o h) (seq 1 (slotsNum o - 1)) ++ encRawHeaders (hsRaw h).
Proof.
  intros H. unfold encHdrs. f_equal. rewrite (combine_seq _ _ 0 []) by (rewrite H; destruct o; reflexivity).
  replace (List.length (slotIndexes o)) with (S (slotsNum o - 1)) by (destruct o; reflexivity). cbn [seq map tl]. rewrite flat_map_concat_map, map_map, <- flat_map_concat_map. reflexivity.
Qed.
Lemma mEncSlots_app o this s1 s2 e a b : mEncSlots o this (s1 ++ s2) e a b = (mEncSlots o this s1 ;= mEncSlots o this s2) e a b.
Proof. revert a b. induction s1 as [|s s1 IH]; intros a b; [reflexivity|]. cbn [app mEncSlots]. unfold ebind in *. destruct (mEncSlot o this s e a b); try reflexivity. apply IH. Qed.
Lemma HInv_len o m this lo hi h : HInv o m this lo hi h -> List.length (hsCommon h) = slotsNum o.
Proof. intros (tr & _ & _ & H & _). exact H. Qed.
Lemma app3 {A} (x y z : list A) : (x ++ y) ++ z = x ++ y ++ z. Proof. symmetry. apply app_assoc. Qed.

Lemma enc_slots e a hi o this lo h ss b : wfA e a -> hi <= aused a -> hi < cap a -> 8 <= lo ->
  (forall s, In s ss -> exists k multi, slotKind o s = Some (k, multi) /\ k <> KContentLength /\ (forall v, In v (nth s (hsCommon h) []) -> extHVal v = true -> hi < 32768) /\ slotRep (mem a) lo hi k multi (g16 (mem a) (slotAt o this s)) (nth s (hsCommon h) [])) ->
  mEncSlots o this ss e a b = EOk tt a (b ++ flat_map (slotText e o h) ss).
Proof.
  intros Hw Hh Hc H8. revert b. induction ss as [|s ss IH]; intros b H; cbn [mEncSlots flat_map]; [rewrite app_nil_r; reflexivity|].
  destruct (H s (or_introl eq_refl)) as (k & multi & H1 & H2 & H3 & H4). eapply ebind_ok; [eapply (enc_slot e a hi Hw Hh Hc); eauto|].
  rewrite IH by (intros s' Hs'; apply H; now right). rewrite app3. reflexivity.
Qed.
(** The entry of the Content-Length: the position of its end is recorded. *)
Definition lengthText (n : N) : bytes := s2b "Content-Length" ++ s2b ": " ++ encContentLength n.
Lemma cl_info o s : slotKind o s = Some (KContentLength, false) -> nth s (slotIndexes o) 0 = SIP_HDR_CONTENT_LENGTH.
Proof.
  intros H. unfold slotKind in H. destruct (nth_error (slotIndexes o) s) as [i|] eqn:En; [|discriminate]. rewrite (nth_error_nth _ _ _ En).
  assert (L : (s < 19)%nat) by (assert (E0 : nth_error (slotIndexes o) s <> None) by congruence; apply nth_error_Some in E0; destruct o; cbn in E0; lia).
  destruct o; do 19 (destruct s as [|s]; [cbn in En; first [discriminate|injection En as <-; vm_compute in H; first [discriminate|reflexivity]]|]); lia.
Qed.
Lemma enc_lengthSlot e a o this s p n b : slotKind o s = Some (KContentLength, false) -> g16 (mem a) (slotAt o this s) = p -> p <> NILPTR -> p < cap a -> g32 (mem a) p = n ->
  mEncSlot o this s e a b = EOk tt (setMem a (p32 (mem a) (p + 4) (len (b ++ lengthText n) mod two32))) (b ++ encSlot e (SIP_HDR_CONTENT_LENGTH, [VNum n])).
Proof.
  intros Ek Ep Hp Hc Hn. pose proof (cl_info _ _ Ek) as Ei. unfold mEncSlot. eapply ebind_ok; [reflexivity|]. rewrite Ep, Ei. replace (p =? NILPTR) with false by lia.
  change (slotInfo SIP_HDR_CONTENT_LENGTH) with (mkinfo (s2b "Content-Length") false (Some KContentLength)). cbn [hiName hiKind hiMulti mEncOne].
  eapply ebind_ok; [apply ePut_ok; reflexivity|]. eapply ebind_ok; [apply ePut_ok; reflexivity|]. unfold mEncLength. eapply ebind_ok.
  - eapply ebind_ok; [apply (ePut_ok _ _ _ _ (encContentLength n)); unfold eDeref; replace (cap a <=? p) with false by lia; unfold mEncHVal, eMem; rewrite Hn; reflexivity|].
    eapply ebind_ok; [reflexivity|]. unfold eMemory, set32. reflexivity.
  - unfold eText. rewrite (ePut_ok (eOut CRLF) e _ _ CRLF eq_refl). f_equal.
    + unfold lengthText. rewrite !app3. reflexivity.
    + change (encSlot e (SIP_HDR_CONTENT_LENGTH, [VNum n])) with (s2b "Content-Length" ++ s2b ": " ++ encContentLength n ++ CRLF). rewrite !app3. reflexivity.
Qed.

(** ** Parts *)
Lemma p32_other m p v i : ~ inR p 4 i -> p32 m p v i = m i.
Proof. unfold p32, inR. intros H. rewrite !p16_other by (unfold inR; lia). reflexivity. Qed.
Lemma g16_p32 m p v q : q + 2 <= p \/ p + 4 <= q -> g16 (p32 m p v) q = g16 m q.
Proof. intros H. unfold g16. rewrite !p32_other by (unfold inR; lia). reflexivity. Qed.
Lemma g32_p32_other m p v q : q + 4 <= p \/ p + 4 <= q -> g32 (p32 m p v) q = g32 m q.
Proof. intros H. unfold g32. rewrite !g16_p32 by lia. reflexivity. Qed.
(** The Content-Length of a block. *)
Lemma cl_value k m p lo hi v : k = KContentLength -> repHVal k m p lo hi v -> exists n, v = VNum n /\ g32 m p = n.
Proof. intros ->. destruct v; cbn [repHVal]; intros H; try contradiction; try (destruct H as (H & _); discriminate); try (destruct H as (_ & []); fail). eauto. Qed.

Lemma enc_bodyHdrs e a p q' h b : wfA e a -> 8 <= p -> q' <= aused a -> q' < cap a -> HInv OBody (mem a) p (p + 16) q' h ->
  exists a', mEncHdrs OBody p e a b = EOk tt a' (b ++ encHdrs OBody e h) /\ aused a' = aused a /\ cap a' = cap a /\ (forall i, ~ (p + 16 <= i < q') -> mem a' i = mem a i) /\ HInv OBody (mem a') p (p + 16) q' h.
Proof.
  intros Hw H8 Hq Hc HH. pose proof (HInv_len _ _ _ _ _ _ HH) as HL. rewrite (encHdrs_slots _ _ _ HL). cbn [slotsNum Nat.sub seq]. unfold mEncHdrs. cbn [slotsNum Nat.sub seq].
  assert (R : forall a1 b1, wfA e a1 -> aused a1 = aused a -> cap a1 = cap a -> HInv OBody (mem a1) p (p + 16) q' h ->
    (mEncSlots OBody p [2%nat] ;= h0 <== eMemory (get16 (p + rawOff OBody)) ;; (if h0 =? NILPTR then eret tt else ePut (mEncRawHeaders h0))) e a1 b1 = EOk tt a1 (b1 ++ slotText e OBody h 2 ++ encRawHeaders (hsRaw h))).
  { intros a1 b1 Hw1 U1 C1 HH1. eapply ebind_ok.
    - eapply (enc_slots e a1 q'); [exact Hw1|lia|lia|apply (N.le_trans _ (p + 16)); [lia|apply N.le_refl]|]. intros s [<-|[]]. exists KContentDisposition, false. split; [reflexivity|]. split; [discriminate|].
      assert (SR : slotRep (mem a1) (p + 16) q' KContentDisposition false (g16 (mem a1) (slotAt OBody p 2)) (nth 2 (hsCommon h) [])) by (apply (HInv_slot OBody); [exact HH1|cbn; lia|reflexivity]).
      split; [|exact SR]. intros v Hin Ev. destruct SR as [(E0 & _)|(v0 & E0 & (q0 & _ & _ & _ & Rv))]; rewrite E0 in Hin; [destruct Hin|]. destruct Hin as [<-|[]]. destruct v0; cbn [extHVal] in Ev; try discriminate; destruct Rv as (Ek & _); discriminate.
    - eapply ebind_ok; [reflexivity|]. pose proof (HInv_raw _ _ _ _ _ _ HH1) as HR. set (hp := g16 (mem a1) (p + rawOff OBody)) in *. pose proof (enc_rawHeaders e a1 q' Hw1 ltac:(lia) ltac:(lia) (p + 16) hp _ ltac:(lia) HR) as ER. cbn [flat_map]. rewrite app_nil_r.
      destruct (N.eqb_spec hp NILPTR) as [E0|E0].
      + rewrite E0 in ER. injection ER as <-. rewrite app_nil_r. reflexivity.
      + rewrite (ePut_ok _ _ _ _ _ ER). rewrite app3. reflexivity. }
  cbn [flat_map]. rewrite app_nil_r. pose proof (HInv_slot OBody _ _ _ _ _ 1%nat KContentLength false HH ltac:(cbn; lia) ltac:(reflexivity)) as S1. unfold slotRep in S1. destruct S1 as [(E1 & E2)|(v & E1 & (q & L1 & L2 & L3 & HV))].
  - exists a. split; [|split; [reflexivity|]; split; [reflexivity|]; split; [auto|exact HH]]. change [1%nat; 2%nat] with ([1%nat] ++ [2%nat]).
    assert (ES : mEncSlot OBody p 1 e a b = EOk tt a b) by (unfold mEncSlot; eapply ebind_ok; [reflexivity|]; rewrite E2; reflexivity).
    specialize (R a b Hw eq_refl eq_refl HH). unfold ebind at 1 in R. unfold ebind at 1. cbn [mEncSlots app]. unfold ebind at 1. rewrite ES. cbn [mEncSlots] in R. rewrite R. unfold slotText at 2. rewrite E1. reflexivity.
  - destruct (cl_value _ _ _ _ _ _ eq_refl HV) as (n & -> & Hn). cbn [hvalSize] in *. set (c := g16 (mem a) (slotAt OBody p 1)) in *.
    set (a1 := setMem a (p32 (mem a) (c + 4) (len (b ++ lengthText n) mod two32))). assert (ES : mEncSlot OBody p 1 e a b = EOk tt a1 (b ++ slotText e OBody h 1)).
    { unfold slotText. rewrite E1. apply enc_lengthSlot; [reflexivity|reflexivity|unfold NILPTR; lia|lia|exact Hn]. }
    assert (Hw1 : wfA e a1) by exact Hw.
    assert (HH1 : HInv OBody (mem a1) p (p + 16) q' h).
    { assert (Eh : mkhset (setNth (hsCommon h) 1 [VNum n]) (hsRaw h) = h) by (rewrite <- E1, setNth_same; destruct h; reflexivity). rewrite <- Eh.
      eapply HInv_upd; [exact HH|cbn; lia|reflexivity|exact E1| | | |].
      - intros i Hi Hr. fold c in Hr. cbn [a1 mem setMem]. apply p32_other. unfold inR in *. lia.
      - intros s' Hs'. cbn [a1 mem setMem]. apply g16_p32. unfold slotAt. cbn [slotsOff slotsNum] in *. left. lia.
      - cbn [a1 mem setMem]. apply g16_p32. cbn [rawOff]. lia.
      - cbn [a1 mem setMem]. fold c. rewrite g32_p32_other by lia. exact Hn. }
    exists a1. split; [|split; [reflexivity|]; split; [reflexivity|]; split; [|exact HH1]].
    + specialize (R a1 (b ++ slotText e OBody h 1) Hw1 eq_refl eq_refl HH1). unfold ebind at 1 in R. unfold ebind at 1. cbn [mEncSlots] in *. unfold ebind at 1. rewrite ES. rewrite R. rewrite !app3. reflexivity.
    + intros i Hi. cbn [a1 mem setMem]. apply p32_other. unfold inR. lia.
Qed.

Lemma data_read e a lo q dp d : wfA e a -> q <= aused a -> q < cap a -> dataOk (mem a) lo q dp d -> eCStr dp e a = WOk d /\ Strlen a dp = Some (len d).
Proof.
  intros Hw Hq Hc [(-> & ->)|Hs]; [split; reflexivity|]. split; [apply (enc_cstr e a q Hw Hq Hc lo _ _ Hs)|].
  destruct Hs as (H1 & H2 & H3 & _). num Hw. unfold Strlen. replace (dp =? NILPTR) with false by (unfold NILPTR; lia). cbv zeta. assert (Eu : u16 (dp + two16 - 2) = dp - 2).
  { unfold u16, two16 in *. replace (dp + 65536 - 2) with (dp - 2 + 1 * 65536) by lia. rewrite N.mod_add by discriminate. apply N.mod_small. lia. }
  rewrite Eu. replace (cap a <? dp - 2 + 2) with false by lia. unfold g16 in H3. rewrite H3. reflexivity.
Qed.
Lemma fixLength_data x : bData (fixLength x) = bData x.
Proof. unfold fixLength. destruct (nth 1 _ _); reflexivity. Qed.
Lemma enc_body e a p q x b : wfA e a -> 8 <= p -> q <= aused a -> q < cap a -> bodyOk (mem a) p p q x ->
  exists a', mEncBody p e a b = EOk tt a' (b ++ encBody e (fixLength x)) /\ aused a' = aused a /\ cap a' = cap a /\ (forall i, ~ (p + 16 <= i < q) -> mem a' i = mem a i) /\ bodyOk (mem a') p p q (fixLength x).
Proof.
  intros Hw H8 Hq Hc (_ & q' & L1 & L2 & HH & HD). destruct (data_read e a _ _ _ _ Hw Hq Hc HD) as (_ & ELn). num Hw.
  assert (P1 : exists a1, (p0 <== eMemory (get16 (slotAt OBody p 1)) ;; (if p0 =? NILPTR then eret tt else eMemory (deref p0 ;~ d <~ get16 (p + 4) ;; n <~ mStrlen d ;; set32 p0 (n mod two32)))) e a b = EOk tt a1 b /\
    aused a1 = aused a /\ cap a1 = cap a /\ (forall i, ~ (p + 16 <= i < q') -> mem a1 i = mem a i) /\ HInv OBody (mem a1) p (p + 16) q' (bHdrs (fixLength x))).
  { pose proof (HInv_slot OBody _ _ _ _ _ 1%nat KContentLength false HH ltac:(cbn; lia) ltac:(reflexivity)) as S1. unfold slotRep in S1. destruct S1 as [(E1 & E2)|(v & E1 & (qq & M1 & M2 & M3 & HV))].
    - exists a. unfold fixLength. rewrite E1. split; [unfold ebind, eMemory, get16; rewrite E2; reflexivity|]. auto.
    - destruct (cl_value _ _ _ _ _ _ eq_refl HV) as (n & -> & Hn). cbn [hvalSize] in *. set (c := g16 (mem a) (slotAt OBody p 1)) in *.
      set (a1 := setMem a (p32 (mem a) c (len (bData x) mod two32))). exists a1. split; [|split; [reflexivity|]; split; [reflexivity|]; split].
      + unfold ebind, eMemory, get16 at 1. fold c. replace (c =? NILPTR) with false by (unfold NILPTR; lia). unfold mbind, deref, get16, mStrlen, set32. replace (cap a <=? c) with false by lia. rewrite ELn. reflexivity.
      + intros i Hi. cbn [a1 mem setMem]. apply p32_other. unfold inR. lia.
      + unfold fixLength. rewrite E1. cbn [bHdrs]. eapply HInv_upd; [exact HH|cbn; lia|reflexivity|exact E1| | | |].
        * intros i Hi Hr. fold c in Hr. cbn [a1 mem setMem]. apply p32_other. unfold inR in *. lia.
        * intros s' Hs'. cbn [a1 mem setMem]. apply g16_p32. unfold slotAt. cbn [slotsOff slotsNum] in *. left. lia.
        * cbn [a1 mem setMem]. apply g16_p32. cbn [rawOff]. lia.
        * cbn [a1 mem setMem]. fold c. apply g32_p32. apply N.mod_lt. discriminate. }
  destruct P1 as (a1 & R1 & U1 & C1 & M1 & HH1). assert (Hw1 : wfA e a1) by (destruct Hw as (W1 & W2 & W3 & W4); unfold wfA; rewrite U1, C1; auto).
  destruct (enc_bodyHdrs e a1 p q' (bHdrs (fixLength x)) b Hw1 H8 ltac:(lia) ltac:(lia) HH1) as (a2 & R2 & U2 & C2 & M2 & HH2). assert (Hw2 : wfA e a2) by (destruct Hw1 as (W1 & W2 & W3 & W4); unfold wfA; rewrite U2, C2; auto).
  assert (MM : forall i, ~ (p + 16 <= i < q') -> mem a2 i = mem a i) by (intros i Hi; rewrite M2, M1 by exact Hi; reflexivity).
  assert (E4 : g16 (mem a2) (p + 4) = g16 (mem a) (p + 4)) by (unfold g16; rewrite !MM by lia; reflexivity).
  assert (HD2 : dataOk (mem a2) q' q (g16 (mem a2) (p + 4)) (bData x)) by (rewrite E4; eapply dataOk_frame; [|exact HD]; intros i Hi; apply MM; lia).
  exists a2. split; [|split; [congruence|]; split; [congruence|]; split; [intros i Hi; apply MM; lia|]].
  - unfold mEncBody. unfold ebind at 1 2. unfold ebind at 1 in R1. destruct (eMemory (get16 (slotAt OBody p 1)) e a b) as [p0 a0 b0| | |]; try discriminate. rewrite R1.
    eapply ebind_ok; [exact R2|]. eapply ebind_ok; [apply ePut_ok; reflexivity|]. eapply ebind_ok; [reflexivity|]. destruct (data_read e a2 q' q _ _ Hw2 ltac:(lia) ltac:(lia) HD2) as (ED & _).
    rewrite (ePut_ok _ _ _ _ _ ED). unfold encBody. rewrite fixLength_data, !app3. reflexivity.
  - split; [reflexivity|]. exists q'. rewrite fixLength_data. auto.
Qed.

(** ** The parts of a message *)
Definition fixT (t : N * N * N * body) : N * N * N * body := (fst t, fixLength (snd t)).
Lemma bvals_all tr : bvals tr = map snd tr.
Proof. unfold valsOf, sel. induction tr as [|t tr IH]; [reflexivity|]. cbn. f_equal. exact IH. Qed.
Lemma bptrs_all tr : bptrs tr = map (fun t => snd (fst (fst t))) tr.
Proof. unfold ptrsOf, sel. induction tr as [|t tr IH]; [reflexivity|]. cbn. f_equal. exact IH. Qed.
Lemma enc_parts e bd hi : forall tr fuel a lo head b, wfA e a -> 8 <= lo -> hi <= aused a -> hi < cap a -> blocks bodyOk (mem a) lo hi tr -> chain 8 (mem a) head (bptrs tr) -> (List.length tr < fuel)%nat ->
  exists a', mEncParts bd fuel head e a b = EOk tt a' (b ++ flat_map (fun x => s2b "--" ++ bd ++ CRLF ++ encBody e (fixLength x) ++ CRLF) (map snd tr)) /\ aused a' = aused a /\ cap a' = cap a /\
    (forall i, ~ (lo <= i < hi) -> mem a' i = mem a i) /\ blocks bodyOk (mem a') lo hi (map fixT tr) /\ chain 8 (mem a') head (bptrs tr).
Proof.
  induction tr as [|[[[b0 p] q] x] tr IH]; intros fuel a lo head b Hw H8 Hh Hc HB HC Hf; (destruct fuel as [|f]; [cbn in Hf; lia|]); cbn [mEncParts].
  - cbn in HC. rewrite HC. exists a. cbn [map flat_map]. rewrite app_nil_r. split; [reflexivity|]. split; [reflexivity|]. split; [reflexivity|]. split; [auto|]. split; [exact HB|reflexivity].
  - rewrite bptrs_all in HC. cbn [map fst snd chain] in HC. destruct HC as (-> & HC). rewrite <- bptrs_all in HC. cbn [blocks] in HB. destruct HB as (L1 & Hok & HB). pose proof Hok as (E0 & q' & L2 & L3 & _). subst b0.
    pose proof (blocks_le bodyOk_in HB) as L4. num Hw. replace (p =? NILPTR) with false by (unfold NILPTR; lia).
    destruct (enc_body e a p q x (((b ++ s2b "--") ++ bd) ++ CRLF) Hw ltac:(lia) ltac:(lia) ltac:(lia) Hok) as (a1 & R1 & U1 & C1 & M1 & Hok1). assert (Hw1 : wfA e a1) by (destruct Hw as (W1 & W2 & W3 & W4); unfold wfA; rewrite U1, C1; auto).
    assert (E8 : g16 (mem a1) (p + 8) = g16 (mem a) (p + 8)) by (unfold g16; rewrite !M1 by lia; reflexivity).
    assert (HB1 : blocks bodyOk (mem a1) q hi tr) by (eapply (blocks_agree bodyOk_frame bodyOk_in); [|exact HB]; intros i Hi; apply M1; lia).
    assert (HC1 : chain 8 (mem a1) (g16 (mem a1) (p + 8)) (bptrs tr)).
    { rewrite E8. eapply chain_ext; [|exact HC]. intros p' Hp'. pose proof (bptrs_in _ _ _ _ _ HB Hp'). unfold g16. rewrite !M1 by lia. reflexivity. }
    destruct (IH f a1 q (g16 (mem a1) (p + 8)) ((((b ++ s2b "--") ++ bd) ++ CRLF) ++ encBody e (fixLength x) ++ CRLF) Hw1 ltac:(lia) ltac:(lia) ltac:(lia) HB1 HC1 ltac:(cbn in Hf; lia)) as (a2 & R2 & U2 & C2 & M2 & B2 & K2).
    exists a2. split; [|split; [congruence|]; split; [congruence|]; split; [intros i Hi; rewrite M2, M1 by lia; reflexivity|]; split].
    + eapply ebind_ok.
      * unfold mEncPart. eapply ebind_ok; [apply ePut_ok; reflexivity|]. eapply ebind_ok; [apply ePut_ok; reflexivity|]. eapply ebind_ok; [apply ePut_ok; reflexivity|].
        eapply ebind_ok; [unfold eMemory, deref; replace (cap a <=? p) with false by lia; reflexivity|]. eapply ebind_ok; [exact R1|]. apply ePut_ok. reflexivity.
      * eapply ebind_ok; [unfold eMemory, mbind, deref, get16; replace (cap a1 <=? p) with false by lia; reflexivity|]. rewrite app3, R2. cbn [map flat_map snd]. rewrite !app3. reflexivity.
    + cbn [map]. unfold fixT at 1. cbn [fst snd blocks]. split; [exact L1|]. split; [|exact B2]. eapply bodyOk_frame; [|exact Hok1]. intros i Hi _. apply M2. lia.
    + rewrite bptrs_all. cbn [map fst snd chain]. rewrite <- bptrs_all. split; [reflexivity|]. replace (g16 (mem a2) (p + 8)) with (g16 (mem a1) (p + 8)); [exact K2|]. unfold g16. rewrite !M2 by lia. reflexivity.
Qed.
