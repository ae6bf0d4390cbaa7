(** TelUri on the arena simulates the value layer. *)
From Verif Require Import Base Charset BaseLemmas Num Lws Str Monad Host Uri Tel Arena ArenaProofs ArenaOpsProofs StrProofs ArenaTop Layout Mem MemSim MemTac MemUri MemRep MemList Inv MemHostProofs MemParamProofs MemUriProofs MemEnc MemEncProofs MemTel.

(** ** The representation *)
(** A number that was never read is NIL and is written like the empty one. *)
Definition telNum (m : N -> N) (lo hi p : N) (n : bytes) : Prop := str m lo hi p n \/ (p = NILPTR /\ n = []).
Lemma telNum_frame m m' lo hi p n : agreeR m m' lo hi -> telNum m lo hi p n -> telNum m' lo hi p n.
Proof. intros Ag [H|H]; [left; eapply str_frame; eauto|right; exact H]. Qed.
Lemma telNum_mono m lo hi lo' hi' p n : telNum m lo hi p n -> lo' <= lo -> hi <= hi' -> telNum m lo' hi' p n.
Proof. intros [H|H] ? ?; [left; eapply str_mono; eauto|right; exact H]. Qed.
Definition repTelUri (m : N -> N) (this lo hi : N) (t : teluri) : Prop :=
  m this = (if tGlobal t then 1 else 0) /\
  m (this + 1) = (if tDomain t then 1 else 0) /\
  telNum m lo hi (g16 m (this + 2)) (tNumber t) /\
  repEntry repUParam 6 m lo hi (g16 m (this + 4)) (tContext t) /\
  repUParams m lo hi (g16 m (this + 6)) (tParams t) /\
  repTable repUParam 6 2 m lo hi (g16 m (this + 8)) (tKnown t).
Lemma repEntry_frame m m' lo hi p o : agreeR m m' lo hi -> repEntry repUParam 6 m lo hi p o -> repEntry repUParam 6 m' lo hi p o.
Proof.
  intros Ag. destruct o as [x|]; [|auto]. intros (G1 & G2 & q & Q1 & Q2 & Q3). split; [exact G1|]. split; [exact G2|]. exists q. split; [exact Q1|]. split; [exact Q2|].
  eapply repUParam_agree; [|exact Q3]. eapply agreeR_sub; [exact Ag|lia|lia].
Qed.
Lemma repEntry_mono m lo hi lo' hi' p o : repEntry repUParam 6 m lo hi p o -> lo' <= lo -> hi <= hi' -> repEntry repUParam 6 m lo' hi' p o.
Proof. destruct o as [x|]; [|auto]. intros (G1 & G2 & q & Q1 & Q2 & Q3) ? ?. split; [lia|]. split; [exact G2|]. exists q. split; [exact Q1|]. split; [lia|exact Q3]. Qed.
Lemma repTelUri_frame m m' this lo hi u : agreeR m m' this (this + 10) -> agreeR m m' lo hi -> repTelUri m this lo hi u -> repTelUri m' this lo hi u.
Proof.
  intros A1 A2 (H1 & H2 & H3 & H4 & H5 & H6). assert (E : forall i, i + 2 <= 10 -> g16 m' (this + i) = g16 m (this + i)) by (intros i Hi; unfold g16; rewrite !A1 by lia; reflexivity).
  unfold repTelUri. rewrite !E by lia. rewrite !A1 by lia. split; [exact H1|]. split; [exact H2|]. split; [eapply telNum_frame; eauto|]. split; [eapply repEntry_frame; eauto|].
  split; [eapply repUParams_frame; eauto|]. eapply repTable_frame; [exact repUParam_agree|exact A2|exact H6].
Qed.
Lemma repTelUri_mono m this lo hi lo' hi' u : repTelUri m this lo hi u -> lo' <= lo -> hi <= hi' -> repTelUri m this lo' hi' u.
Proof.
  intros (H1 & H2 & H3 & H4 & H5 & H6) L1 L2. split; [exact H1|]. split; [exact H2|]. split; [eapply telNum_mono; eauto|]. split; [eapply repEntry_mono; eauto|].
  split; [eapply repList_mono; eauto|]. eapply repTable_mono; eauto.
Qed.

(** ** RemoveTelUriVisualSeperator *)
Lemma RemoveVisual_str e a lo hi p b : wfA e a -> str (mem a) lo hi p b -> hi <= aused a -> p < cap a -> 8 <= lo ->
  exists a', RemoveTelUriVisualSeperator p a = Some a' /\ wfA e a' /\ aused a' = aused a /\ keeps (inR (p - 2) (2 + len b)) a a' /\ str (mem a') lo hi p (removeVisual b).
Proof.
  intros Hw (H1 & H2 & H3 & H4) Hh Hp H8. pose proof Hw as (W1 & Hc & W3 & W4).
  assert (Hfl : len (removeVisual b) <= len b).
  { unfold removeVisual, len. clear. induction b as [|x b IH]; cbn; [lia|]. destruct (negb _); cbn; lia. }
  unfold RemoveTelUriVisualSeperator.
  assert (ES : Strlen a p = Some (len b)).
  { unfold Strlen, NILPTR. replace (p =? 0) with false by lia.
    assert (E : u16 (p + two16 - 2) = p - 2).
    { unfold u16. replace (p + two16 - 2) with (p - 2 + 1 * two16) by (unfold two16; lia). rewrite N.mod_add by discriminate. apply N.mod_small. unfold two16 in *; lia. }
    rewrite E. replace (cap a <? p - 2 + 2) with false by lia. f_equal. exact H3. }
  rewrite ES. destruct (visLoop_spec (N.to_nat (len b)) (mem a) p p ltac:(lia)) as (V1 & V2 & V3).
  assert (Erd : readBytes (mem a) p (N.to_nat (len b)) = b) by (unfold len; rewrite Nat2N.id; exact H4).
  rewrite Erd in *. destruct (visLoop (mem a) p p (N.to_nat (len b))) as [m w]. cbn [fst snd] in *. subst w.
  unfold putUint16. cbn [cap mem setMem]. replace (cap a <? p - 2 + 2) with false by lia.
  replace (p + len (removeVisual b) - p) with (len (removeVisual b)) by lia.
  set (m' := upd (upd m _ _) _ _). eexists. split; [reflexivity|]. split; [|split; [reflexivity|split]].
  - repeat split; auto.
  - repeat split; cbn; try lia. intros i Hi Hr. unfold inR in Hr. unfold m'. rewrite !upd_other by lia. apply V3. rewrite N2Nat.id. lia.
  - cbn [mem setMem]. split; [exact H1|]. split; [lia|]. split.
    + unfold g16, m'. rewrite upd_same. rewrite upd_other by lia. rewrite upd_same.
      pose proof (N.div_mod (u16 (len (removeVisual b))) 256 ltac:(discriminate)). rewrite u16_small in * by (unfold two16 in *; lia). lia.
    + etransitivity; [|exact V2]. apply readBytes_ext. intros i Hi. unfold m'. rewrite !upd_other by lia. reflexivity.
Qed.

Lemma firstByte_empty e a lo hi p r : wfA e a -> str (mem a) lo hi p [] -> hi <= aused a -> mFirstByte p e a r = MPanic.
Proof.
  intros Hw (H1 & H2 & H3 & _) Hh. num Hw. unfold mFirstByte, readCString. replace (p =? NILPTR) with false by (unfold NILPTR; lia). cbn [len List.length] in *.
  assert (ES : Strlen a p = Some 0).
  { unfold Strlen, NILPTR. replace (p =? 0) with false by lia.
    assert (E : u16 (p + two16 - 2) = p - 2).
    { unfold u16. replace (p + two16 - 2) with (p - 2 + 1 * two16) by (unfold two16; lia). rewrite N.mod_add by discriminate. apply N.mod_small. unfold two16 in *; lia. }
    rewrite E. replace (cap a <? p - 2 + 2) with false by lia. f_equal. exact H3. }
  rewrite ES. destruct (cap a <=? p); reflexivity.
Qed.
Lemma firstByte_str e a lo hi p x b r : wfA e a -> str (mem a) lo hi p (x :: b) -> hi <= aused a -> mFirstByte p e a r = MOk x a r.
Proof.
  intros Hw Hs Hh. num Hw. unfold mFirstByte. rewrite (str_nonnil _ _ _ _ _ Hs). rewrite (str_read e a _ _ _ _ Hw Hs Hh); [reflexivity|].
  destruct Hs as (_ & G & _). rewrite len_cons in G. lia.
Qed.

Section TelParams.
  Variables (e : env) (this lo : N).
  Hypothesis H8 : 8 <= this.
  Hypothesis Hlo : this + 10 <= lo.
  Notation TL := (LInv repUParam 6 4 2).
  Lemma TL_frame m m' hi hi' head prev t k l : agreeR m m' lo hi -> hi <= hi' -> TL m lo hi head prev t k l -> TL m' lo hi' head prev t k l.
  Proof. apply LInv_frame; [lia|exact repUParam_frame]. Qed.

  Definition telV := ((option uparam * bool) * (known uparam * list uparam))%type.
  (** The context parameter is apart from the table and from the last element of the list. *)
  Definition ctxJ (m : N -> N) (hi prev t c : N) (o : option uparam) : Prop :=
    match o with
    | None => c = NILPTR
    | Some x => exists q, lo <= c /\ c + 6 <= q /\ q <= hi /\ repUParam m c q x /\ (prev = NILPTR \/ prev + 6 <= c \/ q <= prev) /\ (t = NILPTR \/ t + 4 <= c \/ q <= t)
    end.
  Definition telJ : arena -> N * N -> telV -> Prop := fun a hp v =>
    lo <= aused a /\ TL (mem a) lo (aused a) (fst hp) (snd hp) (g16 (mem a) (this + 8)) (fst (snd v)) (snd (snd v)) /\
    mem a (this + 1) = (if snd (fst v) then 1 else 0) /\ ctxJ (mem a) (aused a) (snd hp) (g16 (mem a) (this + 8)) (g16 (mem a) (this + 4)) (fst (fst v)).
  Definition telW : N -> Prop := orS (inR (this + 1) 1) (orS (inR (this + 4) 2) (orS (inR (this + 8) 2) (from lo))).

  Lemma ctxJ_frame m m' hi hi' prev t c o : agreeR m m' lo hi -> hi <= hi' -> ctxJ m hi prev t c o -> ctxJ m' hi' prev t c o.
  Proof.
    intros Ag L. destruct o as [x|]; [|auto]. intros (q & Q1 & Q2 & Q3 & Q4 & Q5). exists q. split; [exact Q1|]. split; [exact Q2|]. split; [lia|]. split; [|exact Q5].
    eapply repUParam_agree; [|exact Q4]. eapply agreeR_sub; [exact Ag|lia|lia].
  Qed.

  Lemma sim_telParamOne cn cv hp v a r : wfA e a -> telJ a hp v ->
    sim e telW (mUriParamOne cn cv (Some (mTelSet this)) hp) (uriParamOne cn cv telSet v) telJ a r.
  Proof.
    intros Hw (Hla & HJ & HB & HC). num Hw. unfold mUriParamOne, uriParamOne. unfold telW in *.
    eapply (sim_bind e _ nowhere); [apply sim_new; [exact Hw|lia|lia]|exact Hw|slia|]. intros p [] a1 r1 Hw1 K1 (-> & U1 & Z1). num K1.
    set (hi := aused a) in *.
    eapply TL_frame in HJ; [|agr K1|apply N.le_refl]. eapply ctxJ_frame in HC; [|agr K1|apply N.le_refl].
    replace (g16 (mem a) (this + 8)) with (g16 (mem a1) (this + 8)) in HJ, HC by (eapply g16_frame; [|reflexivity]; agr K1).
    replace (g16 (mem a) (this + 4)) with (g16 (mem a1) (this + 4)) in HC by (eapply g16_frame; [|reflexivity]; agr K1).
    carry1 K1.
    eapply (sim_bind e _ (inR hi 4)); [apply sim_uriParam; [exact Hw1|lia|lia|exact Z1]|exact Hw1|slia|]. intros [] x a2 r2 Hw2 K2 (mid & Hm1 & Hm2 & Hs & Hv & Hne).
    assert (Hz : g16 (mem a2) (hi + 4) = NILPTR) by (eapply g16_frame; [|eapply zeros16; [exact Z1|lia|lia]]; agr K2). num K2. clear Z1.
    eapply TL_frame in HJ; [|agr K2|apply N.le_refl]. eapply ctxJ_frame in HC; [|agr K2|apply N.le_refl].
    replace (g16 (mem a1) (this + 8)) with (g16 (mem a2) (this + 8)) in HJ, HC by (eapply g16_frame; [|reflexivity]; agr K2).
    replace (g16 (mem a1) (this + 4)) with (g16 (mem a2) (this + 4)) in HC by (eapply g16_frame; [|reflexivity]; agr K2).
    repeat carry1 K2.
    apply sim_assoc, sim_get16. pose proof (LInv_head repUParam 6 4 2 ltac:(lia) repUParam_frame _ _ _ _ _ _ _ _ HJ) as (_ & Hpv & Htb & _).
    pose proof (str_small _ _ _ _ _ _ _ Hs Hw2 Hm2) as Hsm.
    assert (Hsl : g16 (mem a2) hi < aused a2) by (destruct Hs as (_ & G & _); destruct (upName x); [congruence|]; rewrite len_cons in G; lia).
    assert (Hnode : repUParam (mem a2) hi (aused a2) x) by (split; [eapply str_mono; [exact Hs|lia|lia]|eapply ostr_mono; [exact Hv|lia|lia]]).
    destruct v as [[ctx dom] [k l]]. cbn [fst snd] in *. unfold mTelSet, telSet. cbn [fst snd]. apply sim_assoc.
    assert (Eq : mEqualNoCase (g16 (mem a2) hi) (s2b "phone-context") e a2 r2 = MOk (equalNoCase (upName x) (s2b "phone-context")) a2 r2).
    { unfold mEqualNoCase. rewrite (str_nonnil _ _ _ _ _ Hs). rewrite (str_read e a2 _ _ _ _ Hw2 Hs Hm2 ltac:(lia)). reflexivity. }
    eapply sim_left; [exact Eq|apply (keeps_refl _ e a2 Hw2)|reflexivity|].
    destruct (equalNoCase (upName x) (s2b "phone-context")).
    - (* the context *)
      apply sim_assoc. apply sim_set16; [exact Hw2|unfold two16; lia|slia|]. intros a3 Hw3 K3 U3 V3. num K3.
      apply sim_assoc. apply sim_deref0; [exact Hw3|lia|]. apply sim_assoc, sim_get16.
      assert (E2 : g16 (mem a3) (hi + 2) = g16 (mem a2) (hi + 2)) by (eapply g16_frame; [|reflexivity]; agr K3). rewrite E2.
      assert (Hv3 : ostr (mem a3) mid (aused a2) (g16 (mem a2) (hi + 2)) (upValue x)) by (eapply ostr_frame; [agr K3|eapply ostr_mono; [exact Hv|lia|lia]]).
      assert (Hs3 : str (mem a3) (hi + 6) mid (g16 (mem a2) hi) (upName x)) by (eapply str_frame; [agr K3|eapply str_mono; [exact Hs|lia|lia]]).
      assert (E0 : g16 (mem a3) hi = g16 (mem a2) hi) by (eapply g16_frame; [|reflexivity]; agr K3).
      destruct (upValue x) as [[|y vv]|] eqn:Ev; cbn [ostr] in Hv3.
      + apply sim_assoc. intros _. unfold mbind at 1. rewrite (firstByte_empty e a3 _ _ _ _ Hw3 Hv3 ltac:(lia)). reflexivity.
      + apply sim_assoc. eapply sim_left; [eapply firstByte_str; [exact Hw3|exact Hv3|lia]|apply (keeps_refl _ e a3 Hw3)|reflexivity|]. apply sim_assoc.
        apply sim_set8; [exact Hw3|slia|]. intros a4 Hw4 K4 U4 V4. num K4.
        assert (HJ4 : TL (mem a4) lo hi (fst hp) (snd hp) (g16 (mem a4) (this + 8)) k l).
        { replace (g16 (mem a4) (this + 8)) with (g16 (mem a2) (this + 8)) by (symmetry; transitivity (g16 (mem a3) (this + 8)); eapply g16_frame; try reflexivity; [agr K4|agr K3]).
          eapply TL_frame; [|apply N.le_refl|eapply TL_frame; [|apply N.le_refl|exact HJ]]; [agr K4|agr K3]. }
        pose proof (LInv_head repUParam 6 4 2 ltac:(lia) repUParam_frame _ _ _ _ _ _ _ _ HJ4) as (_ & Hpv4 & Htb4 & _).
        assert (Far : forall m' hi' x', aused a2 <= hi' -> repUParam m' hi (aused a2) x' -> ctxJ m' hi' (snd hp) (g16 (mem a4) (this + 8)) hi (Some x')).
        { intros m' hi' x' L Hx'. exists (aused a2). split; [lia|]. split; [lia|]. split; [lia|]. split; [exact Hx'|]. lia. }
        repeat carry1 K4.
        destruct (y =? 43); cbn [negb].
        * apply sim_assoc.
          destruct (RemoveVisual_str e a4 _ _ _ _ Hw4 Hv3) as (a5 & R5 & Hw5 & U5 & K5 & S5); [lia| |lia|].
          { destruct Hv3 as (_ & G & _). rewrite len_cons in G. lia. }
          num K5. assert (Gb : mid <= g16 (mem a2) (hi + 2) - 2 /\ g16 (mem a2) (hi + 2) + len (y :: vv) <= aused a2) by (destruct Hv3 as (G1 & G2 & _); lia).
          eapply (sim_left e _ _ _ _ tt a5); [unfold mRemoveVisual; rewrite R5; reflexivity|eapply keeps_sub; [exact K5|slia]|exact U5|].
          apply sim_ret_bind. apply sim_ret; [exact Hw5|]. split; [lia|]. cbn [fst snd].
          assert (Et : g16 (mem a5) (this + 8) = g16 (mem a4) (this + 8)) by (eapply g16_frame; [|reflexivity]; agr K5). rewrite Et.
          split; [eapply TL_frame; [| |exact HJ4]; [agr K5|lia]|].
          split; [transitivity (mem a4 (this + 1)); [apply K5; slia|exact V4]|].
          assert (V5 : g16 (mem a5) (this + 4) = hi) by (eapply g16_frame; [|exact V3]; agr K5). rewrite V5.
          assert (E05 : g16 (mem a5) hi = g16 (mem a2) hi) by (eapply g16_frame; [|exact E0]; agr K5).
          assert (E25 : g16 (mem a5) (hi + 2) = g16 (mem a2) (hi + 2)) by (eapply g16_frame; [|exact E2]; agr K5).
          apply Far; [lia|]. split; cbn [upName upValue ostr]; [rewrite E05|rewrite E25; eapply str_mono; [exact S5|lia|lia]].
          eapply str_mono; [eapply str_frame; [|exact Hs3]|lia|lia]. agr K5.
        * apply sim_assoc. apply sim_ret_bind. apply sim_ret_bind. apply sim_ret; [exact Hw4|]. split; [lia|]. cbn [fst snd].
          split; [eapply TL_frame; [intros i _; reflexivity| |exact HJ4]; lia|]. split; [exact V4|]. rewrite V3.
          apply Far; [lia|]. split; [rewrite E0; eapply str_mono; [exact Hs3|lia|lia]|rewrite E2, Ev; eapply str_mono; [exact Hv3|lia|lia]].
      + rewrite Hv3. intros _. reflexivity.
    - apply sim_withEnvL. eapply sim_sub; [eapply sim_mapR; [apply (sim_addParam repUParam 6 4 telKnownNames upName ltac:(lia) repUParam_frame e ltac:(vm_compute; split; reflexivity) (fTelUriKnown e) lo hi (this + 8) k l x hi (aused a2) (g16 (mem a2) hi) hp a2 r2 Hw2); try lia; auto|]|].
      + eapply str_mono; [exact Hs|lia|lia].
      + intros _ G. vm_compute in G. discriminate.
      + intros a' hp' [k' l'] K' (HL & Hp' & Ht'). num K'. cbn [fst snd] in *. split; [lia|]. cbn [fst snd].
        unfold apW in K'. change (N.of_nat (List.length telKnownNames)) with 2 in K'. unfold newT in Ht'.
        split; [exact HL|]. split; [rewrite <- HB; apply K'; slia|].
        assert (E4 : g16 (mem a') (this + 4) = g16 (mem a2) (this + 4)) by (eapply g16_frame; [|reflexivity]; agr K'). rewrite E4.
        destruct ctx as [cx|]; [|exact HC]. destruct HC as (q & Q1 & Q2 & Q3 & Q4 & Q5 & Q6). exists q. split; [exact Q1|]. split; [exact Q2|]. split; [lia|].
        split; [|split; [|destruct Ht' as [Ht'|[Ht'|Ht']]; lia]].
        * eapply repUParam_agree; [|exact Q4]. agr K'.
        * destruct Hp' as [Hp'|Hp']; lia.
      + unfold apW. change (N.of_nat (List.length telKnownNames)) with 2. slia.
  Qed.
  Lemma sim_telParams cn cv a r : wfA e a -> lo <= aused a -> g16 (mem a) (this + 8) = NILPTR -> g16 (mem a) (this + 4) = NILPTR -> mem a (this + 1) = 0 ->
    sim e telW (mUriParams cn cv (Some (mTelSet this))) (parseUriParams cn cv telSet ((None, false), (None, [])))
      (fun a' p v => exists hp, fst hp = p /\ telJ a' hp v) a r.
  Proof.
    intros Hw Hla Z8 Z4 Z1. num Hw. apply sim_onRest. destruct r as [|x r1]; [apply sim_fail, Hw|].
    apply (sim_bindR e _ telW _ _ _ telJ); [|exact Hw|auto|].
    - apply sim_sepLoop; [|exact Hw|].
      + intros hp v a0 r0 Hw0 HJ. apply sim_telParamOne; auto.
      + split; [exact Hla|]. cbn [fst snd]. rewrite Z8. split; [apply LInv_nil; lia|]. split; [exact Z1|exact Z4].
    - intros hp v a1 r2 Hw1 K1 HJ. apply sim_ret; [exact Hw1|]. exists hp. auto.
  Qed.
End TelParams.

Section TelUri.
  Variables (e : env) (this : N).
  Hypothesis H8 : 8 <= this.
  Definition telQ (lo : N) : arena -> unit -> teluri -> Prop := fun a' _ v => repTelUri (mem a') this lo (aused a') v.
  Definition numQ (lo : N) : arena -> unit -> bool * bytes -> Prop := fun a' _ v =>
    mem a' this = (if fst v then 1 else 0) /\ str (mem a') lo (aused a') (g16 (mem a') (this + 2)) (snd v).
  Lemma sim_telNumber a r : wfA e a -> this + 10 <= aused a ->
    sim e (orS (inR this 1) (inR (this + 2) 2)) (mTelNumber this) parseTelNumber (numQ (aused a)) a r.
  Proof.
    intros Hw Hl. num Hw. apply sim_onRest. destruct r as [|x r1]; [apply sim_fail, Hw|].
    assert (G : forall cs b, sim e (orS (inR this 1) (inR (this + 2) 2)) (mInto (this + 2) (mStr (ParseAndAllocTelNumber cs)) ;~ set8 this (if b : bool then 1 else 0)) (n <- paTelNumber cs ;; ret (b, n)) (numQ (aused a)) a (x :: r1)).
    { intros cs b. eapply (sim_bind e _ (orS nowhere (inR (this + 2) 2))); [eapply sim_into; [exact Hw|apply sim_Tel; exact Hw|intros a' q v K (_ & Hq & _); exact Hq]|exact Hw|slia|].
      intros [] v a2 r2 Hw2 K2 (q & a1 & (S1 & S2 & S3 & S4) & K1 & U1 & V1). num K2. num K1. repeat carry1 K1.
      apply sim_eta. apply sim_set8; [exact Hw2|slia|]. intros a3 Hw3 K3 U3 V3. num K3. repeat carry1 K3. apply sim_ret; [exact Hw3|].
      split; cbn [fst snd]; [exact V3|]. rewrite V1. eapply str_mono; [exact S1|lia|lia]. }
    destruct (x =? 43); [apply (G _ true)|apply (G _ false)].
  Qed.
  Lemma sim_telAfterSchemeNoParam a r : wfA e a -> this + 10 <= aused a -> zeros (mem a) this 10 ->
    sim e (inR this 10) (mTelAfterSchemeNoParam this) parseTelAfterSchemeNoParam (telQ (aused a)) a r.
  Proof.
    intros Hw Hl Z. num Hw. eapply sim_sub; [eapply sim_mapR; [apply sim_telNumber; auto|]|slia].
    intros a' [] [g n] K (G1 & G2). cbn [fst snd] in *. num K. unfold telQ, repTelUri. cbn [tGlobal tDomain tNumber tContext tKnown tParams].
    assert (Zk : forall i, i = 4 \/ i = 6 \/ i = 8 -> g16 (mem a') (this + i) = NILPTR).
    { intros i Hi. eapply g16_frame; [|eapply zeros16; [exact Z|lia|lia]]. agr K. }
    split; [exact G1|]. split; [|split; [left; exact G2|]].
    - transitivity (mem a (this + 1)); [apply K; slia|apply Z; lia].
    - split; [apply Zk; lia|]. split; apply Zk; lia.
  Qed.
  Lemma sim_telAfterScheme a r : wfA e a -> this + 10 <= aused a -> zeros (mem a) this 10 ->
    sim e (inR this 10) (mTelAfterScheme this) parseTelAfterScheme (telQ (aused a)) a r.
  Proof.
    intros Hw Hl Z. num Hw. eapply (sim_bind e _ (orS (inR this 1) (inR (this + 2) 2))); [apply sim_telNumber; auto|exact Hw|slia|].
    intros [] [g n] a1 r1 Hw1 K1 (G1 & G2). cbn [fst snd] in *. num K1.
    assert (Z1 : forall i, i = 4 \/ i = 6 \/ i = 8 -> g16 (mem a1) (this + i) = NILPTR).
    { intros i Hi. eapply g16_frame; [|eapply zeros16; [exact Z|lia|lia]]. agr K1. }
    assert (Zb : mem a1 (this + 1) = 0) by (transitivity (mem a (this + 1)); [apply K1; slia|apply Z; lia]). clear Z.
    apply sim_onRest.
    assert (N0 : forall (W : N -> Prop) r, sim e W (mret tt) (ret (mktel g false n None None [])) (telQ (aused a)) a1 r).
    { intros W r0. apply sim_ret; [exact Hw1|]. split; [exact G1|]. split; [exact Zb|]. split; [left; exact G2|]. split; [apply Z1; lia|]. split; apply Z1; lia. }
    destruct r1 as [|x r1]; [apply N0|]. destruct (x =? 59); [|apply N0]. apply sim_goto_bind.
    eapply sim_sub; [eapply sim_mapR; [eapply sim_into; [exact Hw1|apply (sim_telParams e this (aused a1)); auto; try lia; apply Z1; lia|]|]|unfold telW; slia].
    - intros a' q v K' (hp & <- & (L1 & L2 & _)). num K'. destruct (LInv_head repUParam 6 4 2 ltac:(lia) repUParam_frame _ _ _ _ _ _ _ _ L2) as ([->|G] & _); [reflexivity|]. unfold two16. lia.
    - intros a3 [] [[ctx dom] [k ps]] K3 (q & a2 & (hp & <- & (L1 & L2 & L3 & L4)) & K23 & U23 & V). unfold telW in K3. num K3. num K23. cbn [fst snd] in *.
      pose proof (LInv_list repUParam 6 4 2 ltac:(lia) repUParam_frame _ _ _ _ _ _ _ _ L2) as P1.
      pose proof (LInv_table repUParam 6 4 2 ltac:(lia) repUParam_frame _ _ _ _ _ _ _ _ L2) as P2. clear L2.
      assert (A3 : agreeR (mem a2) (mem a3) (aused a1) (aused a2)) by agr K23.
      assert (E8 : g16 (mem a3) (this + 8) = g16 (mem a2) (this + 8)) by (eapply g16_frame; [|reflexivity]; agr K23).
      assert (E4 : g16 (mem a3) (this + 4) = g16 (mem a2) (this + 4)) by (eapply g16_frame; [|reflexivity]; agr K23).
      assert (E2 : g16 (mem a3) (this + 2) = g16 (mem a1) (this + 2)) by (eapply g16_frame; [|reflexivity]; agr K3).
      split; cbn [tGlobal tDomain tNumber tContext tKnown tParams].
      { transitivity (mem a1 this); [apply K3; slia|exact G1]. }
      split. { transitivity (mem a2 (this + 1)); [apply K23; slia|exact L3]. }
      split. { rewrite E2. left. eapply str_mono; [eapply str_frame; [|exact G2]; agr K3|lia|lia]. }
      split. { rewrite E4. destruct ctx as [cx|]; [|exact L4]. destruct L4 as (q & Q1 & Q2 & Q3 & Q4 & _). split; [lia|]. split; [unfold NILPTR; lia|]. exists q. split; [exact Q2|]. split; [lia|].
               eapply repUParam_agree; [|exact Q4]. eapply agreeR_sub; [exact A3|lia|lia]. }
      split. { rewrite V. eapply repList_mono; [eapply repUParams_frame; [exact A3|exact P1]|lia|lia]. }
      rewrite E8. eapply repTable_mono; [eapply repTable_frame; [exact repUParam_agree|exact A3|exact P2]|lia|lia].
  Qed.
  Lemma sim_telUri a r : wfA e a -> this + 10 <= aused a -> zeros (mem a) this 10 ->
    sim e (inR this 10) (mTelUriWithoutInit this) parseTelUri (telQ (aused a)) a r.
  Proof.
    intros Hw Hl Z. num Hw. eapply (sim_bind e _ nowhere _ _ _ _ (fun a' _ _ => a' = a)); [|exact Hw|slia|].
    - apply sim_onRest. destruct r as [|c1 [|c2 [|c3 [|c4 r1]]]]; try (apply sim_fail, Hw). destruct (lc c1 116 && lc c2 101 && lc c3 108 && lc c4 58); [|apply sim_fail, Hw].
      apply sim_goto; auto.
    - intros [] [] a1 r1 Hw1 K1 ->. eapply sim_sub; [apply sim_telAfterScheme; auto|slia].
  Qed.
End TelUri.

(** ** Encode *)
Theorem enc_telUri e a hi this lo u : wfA e a -> hi <= aused a -> hi < cap a -> 8 <= lo -> repTelUri (mem a) this lo hi u -> mEncTelUri this e a = WOk (encTelUri e u).
Proof.
  intros Hw Hh Hc H8 (H1 & H2 & H3 & H4 & H5 & H6). unfold mEncTelUri, eMem, encTelUri. apply enc_app; [reflexivity|]. apply enc_app; [destruct H3 as [H3|(-> & ->)]; [eapply enc_cstr; eauto|reflexivity]|]. apply enc_app.
  - rewrite H1. destruct (tGlobal u); [reflexivity|]. cbn [N.eqb]. destruct (tContext u) as [x|]; [|cbn [repEntry] in H4; rewrite H4; reflexivity].
    destruct H4 as (G1 & G2 & q & Q1 & Q2 & Q3). replace (g16 (mem a) (this + 4) =? NILPTR) with false by lia. cbn [negb].
    apply enc_app; [reflexivity|]. eapply (enc_deref e a hi Hh Hc); [lia|]. eapply enc_uriValue with (lo := g16 (mem a) (this + 4) + 6) (hi := hi); eauto. eapply ostr_mono; [exact (proj2 Q3)|lia|lia].
  - pose proof (enc_uriParams e a hi Hw Hh Hc TEL_PNAME TEL_PVALUE lo _ _ H8 H5) as E5. pose proof (enc_uriKnown e a hi Hw Hh Hc TEL_PVALUE telKnownNames lo _ _ H8 H6) as E6.
    destruct (N.eqb_spec (g16 (mem a) (this + 8)) NILPTR) as [E|E]; cbn [negb].
    + rewrite E in E6. injection E6 as <-. exact E5.
    + apply enc_app; [exact E6|exact E5].
Qed.

