(** Bodies and whole messages on the arena simulate the value layer. *)
From Verif Require Import Base Charset BaseLemmas Num Lws Str Monad MethodTree HeaderTree Lookup NameSpec NameProofs Host Uri Tel GenParam Addr StartLine Headers RawHeaders Msg Arena ArenaProofs ArenaOpsProofs StrProofs ArenaTop Layout Mem MemSim MemTac MemUri MemRep MemList Inv MemHostProofs MemParamProofs MemUriProofs MemSipUriProofs MemEnc MemEncProofs MemTel MemTelProofs MemGen MemGenProofs MemAddr MemAddrProofs MemSteps MemStart MemStartProofs MemHdr MemHdrProofs MemBlocks MemMsg MemMsgProofs MemHeadersProofs.

(** ** The representation *)
(** A SipMsgBody, then its headers, then its data. *)
Definition dataOk (m : N -> N) (lo hi q : N) (d : bytes) : Prop := (q = NILPTR /\ d = []) \/ str m lo hi q d.
Definition bodyOk (m : N -> N) (b p q : N) (x : body) : Prop :=
  b = p /\ exists q', p + 16 <= q' /\ q' <= q /\ HInv OBody m p (p + 16) q' (bHdrs x) /\ dataOk m q' q (g16 m (p + 4)) (bData x).
Definition bodyNext (x : body) : option N := Some 8.
Definition bodyLid (x : body) : nat := 0%nat.
Notation bptrs := (ptrsOf bodyLid 0).
Notation bvals := (valsOf bodyLid 0).
Definition bodiesInv (m : N -> N) (lo hi head prev : N) (bs : list body) : Prop :=
  exists tr, blocks bodyOk m lo hi tr /\ chain 8 m head (bptrs tr) /\ prev = last (bptrs tr) NILPTR /\ bvals tr = bs.
Definition repMsg (m : N -> N) (this lo hi : N) (x : msg) : Prop :=
  exists q1 q2 prev, lo <= q1 /\ q1 <= q2 /\ zeros m (this + 58) 6 /\ repStartLine m this lo q1 (mStart x) /\ HInv OMsg m this q1 q2 (mHdrs x) /\ bodiesInv m q2 hi (g16 m (this + 66)) prev (mBodies x).

Lemma dataOk_frame m m' lo hi q d : agreeR m m' lo hi -> dataOk m lo hi q d -> dataOk m' lo hi q d.
Proof. intros A [H|H]; [now left|right; eapply str_frame; eauto]. Qed.
Lemma bodyOk_frame m m' b p q x : (forall i, b <= i < q -> ~ nextR bodyNext x p i -> m' i = m i) -> bodyOk m b p q x -> bodyOk m' b p q x.
Proof.
  intros A (-> & q' & L1 & L2 & H1 & H2). unfold nextR, bodyNext in A. split; [reflexivity|]. exists q'. split; [exact L1|]. split; [exact L2|].
  assert (G : forall i, p <= i -> i + 2 <= q -> i + 2 <= p + 8 \/ p + 10 <= i -> g16 m' i = g16 m i) by (intros i M1 M2 M3; unfold g16; rewrite !A by slia; reflexivity).
  split.
  - eapply HInv_frame; [| | |exact H1].
    + intros i Hi. apply A; slia.
    + intros s Hs. unfold slotAt. cbn [slotsOff slotsNum] in *. apply G; lia.
    + cbn [rawOff]. apply G; lia.
  - rewrite G by lia. eapply dataOk_frame; [|exact H2]. intros i Hi. apply A; slia.
Qed.
Lemma bodyOk_in m b p q x : bodyOk m b p q x -> b <= p /\ p < q /\ forall n, bodyNext x = Some n -> p + n + 2 <= q.
Proof. intros (-> & q' & L1 & L2 & _). split; [lia|]. split; [lia|]. unfold bodyNext. intros n E. injection E as <-. lia. Qed.
Lemma next_body (x : body) : bodyLid x = 0%nat -> bodyNext x = Some 8.
Proof. reflexivity. Qed.
Lemma bptrs_in m lo hi tr p : blocks bodyOk m lo hi tr -> In p (bptrs tr) -> lo <= p /\ p + 16 <= hi.
Proof.
  intros H Hp. apply ptrsOf_in in Hp as (b & q & x & Hin & _). pose proof (blocks_in bodyOk_in H Hin) as (L1 & L2 & (-> & q' & L3 & L4 & _)). lia.
Qed.
Lemma bodiesInv_frame m m' lo hi head prev bs : agreeR m m' lo hi -> bodiesInv m lo hi head prev bs -> bodiesInv m' lo hi head prev bs.
Proof.
  intros A (tr & H1 & H2 & H3 & H4). exists tr. split; [eapply (blocks_agree bodyOk_frame bodyOk_in); eauto|]. split; [|auto].
  eapply chain_ext; [|exact H2]. intros p Hp. pose proof (bptrs_in _ _ _ _ _ H1 Hp). unfold g16. rewrite !A by lia. reflexivity.
Qed.
Lemma bodiesInv_hi m lo hi hi' head prev bs : bodiesInv m lo hi head prev bs -> hi <= hi' -> bodiesInv m lo hi' head prev bs.
Proof. intros (tr & H1 & H2) L. exists tr. split; [eapply blocks_hi; eauto|exact H2]. Qed.
Lemma bodiesInv_le m lo hi head prev bs : bodiesInv m lo hi head prev bs -> lo <= hi.
Proof. intros (tr & H & _). apply (blocks_le bodyOk_in H). Qed.
Lemma bodiesInv_nil m lo hi : lo <= hi -> bodiesInv m lo hi NILPTR NILPTR [].
Proof. intros L. exists []. split; [exact L|]. split; [reflexivity|]. split; reflexivity. Qed.
Lemma HInv_le o m this lo hi h : HInv o m this lo hi h -> lo <= hi.
Proof. intros (tr & H & _). apply (blocks_le (itemOk_in o) H). Qed.
Lemma repMsg_frame m m' this lo hi x : agreeR m m' this (this + 68) -> agreeR m m' lo hi -> repMsg m this lo hi x -> repMsg m' this lo hi x.
Proof.
  intros A1 A2 (q1 & q2 & prev & L1 & L2 & H0 & H1 & H2 & H3). pose proof (bodiesInv_le _ _ _ _ _ _ H3) as L3. exists q1, q2, prev. split; [exact L1|]. split; [exact L2|].
  assert (G : forall i, this <= i -> i + 2 <= this + 68 -> g16 m' i = g16 m i) by (intros i M1 M2; unfold g16; rewrite !A1 by lia; reflexivity).
  split; [eapply zeros_frame; [eapply agreeR_sub; [exact A1|lia|lia]|exact H0]|].
  split; [eapply repStartLine_frame; [| |exact H1]; [eapply agreeR_sub; [exact A1|lia|lia]|eapply agreeR_sub; [exact A2|lia|lia]]|].
  split; [|rewrite G by lia; eapply bodiesInv_frame; [|exact H3]; eapply agreeR_sub; [exact A2|lia|lia]].
  eapply HInv_frame; [eapply agreeR_sub; [exact A2|lia|lia]| | |exact H2].
  - intros s Hs. unfold slotAt. cbn [slotsOff slotsNum] in *. apply G; lia.
  - cbn [rawOff]. apply G; lia.
Qed.

(** ** Entries of the array *)
Lemma slot_read o m this lo hi h s k : HInv o m this lo hi h -> (s < slotsNum o)%nat -> slotKind o s = Some (k, false) ->
  (nth s (hsCommon h) [] = [] /\ g16 m (slotAt o this s) = NILPTR) \/
  exists v q, nth s (hsCommon h) [] = [v] /\ lo <= g16 m (slotAt o this s) /\ q <= hi /\ itemOk o m (g16 m (slotAt o this s)) (g16 m (slotAt o this s)) q (IVal s v).
Proof.
  intros (tr & B & _ & L & S0) Hs Ek. specialize (S0 s Hs). unfold slotInv in S0. rewrite Ek in S0. destruct S0 as (E1 & E2). unfold iptrs, ivals, ptrsOf, valsOf in *.
  destruct (sel itemLid (S s) tr) as [|t l] eqn:Es using rev_ind.
  - left. cbn in E1, E2. split; [destruct (nth s (hsCommon h) []); [reflexivity|discriminate]|exact E1].
  - right. rewrite map_app in E1, E2. cbn [map] in E1, E2. rewrite last_last in E1. rewrite lastL_snoc in E2. assert (Hin : In t (sel itemLid (S s) tr)) by (rewrite Es; apply in_or_app; right; now left).
    unfold sel in Hin. apply filter_In in Hin as (Hin & Hl). apply Nat.eqb_eq in Hl. destruct t as [[[b p] q] x]. cbn [snd] in *. unfold eptr in E1. cbn [fst snd] in E1.
    destruct (nth s (hsCommon h) []) as [|v [|v2 vs]]; try discriminate. cbn [map] in E2. injection E2 as ->. pose proof (blocks_in (itemOk_in o) B Hin) as (M1 & M2 & M3).
    exists v, q. split; [reflexivity|]. rewrite E1. pose proof M3 as M4. cbn [itemOk] in M4. rewrite Ek in M4. destruct M4 as (-> & _). split; [exact M1|]. split; [exact M2|exact M3].
Qed.

(** ** Small steps *)
Lemma sim_cstringX e d a r : wfA e a ->
  sim e nowhere (mCStringX d) (attempt (allocCString d)) (fun a' q o => q < two16 /\ aused a <= aused a' /\ dataOk (mem a') (aused a) (aused a') q (match o with Some t => t | None => [] end)) a r.
Proof.
  intros Hw. pose proof (sim_cstring e d a r Hw) as H. unfold sim, attempt, mCStringX in *. destruct (allocCString d e (mkst r (aused a))) as [v s|s| |].
  - destruct H as (x & a' & -> & U & K & (Hs & Hx & _)). exists x, a'. split; [reflexivity|]. split; [exact U|]. split; [exact K|]. split; [exact Hx|]. split; [apply K|]. now right.
  - destruct H as (a' & -> & U & K). exists NILPTR, a'. split; [reflexivity|]. split; [exact U|]. split; [exact K|]. split; [reflexivity|]. split; [apply K|]. now left.
  - intros B. now rewrite H.
  - now rewrite H.
Qed.
Lemma sim_equalNoCase {X A} e (W : N -> Prop) p lo hi t name (f : bool -> M X) (q : P A) (Q : arena -> X -> A -> Prop) a r : wfA e a -> str (mem a) lo hi p t -> t <> [] -> hi <= aused a ->
  sim e W (f (equalNoCase t name)) q Q a r -> sim e W (mbind (mEqualNoCase p name) f) q Q a r.
Proof.
  intros Hw Hs Ht Hh H. num Hw. unfold sim, mbind, mEqualNoCase in *. rewrite (str_nonnil _ _ _ _ _ Hs). rewrite (str_read e a _ _ _ _ Hw Hs Hh); [exact H|].
  destruct Hs as (H1 & H2 & _). destruct t; [congruence|]. rewrite len_cons in H2. lia.
Qed.
Lemma sim_readStr {X A} e (W : N -> Prop) p t (f : bytes -> M X) (q : P A) (Q : arena -> X -> A -> Prop) a r : readCString a p = Some t -> sim e W (f t) q Q a r -> sim e W (mbind (mReadStr p) f) q Q a r.
Proof. intros E H. unfold sim, mbind, mReadStr in *. rewrite E. exact H. Qed.
Lemma sim_get32 {X A} e (W : N -> Prop) p (f : N -> M X) (q : P A) (Q : arena -> X -> A -> Prop) a r : sim e W (f (g32 (mem a) p)) q Q a r -> sim e W (mbind (get32 p) f) q Q a r.
Proof. exact (fun H => H). Qed.

(** ** Bodies *)
Section Bodies.
  Variables (e : env) (this lo : N).
  Hypothesis Hnet : netLen e.
  Hypothesis H8 : 8 <= this.
  Hypothesis Hl : this + 68 <= lo.
  Definition bodyW : N -> Prop := orS (inR (this + 66) 2) (from lo).
  Definition bodyJ (a : arena) (prev : N) (bs : list body) : Prop := lo <= aused a /\ bodiesInv (mem a) lo (aused a) (g16 (mem a) (this + 66)) prev bs.

  (** A finished part is linked in. *)
  Lemma link_run a prev bs hi x r : wfA e a -> bodiesInv (mem a) lo hi (g16 (mem a) (this + 66)) prev bs -> bodyOk (mem a) hi hi (aused a) x -> g16 (mem a) (hi + 8) = NILPTR ->
    exists a1, (if prev =? NILPTR then set16 (this + 66) hi else set16 (prev + 8) hi) e a r = MOk tt a1 r /\ aused a1 = aused a /\ keeps bodyW a a1 /\ bodyJ a1 hi (bs ++ [x]).
  Proof using H8 Hl.
    intros Hw (tr & B & HC & Ep & HV) Hok Hz. num Hw. pose proof (bodyOk_in _ _ _ _ _ Hok) as (_ & P2 & _). pose proof (blocks_le bodyOk_in B) as P4.
    pose proof (blocks_snoc B (N.le_refl _) (N.le_refl _) Hok) as B'. assert (Hp16 : hi < two16) by (unfold two16; lia).
    assert (E1 : bptrs (tr ++ [(hi, hi, aused a, x)]) = bptrs tr ++ [hi]) by (rewrite ptrsOf_snoc; reflexivity).
    assert (E2 : bvals (tr ++ [(hi, hi, aused a, x)]) = bs ++ [x]) by (rewrite valsOf_snoc, HV; reflexivity).
    destruct (N.eqb_spec prev NILPTR) as [E0|E0].
    - assert (N0 : bptrs tr = []).
      { destruct (bptrs tr) as [|q ps] eqn:Eq; [reflexivity|]. exfalso. assert (Hin : In (last (q :: ps) NILPTR) (bptrs tr)) by (rewrite Eq; apply last_in; discriminate).
        apply (bptrs_in _ _ _ _ _ B) in Hin. rewrite <- Ep, E0 in Hin. unfold NILPTR in Hin. lia. }
      eexists. split; [reflexivity|]. split; [reflexivity|]. split; [apply (keeps_write e); [exact Hw|unfold bodyW; slia]|]. cbn [mem setMem aused]. split; [cbn; lia|].
      exists (tr ++ [(hi, hi, aused a, x)]). cbn [mem setMem aused]. assert (Ag : agreeR (mem a) (p16 (mem a) (this + 66) hi) lo (aused a)) by (apply agree_write; slia).
      split; [eapply (blocks_agree bodyOk_frame bodyOk_in); eauto|]. rewrite E1, N0. cbn [app chain last]. rewrite g16_p16 by exact Hp16. rewrite g16_write by lia.
      split; [split; [reflexivity|exact Hz]|]. split; [reflexivity|exact E2].
    - assert (Hne : bptrs tr <> []) by (intros E; rewrite E in Ep; cbn in Ep; congruence).
      assert (Hin : In prev (bptrs tr)) by (rewrite Ep; now apply last_in). pose proof (bptrs_in _ _ _ _ _ B Hin) as (Q1 & Q2).
      eexists. split; [reflexivity|]. split; [reflexivity|]. split; [apply (keeps_write e); [exact Hw|unfold bodyW; slia]|]. split; [cbn; lia|]. cbn [mem setMem aused].
      exists (tr ++ [(hi, hi, aused a, x)]). split; [eapply (blocks_link (lid := bodyLid) bodyOk_frame bodyOk_in); [exact B'| |exact next_body]; rewrite E1; apply in_or_app; left; exact Hin|].
      rewrite g16_write by lia. split; [rewrite Ep; eapply (chain_append (lid := bodyLid) bodyOk_in); [exact B'|reflexivity|exact Hp16|exact Hne|exact next_body|exact Hz|exact HC]|].
      split; [rewrite E1, last_last; reflexivity|exact E2].
  Qed.

  Lemma sim_multipart dl prev bs a r : wfA e a -> bodyJ a prev bs ->
    sim e bodyW (loopM (mMultipart this dl) prev) (loopP (multipartBody dl) bs) (fun a' _ bs' => exists prev', bodyJ a' prev' bs') a r.
  Proof.
    intros Hw HJ. apply (sim_loop e bodyW _ _ bodyJ (fun a' (_ : unit) bs' => exists prev', bodyJ a' prev' bs')); [|exact Hw|exact HJ].
    clear prev bs a r Hw HJ. intros prev bs a r Hw (Hla & HJ). num Hw. apply sim_onRest. destruct r as [|x [|y r2]]; [apply sim_fail; exact Hw|apply sim_fail; exact Hw|].
    destruct ((x =? 45) || (y =? 45)); [apply sim_goto_bind; apply sim_ret; [exact Hw|exists prev; split; auto]|].
    destruct (FindCrlf (x :: y :: r2)) as [[t r1]|]; [|apply sim_goto_bind; apply sim_fail; exact Hw]. apply sim_goto_bind.
    eapply (sim_bind e _ nowhere); [apply sim_new; [exact Hw|lia|lia]|exact Hw|slia|]. intros p [] a1 r3 Hw1 K1 (-> & U1 & Z1). num K1.
    assert (Hd : g16 (mem a1) (this + 66) = g16 (mem a) (this + 66)) by (eapply g16_frame; [agr K1|reflexivity]).
    assert (HJ1 : bodiesInv (mem a1) lo (aused a) (g16 (mem a1) (this + 66)) prev bs) by (rewrite Hd; eapply bodiesInv_frame; [agr K1|exact HJ]).
    assert (Z8 : g16 (mem a1) (aused a + 8) = NILPTR) by (apply (zeros_g16 _ _ _ _ Z1); lia).
    eapply (sim_bind e _ (hdrW OBody (aused a) (aused a + 16))); [apply (sim_parseHeaders e OBody (aused a) (aused a + 16)); [exact Hnet|lia|cbn; lia|cbn; lia|exact Hw1|lia|]|exact Hw1| |].
    { apply HInv_empty; [lia| |].
      - intros s Hs. unfold slotAt. cbn [slotsOff slotsNum] in *. apply (zeros_g16 _ _ _ _ Z1); lia.
      - cbn [rawOff]. apply (zeros_g16 _ _ _ _ Z1); lia. }
    { unfold hdrW, bodyW. cbn [slotsOff slotsNum rawOff]. slia. }
    intros [] h a2 r4 Hw2 K2 (L2 & HH). num K2. unfold hdrW in K2. cbn [slotsOff slotsNum rawOff] in K2.
    assert (Hd2 : g16 (mem a2) (this + 66) = g16 (mem a1) (this + 66)) by (eapply g16_frame; [agr K2|reflexivity]).
    assert (HJ2 : bodiesInv (mem a2) lo (aused a) (g16 (mem a2) (this + 66)) prev bs) by (rewrite Hd2; eapply bodiesInv_frame; [agr K2|exact HJ1]).
    assert (Z8b : g16 (mem a2) (aused a + 8) = NILPTR) by (eapply g16_frame; [agr K2|exact Z8]). apply sim_onRest. destruct (splitAt dl r4) as [[d r5]|]; [|apply sim_fail; exact Hw2].
    eapply (sim_bind e _ nowhere); [apply sim_cstringX; exact Hw2|exact Hw2|slia|]. intros q od a3 r6 Hw3 K3 (Hq & L3 & HD). num K3. set (dd := match od with Some t => t | None => [] end) in *.
    assert (Hd3 : g16 (mem a3) (this + 66) = g16 (mem a2) (this + 66)) by (eapply g16_frame; [agr K3|reflexivity]).
    assert (HJ3 : bodiesInv (mem a3) lo (aused a) (g16 (mem a3) (this + 66)) prev bs) by (rewrite Hd3; eapply bodiesInv_frame; [agr K3|exact HJ2]).
    assert (HH3 : HInv OBody (mem a3) (aused a) (aused a + 16) (aused a2) h) by (eapply (HInv_keeps OBody (aused a) (aused a + 16)); [lia|cbn; lia|cbn; lia|exact K3|lia|lia|exact HH]).
    assert (Z8c : g16 (mem a3) (aused a + 8) = NILPTR) by (eapply g16_frame; [agr K3|exact Z8b]). apply sim_set16; [exact Hw3|exact Hq|unfold bodyW; slia|]. intros a4 Hw4 K4 U4 V4. num K4.
    assert (Hd4 : g16 (mem a4) (this + 66) = g16 (mem a3) (this + 66)) by (eapply g16_frame; [agr K4|reflexivity]).
    assert (HJ4 : bodiesInv (mem a4) lo (aused a) (g16 (mem a4) (this + 66)) prev bs) by (rewrite Hd4; eapply bodiesInv_frame; [agr K4|exact HJ3]).
    assert (Z8d : g16 (mem a4) (aused a + 8) = NILPTR) by (eapply g16_frame; [agr K4|exact Z8c]). assert (Hok : bodyOk (mem a4) (aused a) (aused a) (aused a4) (mkbody h dd)).
    { split; [reflexivity|]. exists (aused a2). split; [lia|]. split; [lia|]. cbn [bHdrs bData]. split.
      - eapply HInv_frame; [agr K4| | |exact HH3].
        + intros s Hs. unfold slotAt. cbn [slotsOff slotsNum] in *. eapply g16_frame; [agr K4|reflexivity].
        + cbn [rawOff]. eapply g16_frame; [agr K4|reflexivity].
      - rewrite V4, U4. eapply dataOk_frame; [agr K4|exact HD]. }
    destruct (link_run a4 prev bs (aused a) (mkbody h dd) r6 Hw4 HJ4 Hok Z8d) as (a5 & R & U5 & K5 & HJ5).
    eapply sim_left; [exact R|eapply keeps_sub; [exact K5|unfold bodyW; slia]|exact U5|].
    apply sim_goto_bind. apply sim_ret; [eapply keeps_wf; [exact Hw4|exact K5]|exact HJ5].
  Qed.

  Lemma sim_multiBody p b a r : wfA e a -> bodyJ a NILPTR [] -> readCString a p = Some b ->
    sim e bodyW (mMultiMsgBody this p) (parseMultiBody b) (fun a' _ bs' => exists prev', bodyJ a' prev' bs') a r.
  Proof.
    intros Hw HJ Hr. eapply sim_readStr; [exact Hr|]. apply sim_onRest. destruct (stripPrefix (45 :: 45 :: b) r) as [r'|]; [|apply sim_fail; exact Hw]. apply sim_goto_bind. apply sim_multipart; auto.
  Qed.

  Lemma sim_singleBody q1 hi h a r : wfA e a -> bodyJ a NILPTR [] -> HInv OMsg (mem a) this q1 hi h -> this + 68 <= q1 -> hi <= aused a ->
    sim e bodyW (mSingleBody this) (parseSingleBody h) (fun a' _ bs' => exists prev', bodyJ a' prev' bs') a r.
  Proof.
    intros Hw HJ HH Lq Lh. pose proof HJ as (Hla & HB). num Hw. apply sim_onRest. apply sim_get16.
    assert (G : forall (f : N -> M unit) p (Q : arena -> unit -> list body -> Prop) (W : N -> Prop), sim e W (f (match contentLengthOf h with Some (VNum n) => N.min n (len r) | _ => 0 end)) p Q a r ->
        sim e W (size <~ (if negb (g16 (mem a) (slotAt OMsg this 7) =? NILPTR) then deref (g16 (mem a) (slotAt OMsg this 7)) ;~ n <~ get32 (g16 (mem a) (slotAt OMsg this 7)) ;; mret (N.min n (len r)) else mret 0) ;; f size) p Q a r).
    { intros f p Q W H. destruct (slot_read OMsg _ _ _ _ _ 7 KContentLength HH ltac:(cbn; lia) ltac:(reflexivity)) as [(E1 & E2)|(v & q & E1 & E2 & E3 & E4)].
      - rewrite E2. cbn [N.eqb NILPTR negb]. unfold contentLengthOf in H. rewrite E1 in H. exact H.
      - change (slotKind OMsg 7) with (Some (KContentLength, false)) in E4. cbn [itemOk] in E4. destruct E4 as (_ & M2 & M3 & _). cbn [hvalSize] in M2.
        replace (g16 (mem a) (slotAt OMsg this 7) =? NILPTR) with false by (unfold NILPTR; lia). cbn [negb]. apply sim_assoc. apply sim_deref; [lia|]. apply sim_assoc. apply sim_get32. apply sim_ret_bind.
        unfold contentLengthOf in H. rewrite E1 in H. cbn [hd_error] in H. destruct v; cbn [repHVal] in M3; try contradiction; try (destruct M3 as (M3 & _); discriminate); try (destruct M3 as (_ & M3); contradiction). rewrite M3. exact H. }
    apply G. cbv zeta beta. set (size := match contentLengthOf h with Some (VNum n) => N.min n (len r) | _ => 0 end). clearbody size. clear G.
    destruct (size =? 0); [apply sim_ret; [exact Hw|exists NILPTR; exact HJ]|].
    eapply (sim_bind e _ nowhere); [apply sim_new; [exact Hw|lia|lia]|exact Hw|slia|]. intros p [] a1 r3 Hw1 K1 (-> & U1 & Z1). num K1.
    eapply (sim_bind e _ nowhere); [apply sim_cstring; exact Hw1|exact Hw1|slia|]. intros q d a2 r6 Hw2 K2 (Hs & Hq & _). num K2. assert (Hs0 := Hs). destruct Hs0 as (B1 & B2 & _).
    apply sim_deref; [lia|]. repeat carry1 K2.
    apply sim_set16; [exact Hw2|exact Hq|unfold bodyW; slia|]. intros a3 Hw3 K3 U3 V3. num K3.
    assert (Z8 : g16 (mem a3) (aused a + 8) = NILPTR) by (eapply g16_frame; [agr K3|apply (zeros_g16 _ _ _ _ Z1); lia]).
    assert (Hd : g16 (mem a3) (this + 66) = g16 (mem a) (this + 66)).
    { transitivity (g16 (mem a2) (this + 66)); [eapply g16_frame; [agr K3|reflexivity]|]. transitivity (g16 (mem a1) (this + 66)); (eapply g16_frame; [|reflexivity]); [agr K2|agr K1]. }
    assert (HJ3 : bodiesInv (mem a3) lo (aused a) (g16 (mem a3) (this + 66)) NILPTR []).
    { rewrite Hd. eapply bodiesInv_frame; [agr K3|]. eapply bodiesInv_frame; [agr K2|]. eapply bodiesInv_frame; [agr K1|exact HB]. }
    assert (Hok : bodyOk (mem a3) (aused a) (aused a) (aused a3) (mkbody (emptyHdrs OBody) d)).
    { split; [reflexivity|]. exists (aused a1). split; [lia|]. split; [lia|]. cbn [bHdrs bData]. split.
      - apply HInv_empty; [lia| |].
        + intros s Hs0. unfold slotAt. cbn [slotsOff slotsNum] in *. eapply g16_frame; [agr K3|apply (zeros_g16 _ _ _ _ Z1); lia].
        + cbn [rawOff]. eapply g16_frame; [agr K3|apply (zeros_g16 _ _ _ _ Z1); lia].
      - right. rewrite V3, U3. eapply str_frame; [agr K3|exact Hs]. }
    destruct (link_run a3 NILPTR [] (aused a) (mkbody (emptyHdrs OBody) d) r6 Hw3 HJ3 Hok Z8) as (a4 & R & U4 & K4 & HJ4). cbn [N.eqb NILPTR app] in R, HJ4.
    eapply sim_run; [exact R|exact U4|eapply keeps_sub; [exact K4|unfold bodyW; slia]|]. exists (aused a). exact HJ4.
  Qed.

  (** The boundary is empty and there is no byte left in the arena: the address of the empty string can be the end of the arena. *)
  Definition emptyAtEnd (h : hset) (u : N) : bool :=
    match contentTypeOf h with
    | Some v => match boundaryParam v with Some p => match gvalueText (gpValue p) with Some [] => negb (ltMem e u) | _ => false end | None => false end
    | None => false
    end.
  Lemma sim_msgBody q1 hi h a r : wfA e a -> bodyJ a NILPTR [] -> HInv OMsg (mem a) this q1 hi h -> this + 68 <= q1 -> hi <= aused a -> emptyAtEnd h (aused a) = false ->
    sim e bodyW (mMsgBody this) (parseMsgBody h) (fun a' _ bs' => exists prev', bodyJ a' prev' bs') a r.
  Proof.
    intros Hw HJ HH Lq Lh He. num Hw. apply sim_get16.
    destruct (slot_read OMsg _ _ _ _ _ 10 KContentType HH ltac:(cbn; lia) ltac:(reflexivity)) as [(E1 & E2)|(v & q & E1 & E2 & E3 & E4)].
    - rewrite E2. cbn [N.eqb NILPTR]. unfold parseMsgBody, contentTypeOf. rewrite E1. cbn [hd_error]. apply sim_ret; [exact Hw|]. exists NILPTR. exact HJ.
    - change (slotKind OMsg 10) with (Some (KContentType, false)) in E4. cbn [itemOk] in E4. destruct E4 as (_ & M2 & M3 & M4). cbn [hvalSize] in M2.
      set (p := g16 (mem a) (slotAt OMsg this 10)) in *. replace (p =? NILPTR) with false by (unfold NILPTR; lia). apply sim_deref; [lia|]. apply sim_get16.
      unfold parseMsgBody, contentTypeOf, emptyAtEnd, contentTypeOf in *. rewrite E1 in *. cbn [hd_error] in *. destruct v as [ad t ps| |pr tr hp t ps|n mt|rr c mt|n|mn sb t ps|d t ps|w w2]; cbn [repHVal] in M3; try contradiction; try (destruct M3 as (M3 & _); discriminate).
      { destruct M3 as (_ & []). }
      destruct M3 as (_ & R1 & R2 & (R3 & R4)). cbn [mainOk] in M4. eapply sim_equalNoCase; [exact Hw|exact R1|exact M4|lia|]. unfold equalNoCase.
      pose proof (CStringEqualNoCase_total mn (s2b "multipart") ltac:(discriminate)) as T. destruct (CStringEqualNoCase mn (s2b "multipart")) as [[]|]; [| |congruence].
      + unfold mBoundaryParam, boundaryParam in *. apply sim_assoc. apply sim_get16. unfold repTable in R3. destruct t as [tbl|].
        * destruct R3 as (T1 & T2 & T3 & T4 & T5). change (tblLen KContentType) with 1 in *. rewrite (proj2 (N.eqb_neq _ _) T2). apply sim_assoc. apply sim_deref; [lia|]. apply sim_get16.
          specialize (T5 0%nat ltac:(rewrite T4; cbn; lia)). cbn [N.of_nat N.mul] in T5. rewrite N.add_0_r in T5. unfold repEntry in T5. destruct (nth 0 tbl None) as [x|]; [|rewrite T5; cbn [N.eqb NILPTR]; apply sim_fail; exact Hw].
          destruct T5 as (X1 & X2 & z & X3 & X4 & (X5 & X6)). set (x0 := g16 (mem a) (g16 (mem a) (p + knownOff KContentType))) in *. rewrite (proj2 (N.eqb_neq _ _) X2). apply sim_deref; [lia|]. apply sim_get16.
          apply sim_multiBody; [exact Hw|exact HJ|].
          assert (Rd : forall t, str (mem a) (x0 + 8) z (g16 (mem a) (x0 + 2)) t -> (t = [] -> ltMem e (aused a) = true) -> readCString a (g16 (mem a) (x0 + 2)) = Some t).
          { intros t0 Ht Hz. apply (str_read e a _ _ _ _ Hw Ht); [lia|]. destruct Ht as (Y1 & Y2 & _). destruct t0 as [|c0 t0]; [|rewrite len_cons in Y2; lia].
            specialize (Hz eq_refl). unfold ltMem in Hz. rewrite (proj1 Hw) in Hz. apply N.ltb_lt in Hz. unfold len in Y2. cbn in Y2. lia. }
          unfold repGValue in X6. destruct (gpValue x) as [[t0|t0|t0]|]; cbn [gvalueText] in *.
          1-3: destruct X6 as (_ & X6); apply Rd; [exact X6|]; intros ->; destruct (ltMem e (aused a)); [reflexivity|discriminate].
          rewrite X6. reflexivity.
        * rewrite R3. cbn [N.eqb NILPTR]. apply sim_ret_bind. cbn [N.eqb NILPTR]. apply sim_fail; exact Hw.
      + apply (sim_singleBody q1 hi h); auto.
  Qed.
End Bodies.

(** ** Messages *)
Lemma sim_bindE {X Y A B} e (W W1 : N -> Prop) (m : M X) (p : P A) (f : X -> M Y) (g : A -> P B) Q1 Q a r :
  sim e W1 m p Q1 a r -> wfA e a -> (forall i, 8 <= i < aused a -> W1 i -> W i) ->
  (forall x v a1 r1, p e (mkst r (aused a)) = Ok v (mkst r1 (aused a1)) -> wfA e a1 -> keeps W1 a a1 -> Q1 a1 x v -> sim e (orS W (from (aused a))) (f x) (g v) Q a1 r1) ->
  sim e W (mbind m f) (bind p g) Q a r.
Proof.
  unfold sim, bind, mbind. intros H Hw HW K. destruct (p e (mkst r (aused a))) as [v s|s| |] eqn:Ep.
  - destruct H as (x & a1 & E & U & K1 & q). rewrite E. pose proof (keeps_wf _ _ _ _ Hw K1) as Hw1. destruct s as [sr su]. cbn [rest used] in *. subst su.
    specialize (K x v a1 sr eq_refl Hw1 K1 q). pose proof (keeps_sub _ _ _ _ K1 HW) as K1'.
    destruct (g v e (mkst sr (aused a1))) as [v2 s2|s2| |]; auto.
    + destruct K as (y & a2 & E2 & U2 & K2 & q2). exists y, a2. split; [exact E2|]. split; [exact U2|]. split; [exact (keeps_trans _ _ _ _ K1' K2)|exact q2].
    + destruct K as (a2 & E2 & U2 & K2). exists a2. split; [exact E2|]. split; [exact U2|]. exact (keeps_trans _ _ _ _ K1' K2).
  - destruct H as (a1 & E & U & K1). rewrite E. exists a1. split; [reflexivity|]. split; [exact U|]. exact (keeps_sub _ _ _ _ K1 HW).
  - intros N0. now rewrite H.
  - now rewrite H.
Qed.
(** The headers of a message. *)
Definition msgHeaders : P hset := parseStartLine ;;; onRest (fun r => match r with [] => pfail | _ => parseHeaders OMsg end).
(** The boundary is empty and the headers fill the arena to the last byte. *)
Definition cornerCase (e : env) (r : bytes) (u : N) : bool := match msgHeaders e (mkst r u) with Ok h s => emptyAtEnd e h (used s) | _ => false end.

Lemma sim_msg e this a r : netLen e -> wfA e a -> 8 <= this -> this + 68 <= aused a -> cornerCase e r (aused a) = false ->
  sim e (inR this 68) (mMsgParse this) parseMsg (fun a' _ x => repMsg (mem a') this (aused a) (aused a') x) a r.
Proof.
  intros Hnet Hw H8 Hl Hc. num Hw. unfold mMsgParse. apply sim_init; [exact Hw|slia|]. intros a1 Hw1 K1 U1 V1. num K1. rewrite <- U1 in Hc. assert (Lo : exists lo, lo = aused a) by (now exists (aused a)). destruct Lo as (lo & Lo).
  rewrite <- Lo.
  assert (Z1 : zeros (mem a1) this 68) by (intros i Hi; apply V1; slia). clear V1.
  unfold mStartLineParse. apply sim_assoc. apply sim_init; [exact Hw1|slia|]. intros a2 Hw2 K2 U2 V2. num K2. rewrite <- U2 in Hc. assert (Lo2 : lo = aused a2) by lia. rewrite Lo2. clear lo Lo Lo2.
  assert (Z2 : zeros (mem a2) (this + 20) 48) by (eapply zeros_frame; [agr K2|intros i Hi; apply Z1; lia]). assert (Z3 : zeros (mem a2) this 20) by (intros i Hi; apply V2; slia). clear V2 Z1.
  eapply (sim_bindE e _ (inR this 20)); [apply sim_startLine; [exact Hnet|exact Hw2|exact H8|lia|apply (zeros_g16 _ _ _ _ Z3); lia]|exact Hw2|slia|].
  intros [] l a3 r3 E3 Hw3 K3 HS. num K3. unfold startQ in HS. assert (Z4 : zeros (mem a3) (this + 20) 48) by (eapply zeros_frame; [agr K3|exact Z2]).
  apply sim_onRest. destruct r3 as [|x r3]; [apply sim_fail; exact Hw3|].
  eapply (sim_bindE e _ (hdrW OMsg this (aused a3))); [apply (sim_parseHeaders e OMsg this (aused a3)); [exact Hnet|exact H8|cbn; lia|cbn; lia|exact Hw3|lia|]|exact Hw3| |].
  { apply HInv_empty; [lia| |].
    - intros s Hs. unfold slotAt. cbn [slotsOff slotsNum] in *. apply (zeros_g16 _ _ _ _ Z4); lia.
    - cbn [rawOff]. apply (zeros_g16 _ _ _ _ Z4); lia. }
  { unfold hdrW. cbn [slotsOff slotsNum rawOff]. slia. }
  intros [] h a4 r4 E4 Hw4 K4 (L4 & HH). num K4. unfold hdrW in K4. cbn [slotsOff slotsNum rawOff] in K4.
  assert (Zb : g16 (mem a4) (this + 66) = NILPTR) by (eapply g16_frame; [agr K4|apply (zeros_g16 _ _ _ _ Z4); lia]).
  assert (Z5 : zeros (mem a4) (this + 58) 6) by (eapply zeros_frame; [agr K4|intros i Hi; apply Z4; lia]).
  assert (HS4 : repStartLine (mem a4) this (aused a2) (aused a3) l) by (eapply repStartLine_frame; [| |exact HS]; agr K4).
  assert (Hc' : emptyAtEnd e h (aused a4) = false).
  { unfold cornerCase, msgHeaders, bind, onRest in Hc. rewrite E3 in Hc. cbn [rest] in Hc. rewrite E4 in Hc. exact Hc. }
  assert (G : sim e (inR (this + 66) 2) (mMsgBody this) (bs <- parseMsgBody h ;; ret (mkmsg l h bs)) (fun a' _ x => repMsg (mem a') this (aused a2) (aused a') x) a4 r4).
  { eapply sim_mapR; [eapply (sim_sub e (bodyW this (aused a4))); [apply (sim_msgBody e this (aused a4) Hnet H8 ltac:(lia) (aused a3) (aused a4) h); [exact Hw4| |exact HH|lia|lia|exact Hc']|]|].
    - split; [lia|]. rewrite Zb. apply bodiesInv_nil. lia.
    - unfold bodyW. slia.
    - intros a' [] bs K (prev & L5 & HB). num K. exists (aused a3), (aused a4), prev. split; [lia|]. split; [lia|]. cbn [mStart mHdrs mBodies].
      split; [eapply zeros_frame; [agr K|exact Z5]|]. split; [eapply repStartLine_frame; [| |exact HS4]; agr K|]. split; [|exact HB].
      eapply HInv_frame; [agr K| | |exact HH].
      + intros s Hs. unfold slotAt. cbn [slotsOff slotsNum] in *. eapply g16_frame; [agr K|reflexivity].
      + cbn [rawOff]. eapply g16_frame; [agr K|reflexivity]. }
  eapply sim_sub; [exact G|slia].
Qed.
