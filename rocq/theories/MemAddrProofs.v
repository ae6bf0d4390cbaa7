(** SipAddr on the arena simulates the value layer. *)
From Verif Require Import Base Charset BaseLemmas Num Lws Str Monad Host Uri Tel GenParam Addr Arena ArenaProofs ArenaOpsProofs StrProofs ArenaTop Layout Mem MemSim MemTac MemUri MemRep MemList Inv MemHostProofs MemParamProofs MemUriProofs MemSipUriProofs MemEnc MemEncProofs MemTel MemTelProofs MemGen MemGenProofs MemAddr.

(** ** The representation *)
Definition repAName (m : N -> N) (this lo hi : N) (n : option (bool * bytes)) : Prop :=
  match n with
  | None => g16 m (this + 6) = NILPTR
  | Some (quoted, b) => m (this + 2) = (if quoted : bool then 1 else 0) /\ str m lo hi (g16 m (this + 6)) b
  end.
Definition repAUri (m : N -> N) (this lo hi : N) (u : auri) : Prop :=
  let q := g16 m (this + 8) in
  match u with
  | ASip u => m (this + 1) = (if uSecure u then 3 else 2) /\ lo <= q /\ q + 18 <= hi /\ repSipUri m q (q + 18) hi u
  | ATel t => m (this + 1) = 4 /\ lo <= q /\ q + 10 <= hi /\ repTelUri m q (q + 10) hi t
  end.
Definition repAddr (m : N -> N) (this lo hi : N) (a : addr) : Prop :=
  m this = (if aAngle a then 1 else 0) /\ repAName m this lo hi (aName a) /\ repAUri m this lo hi (aUri a).

Lemma repAName_frame m m' this lo hi n : m' (this + 2) = m (this + 2) -> g16 m' (this + 6) = g16 m (this + 6) -> agreeR m m' lo hi -> repAName m this lo hi n -> repAName m' this lo hi n.
Proof. intros E1 E2 A. unfold repAName. rewrite E1, E2. destruct n as [[q b]|]; [|auto]. intros (H1 & H2). split; [exact H1|eapply str_frame; eauto]. Qed.
Lemma repAName_mono m this lo hi lo' hi' n : repAName m this lo hi n -> lo' <= lo -> hi <= hi' -> repAName m this lo' hi' n.
Proof. unfold repAName. destruct n as [[q b]|]; [|auto]. intros (H1 & H2) ? ?. split; [exact H1|eapply str_mono; eauto]. Qed.
Lemma repAUri_frame m m' this lo hi u : m' (this + 1) = m (this + 1) -> g16 m' (this + 8) = g16 m (this + 8) -> agreeR m m' lo hi -> repAUri m this lo hi u -> repAUri m' this lo hi u.
Proof.
  intros E1 E2 A. unfold repAUri. rewrite E1, E2. destruct u as [u|t]; intros (H1 & H2 & H3 & H4); (split; [exact H1|]; split; [exact H2|]; split; [exact H3|]).
  - eapply repSipUri_frame; [| |exact H4]; eapply agreeR_sub; try exact A; lia.
  - eapply repTelUri_frame; [| |exact H4]; eapply agreeR_sub; try exact A; lia.
Qed.
Lemma repAUri_mono m this lo hi lo' hi' u : repAUri m this lo hi u -> lo' <= lo -> hi <= hi' -> repAUri m this lo' hi' u.
Proof.
  unfold repAUri. destruct u as [u|t]; intros (H1 & H2 & H3 & H4) L1 L2; (split; [exact H1|]; split; [lia|]; split; [lia|]).
  - eapply repSipUri_mono; [exact H4|lia|lia].
  - eapply repTelUri_mono; [exact H4|lia|lia].
Qed.
Lemma repAddr_frame m m' this lo hi a : agreeR m m' this (this + 10) -> agreeR m m' lo hi -> repAddr m this lo hi a -> repAddr m' this lo hi a.
Proof.
  intros A1 A2 (H1 & H2 & H3). assert (E : forall i, i + 2 <= 10 -> g16 m' (this + i) = g16 m (this + i)) by (intros i Hi; unfold g16; rewrite !A1 by lia; reflexivity).
  split; [rewrite A1 by lia; exact H1|]. split; [eapply repAName_frame; [| |exact A2|exact H2]|eapply repAUri_frame; [| |exact A2|exact H3]]; try (apply E; lia); apply A1; lia.
Qed.
Lemma repAddr_mono m this lo hi lo' hi' a : repAddr m this lo hi a -> lo' <= lo -> hi <= hi' -> repAddr m this lo' hi' a.
Proof. intros (H1 & H2 & H3) L1 L2. split; [exact H1|]. split; [eapply repAName_mono; eauto|eapply repAUri_mono; eauto]. Qed.

(** ** What the value layer says about the scheme *)
Lemma uriAfterScheme_secure b e s u s' : parseUriAfterScheme b e s = Ok u s' -> uSecure u = b.
Proof.
  unfold parseUriAfterScheme. intros H. apply bind_inv in H as (up & s1 & _ & H). apply bind_inv in H as (h & s2 & _ & H). unfold onRest in H at 1.
  destruct (rest s2) as [|x r1]; [injection H as <- _; reflexivity|]. apply bind_inv in H as (kp & s3 & _ & H). unfold onRest in H.
  destruct (rest s3) as [|y r3]; [injection H as <- _; reflexivity|]. destruct (y =? 63); [|injection H as <- _; reflexivity].
  apply bind_inv in H as (? & s4 & _ & H). apply bind_inv in H as (hs & s5 & _ & H). injection H as <- _. reflexivity.
Qed.
Lemma uriNoParam_secure b e s u s' : parseUriAfterSchemeNoParam b e s = Ok u s' -> uSecure u = b.
Proof.
  unfold parseUriAfterSchemeNoParam. intros H. apply bind_inv in H as (up & s1 & _ & H). apply bind_inv in H as (h & s2 & _ & H). injection H as <- _. reflexivity.
Qed.
(** ** SipUri without parameters *)
Lemma sim_uriNoParam e this (b : bool) a r : netLen e -> 8 <= this -> wfA e a -> this + 18 <= aused a -> mem a this = (if b then 1 else 0) -> zeros (mem a) (this + 2) 16 ->
  sim e (inR this 18) (mUriAfterSchemeNoParam this) (parseUriAfterSchemeNoParam b) (sipUriQ this (aused a)) a r.
Proof.
  intros Hnet H8 Hw Hl Hb Z. num Hw.
  assert (Z2 : g16 (mem a) (this + 2) = NILPTR) by (eapply zeros16; [exact Z|lia|lia]).
  assert (Z4 : g16 (mem a) (this + 4) = NILPTR) by (eapply zeros16; [exact Z|lia|lia]).
  assert (Z12 : g16 (mem a) (this + 12) = NILPTR) by (eapply zeros16; [exact Z|lia|lia]).
  assert (Z14 : g16 (mem a) (this + 14) = NILPTR) by (eapply zeros16; [exact Z|lia|lia]).
  assert (Z16 : g16 (mem a) (this + 16) = NILPTR) by (eapply zeros16; [exact Z|lia|lia]).
  assert (Z7 : mem a (this + 6 + 1) = 0) by (apply Z; lia). clear Z.
  unfold mUriAfterSchemeNoParam, parseUriAfterSchemeNoParam.
  eapply (sim_bind e _ (inR (this + 2) 4)); [apply sim_userinfo; auto|exact Hw|slia|]. intros [] up a1 r1 Hw1 K1 (Hu & Hp). carry K1.
  eapply sim_sub; [eapply sim_mapR; [apply (sim_hostPort e); [exact Hnet|exact Hw1|lia|lia|exact Z7]|]|slia].
  intros a2 [] h K2 Hh. num K2.
  assert (Eu : g16 (mem a2) (this + 2) = g16 (mem a1) (this + 2)) by (eapply g16_frame; [|reflexivity]; agr K2).
  assert (Ep : g16 (mem a2) (this + 4) = g16 (mem a1) (this + 4)) by (eapply g16_frame; [|reflexivity]; agr K2).
  rewrite <- Eu in Hu. rewrite <- Ep in Hp. clear Eu Ep Z7. repeat carry1 K2.
  unfold sipUriQ, repSipUri. cbn [uSecure uUser uPass uHost uParams uHeaders uKnown].
  split; [exact Hb|]. split; [eapply ostr_mono; [exact Hu|lia|lia]|]. split; [eapply ostr_mono; [exact Hp|lia|lia]|]. split; [eapply repHostPort_mono; [exact Hh|lia|lia]|].
  split; [exact Z12|]. split; [exact Z14|exact Z16].
Qed.

Lemma sim_orRestoreW {X A} e (W W1 : N -> Prop) (m n : M X) (p q : P A) Q a r : wfA e a -> sim e W1 m p Q a r -> (forall i, 8 <= i < aused a -> W1 i -> W i) ->
  (forall a1, wfA e a1 -> keeps W1 a a1 -> sim e (orS W (from (aused a))) n q Q a1 r) -> sim e W (mOrRestore m n) (orRestore p q) Q a r.
Proof.
  unfold sim, mOrRestore, orRestore. intros Hw H HW H2. destruct (p e (mkst r (aused a))) as [v s|s| |].
  - destruct H as (x & a' & E & U & K & R). exists x, a'. rewrite E. split; [reflexivity|]. split; [exact U|]. split; [exact (keeps_sub _ _ _ _ K HW)|exact R].
  - destruct H as (a1 & E & U & K). rewrite E. cbn [rest]. rewrite <- U. specialize (H2 a1 (keeps_wf _ _ _ _ Hw K) K). pose proof (keeps_sub _ _ _ _ K HW) as K'.
    destruct (q e (mkst r (aused a1))) as [v2 s2|s2| |]; auto.
    + destruct H2 as (y & a2 & E2 & U2 & K2 & q2). exists y, a2. split; [exact E2|]. split; [exact U2|]. split; [exact (keeps_trans _ _ _ _ K' K2)|exact q2].
    + destruct H2 as (a2 & E2 & U2 & K2). exists a2. split; [exact E2|]. split; [exact U2|]. exact (keeps_trans _ _ _ _ K' K2).
  - intros B. now rewrite H.
  - now rewrite H.
Qed.

Section AddrP.
  Variable e : env.
  Hypothesis Hnet : netLen e.
  Variable this : N.
  Hypothesis H8 : 8 <= this.

  Definition schemeCode (s : uscheme) : N := match s with USip => 2 | USips => 3 | UTel => 4 | UUrn => 5 | UAbsolute => 1 end.
  Definition schemeW : N -> Prop := orS (inR (this + 1) 1) (inR (this + 4) 2).
  Definition schemeQ (lo : N) : arena -> unit -> uscheme -> Prop := fun a' _ s => mem a' (this + 1) = schemeCode s.
  Lemma sim_goto_set8 {A} (W : N -> Prop) r' p v (x : A) (Q : arena -> unit -> A -> Prop) a r : wfA e a -> (forall i, 8 <= i < aused a -> inR p 1 i -> W i) ->
    (forall a1, wfA e a1 -> keeps (inR p 1) a a1 -> aused a1 = aused a -> mem a1 p = v -> Q a1 tt x) ->
    sim e W (mGoto r' ;~ set8 p v) (goto r' ;;; ret x) Q a r.
  Proof using Type.
    intros Hw HW HQ. apply sim_goto_bind. apply sim_eta. apply sim_set8; [exact Hw|exact HW|]. intros a1 Hw1 K U V. apply sim_ret; auto.
  Qed.
  Lemma sim_otherScheme a r : wfA e a -> this + 10 <= aused a -> sim e schemeW (mOtherScheme this) otherScheme (schemeQ (aused a)) a r.
  Proof.
    intros Hw Hl. num Hw. apply sim_onRest. destruct r as [|x r1]; [apply sim_fail, Hw|]. destruct (IsAlpha x); [|apply sim_fail, Hw]. unfold schemeW.
    eapply (sim_bind e _ (orS nowhere (inR (this + 4) 2))); [eapply sim_into; [exact Hw|apply sim_CString, Hw|intros a' q v K (_ & Hq & _); exact Hq]|exact Hw|slia|].
    intros [] v a2 r2 Hw2 K2 _. num K2. apply sim_onRest. destruct r2 as [|y r2]; [apply sim_fail, Hw2|]. destruct (negb (y =? 58)); [apply sim_fail, Hw2|].
    apply sim_goto_set8; [exact Hw2|slia|]. intros a1 _ _ _ V. exact V.
  Qed.
  Lemma sim_scheme a r : wfA e a -> this + 10 <= aused a -> sim e schemeW (mScheme this) parseScheme (schemeQ (aused a)) a r.
  Proof.
    intros Hw Hl. num Hw. apply sim_onRest. pose proof (sim_otherScheme a r Hw Hl) as O1.
    assert (G : forall r' v s, v = schemeCode s -> sim e schemeW (mGoto r' ;~ set8 (this + 1) v) (goto r' ;;; ret s) (schemeQ (aused a)) a r).
    { intros r' v s ->. apply sim_goto_set8; [exact Hw|unfold schemeW; slia|]. intros a1 _ _ _ V. exact V. }
    destruct r as [|x1 [|x2 [|x3 [|x4 r4]]]]; try exact O1.
    destruct (lc x1 115 && (lc x2 105 && lc x3 112) && (x4 =? 58)); [apply G; reflexivity|].
    destruct (lc x1 115 && (lc x2 105 && lc x3 112) && lc x4 115).
    { destruct r4 as [|x5 r5]; [apply sim_goto_bind; apply sim_fail, Hw|]. destruct (x5 =? 58); [apply G; reflexivity|exact O1]. }
    destruct (lc x1 116 && (lc x2 101 && lc x3 108) && (x4 =? 58)); [apply G; reflexivity|].
    destruct (lc x1 117 && (lc x2 114 && lc x3 110) && (x4 =? 58)); [apply G; reflexivity|exact O1].
  Qed.

  Definition specQ (lo : N) : arena -> unit -> auri -> Prop := fun a' _ u => repAUri (mem a') this lo (aused a') u.
  Lemma sim_spec params s a r : wfA e a -> this + 10 <= aused a -> mem a (this + 1) = schemeCode s ->
    sim e (inR (this + 8) 2) (mSpec params this) (parseSpec params s) (specQ (aused a)) a r.
  Proof.
    intros Hw Hl Hs. num Hw. unfold mSpec. apply sim_get8. rewrite Hs.
    assert (G : forall b : bool, schemeCode s = (if b then 3 else 2) ->
      sim e (inR (this + 8) 2)
       (mInto (this + 8) (mNew 18) ;~ q <~ get16 (this + 8) ;; set8 q (if b then 1 else 0) ;~ (if params then mUriAfterScheme q else mUriAfterSchemeNoParam q))
       (allocStruct 18 ;;; u <- (if params then parseUriAfterScheme b else parseUriAfterSchemeNoParam b) ;; ret (ASip u)) (specQ (aused a)) a r).
    { intros b Eb. eapply (sim_bind e _ (orS nowhere (inR (this + 8) 2))); [eapply sim_into; [exact Hw|apply sim_new; [exact Hw|lia|lia]|]|exact Hw|slia|].
      { intros a' q v K (-> & U & _). num K. unfold two16. lia. }
      intros [] [] a2 r2 Hw2 K2 (q & a1 & (-> & U1 & Z1) & K12 & U12 & V12). num K2. num K12. apply sim_get16. rewrite V12. repeat carry1 K12.
      assert (S2 : mem a2 (this + 1) = schemeCode s) by (transitivity (mem a (this + 1)); [apply K2; slia|exact Hs]).
      apply sim_set8; [exact Hw2|slia|]. intros a3 Hw3 K3 U3 V3. num K3. 
      assert (Z3 : zeros (mem a3) (aused a + 2) 16) by (eapply zeros_frame; [agr K3|intros i Hi; apply Z1; lia]). clear Z1. repeat carry1 K3.
      eapply (sim_sub e (inR (aused a) 18)); [|slia].
      eapply sim_mapR.
      - eapply (sim_and e _ _ _ (sipUriQ (aused a) (aused a3)) (fun u => uSecure u = b)).
        + destruct params; [apply sim_uriAfterScheme|apply sim_uriNoParam]; auto; lia.
        + intros u s' Ep. destruct params; [exact (uriAfterScheme_secure _ _ _ _ _ Ep)|exact (uriNoParam_secure _ _ _ _ _ Ep)].
      - intros a4 [] u K4 (HU & HS). num K4. unfold specQ, repAUri. assert (E8 : g16 (mem a4) (this + 8) = aused a) by (eapply g16_frame; [|exact V12]; agr K4). rewrite E8.
        split; [rewrite HS, <- Eb, <- S2; apply K4; slia|]. split; [lia|]. split; [lia|]. unfold sipUriQ in HU. rewrite U3, U12, U1 in HU. exact HU. }
    assert (GT : schemeCode s = 4 ->
      sim e (inR (this + 8) 2)
       (mInto (this + 8) (mNew 10) ;~ q <~ get16 (this + 8) ;; (if params then mTelAfterScheme q else mTelAfterSchemeNoParam q))
       (allocStruct 10 ;;; t <- (if params then parseTelAfterScheme else parseTelAfterSchemeNoParam) ;; ret (ATel t)) (specQ (aused a)) a r).
    { intros Eb. eapply (sim_bind e _ (orS nowhere (inR (this + 8) 2))); [eapply sim_into; [exact Hw|apply sim_new; [exact Hw|lia|lia]|]|exact Hw|slia|].
      { intros a' q v K (-> & U & _). num K. unfold two16. lia. }
      intros [] [] a2 r2 Hw2 K2 (q & a1 & (-> & U1 & Z1) & K12 & U12 & V12). num K2. num K12. apply sim_get16. rewrite V12. repeat carry1 K12.
      assert (S2 : mem a2 (this + 1) = schemeCode s) by (transitivity (mem a (this + 1)); [apply K2; slia|exact Hs]).
      eapply (sim_sub e (inR (aused a) 10)); [|slia].
      eapply sim_mapR.
      - instantiate (1 := telQ (aused a) (aused a2)). destruct params; [apply sim_telAfterScheme|apply sim_telAfterSchemeNoParam]; auto; lia.
      - intros a4 [] u K4 HU. num K4. unfold specQ, repAUri. assert (E8 : g16 (mem a4) (this + 8) = aused a) by (eapply g16_frame; [|exact V12]; agr K4). rewrite E8.
        split; [rewrite <- Eb, <- S2; apply K4; slia|]. split; [lia|]. split; [lia|]. unfold telQ in HU. rewrite U12, U1 in HU. exact HU. }
    destruct s; cbn [schemeCode parseSpec] in *; [exact (G false eq_refl)|exact (G true eq_refl)|exact (GT eq_refl)|apply sim_fail, Hw|apply sim_fail, Hw].
  Qed.

  (** ** The display name *)
  Lemma posOnly_loop {X Y} (body : X -> P (X + Y)) : (forall x, posOnly (body x)) -> forall x, posOnly (loopP body x).
  Proof using Type.
    intros H. assert (G : forall f x, posOnly (iterP f body x)).
    { induction f as [|f IH]; intros x e0 s; [exact Logic.I|]. cbn [iterP]. unfold bind. specialize (H x e0 s). destruct (body x e0 s) as [[x'|y] s1|s1| |]; auto.
      specialize (IH x' e0 s1). destruct (iterP f body x' e0 s1); auto; congruence. }
    intros x e0 s. unfold loopP. apply G.
  Qed.
  Lemma posOnly_tokens : posOnly (loopP tokensBody tt).
  Proof using Type.
    apply posOnly_loop. intros [] e0 s. unfold tokensBody, onRest. destruct (rest s) as [|x r]; [reflexivity|]. destruct (negb (IsSipToken x)); [reflexivity|].
    destruct (ParseLWS _) as [r1 []]; reflexivity.
  Qed.
  Definition nameQ (lo : N) : arena -> unit -> bool * bytes -> Prop := fun a' _ n => repAName (mem a') this lo (aused a') (Some n).
  Lemma sim_displayName a x r1 : wfA e a -> this + 10 <= aused a ->
    sim e (orS (inR (this + 2) 1) (inR (this + 6) 2)) (mDisplayName this) parseDisplayName (nameQ (aused a)) a (x :: r1).
  Proof.
    intros Hw Hl. num Hw. apply sim_onRest. destruct (IsSipToken x).
    - eapply (sim_sub e (orS (inR (this + 2) 1) (inR (this + 6) 2))); [|auto].
      eapply (sim_mapR e _ _ _ _ (fun a' _ b => mem a' (this + 2) = 0 /\ str (mem a') (aused a) (aused a') (g16 (mem a') (this + 6)) b)); [|intros a' [] b _ H; exact H].
      unfold mTokens, parseTokens. apply sim_onRest. apply sim_set8; [exact Hw|slia|]. intros a1 Hw1 K1 U1 V1. num K1.
      eapply (sim_bind e _ nowhere); [apply sim_pos; [exact Hw1|exact posOnly_tokens]|exact Hw1|slia|]. intros [] [] a2 r2 Hw2 _ (-> & _).
      unfold storeSince. apply sim_onRest.
      eapply (sim_conseq e (orS nowhere (inR (this + 6) 2))); [eapply sim_into; [exact Hw1|apply sim_cstring, Hw1|intros a' q v K (_ & Hq & _); exact Hq]|slia|].
      intros a3 [] b K3 (q & a0 & (Hs & _ & Eq & Ea) & K0 & U0 & V0). num K3. num K0. carry1 K0. rewrite V0. split; [rewrite <- V1; apply K3; slia|]. rewrite U0, <- U1. exact Hs.
    - eapply (sim_bind e _ (orS nowhere (inR (this + 6) 2))); [eapply sim_into; [exact Hw|apply sim_Quoted, Hw|intros a' q v K (_ & Hq & _); exact Hq]|exact Hw|slia|].
      intros [] b a3 r3 Hw3 K3 (q & a0 & (Hs & _ & Eq & Ea) & K0 & U0 & V0). num K3. num K0. carry1 K0. rewrite <- V0 in Hs. rewrite <- U0 in Hs.
      apply sim_eta. apply sim_set8; [exact Hw3|slia|]. intros a4 Hw4 K4 U4 V4. num K4. apply sim_ret; [exact Hw4|]. split; [exact V4|].
      assert (E : g16 (mem a4) (this + 6) = g16 (mem a3) (this + 6)) by (eapply g16_frame; [|reflexivity]; agr K4). rewrite E, U4. eapply str_frame; [|exact Hs]; agr K4.
  Qed.

  (** ** The whole address *)
  Definition addrQ (lo : N) : arena -> unit -> addr -> Prop := fun a' _ v => repAddr (mem a') this lo (aused a') v.
  Lemma sim_schemeSpec params (v : N) (angle : bool) (close : bool) n lo a r : wfA e a -> this + 10 <= lo -> lo <= aused a -> repAName (mem a) this lo (aused a) n ->
    v = (if angle then 1 else 0) ->
    sim e (orS (inR this 2) (orS (inR (this + 4) 2) (inR (this + 8) 2)))
      (mScheme this ;~ mSpec params this ;~ (if close then mPos pRightAngleQuote else mret tt) ;~ set8 this v)
      (s <- parseScheme ;; u <- parseSpec params s ;; (if close then pRightAngleQuote else ret tt) ;;; ret (mkaddr angle n u)) (addrQ lo) a r.
  Proof.
    intros Hw Hl Hl2 Hn Ev. num Hw.
    eapply (sim_bind e _ schemeW); [apply sim_scheme; [exact Hw|lia]|exact Hw|unfold schemeW; slia|]. intros [] s a1 r1 Hw1 K1 Hs. unfold schemeQ in Hs. num K1.
    assert (Hn1 : repAName (mem a1) this lo (aused a1) n).
    { eapply repAName_mono; [eapply repAName_frame; [| | |exact Hn]|lia|lia]; [apply K1; unfold schemeW; slia|eapply g16_frame; [eapply keeps_agree; [exact K1|lia|lia|unfold schemeW; slia]|reflexivity]|eapply keeps_agree; [exact K1|lia|lia|unfold schemeW; slia]]. }
    clear Hn K1. eapply (sim_bind e _ (inR (this + 8) 2)); [apply sim_spec; [exact Hw1|lia|exact Hs]|exact Hw1|slia|]. intros [] u a2 r2 Hw2 K2 Hu. unfold specQ in Hu. num K2.
    assert (Hn2 : repAName (mem a2) this lo (aused a2) n).
    { eapply repAName_mono; [eapply repAName_frame; [| | |exact Hn1]|lia|lia]; [apply K2; slia|eapply g16_frame; [agr K2|reflexivity]|agr K2]. }
    clear Hn1.
    eapply (sim_bind e _ nowhere _ _ _ _ (fun a' _ _ => a' = a2)); [|exact Hw2|slia|].
    { destruct close; [eapply sim_conseq; [apply sim_pos; [exact Hw2|apply posOnly_liftB]|auto|intros a' ? ? _ (H & _); exact H]|apply sim_ret; auto]. }
    intros [] [] a3 r3 Hw3 _ ->.
    apply sim_eta. apply sim_set8; [exact Hw3|slia|]. intros a4 Hw4 K4 U4 V4. num K4. apply sim_ret; [exact Hw4|]. unfold addrQ, repAddr. cbn [aAngle aName aUri].
    split; [rewrite V4; exact Ev|]. rewrite U4.
    split; [eapply repAName_frame; [| | |exact Hn2]|eapply repAUri_mono; [eapply repAUri_frame; [| | |exact Hu]|lia|lia]]; try (apply K4; slia); try (eapply g16_frame; [agr K4|reflexivity]); agr K4.
  Qed.
  Lemma sim_nameAddr a r : wfA e a -> this + 10 <= aused a -> g16 (mem a) (this + 6) = NILPTR ->
    sim e (inR this 10) (mNameAddr this) parseNameAddr (addrQ (aused a)) a r.
  Proof.
    intros Hw Hl Z6. num Hw. unfold mNameAddr, parseNameAddr.
    eapply (sim_bind e _ nowhere); [apply sim_pos; [exact Hw|exact posOnly_SWS]|exact Hw|slia|]. intros [] [] a0 r0 _ _ (-> & _).
    eapply (sim_bind e _ (orS (inR (this + 2) 1) (inR (this + 6) 2)) _ _ _ _ (fun a' _ n => repAName (mem a') this (aused a) (aused a') n)); [|exact Hw|slia|].
    { apply sim_onRest. destruct r0 as [|x r1]; [apply sim_fail, Hw|]. destruct (negb (x =? 60)).
      - eapply (sim_bind e _ (orS (inR (this + 2) 1) (inR (this + 6) 2))); [apply sim_displayName; [exact Hw|lia]|exact Hw|slia|]. intros [] n a1 r2 Hw1 K1 Hn.
        eapply (sim_sub e nowhere); [|slia]. eapply (sim_mapR e nowhere _ _ (fun _ => Some n)); [apply sim_pos; [exact Hw1|apply posOnly_liftB]|]. intros a' ? ? _ (-> & _). exact Hn.
      - eapply (sim_mapR e _ _ _ (fun _ => None)); [apply (sim_goto e _ r1 (fun a' _ _ => a' = a)); auto|]. intros a' ? ? _ ->. exact Z6. }
    intros [] n a1 r1 Hw1 K1 Hn. num K1.
    eapply sim_sub; [apply (sim_schemeSpec true 1 true true); [exact Hw1|lia|lia|exact Hn|reflexivity]|slia].
  Qed.
  Lemma sim_addr params a r : wfA e a -> this + 10 <= aused a -> mem a this = 0 -> g16 (mem a) (this + 6) = NILPTR ->
    sim e (inR this 10) (mAddr params this) (parseAddr params) (addrQ (aused a)) a r.
  Proof.
    intros Hw Hl Z0 Z6. num Hw. apply sim_onRest. destruct r as [|x r1]; [apply sim_fail, Hw|]. destruct ((x =? 60) || (x =? 34)); [apply sim_nameAddr; auto|].
    eapply (sim_bind e _ (inR this 10) _ _ _ _ (fun a' (o : bool) (v : uscheme + addr) => match v with
      | inl s => o = true /\ mem a' this = 0 /\ g16 (mem a') (this + 6) = NILPTR /\ mem a' (this + 1) = schemeCode s
      | inr v => o = false /\ repAddr (mem a') this (aused a) (aused a') v end)); [|exact Hw|auto|].
    { apply (sim_orRestoreW e _ schemeW); [exact Hw| |unfold schemeW; slia|].
      - eapply (sim_bind e _ schemeW); [apply sim_scheme; [exact Hw|lia]|exact Hw|auto|]. intros [] s a1 r2 Hw1 K1 Hs. apply sim_ret; [exact Hw1|]. num K1.
        split; [reflexivity|]. split; [rewrite <- Z0; apply K1; unfold schemeW; slia|]. split; [eapply g16_frame; [|exact Z6]; eapply keeps_agree; [exact K1|lia|lia|unfold schemeW; slia]|exact Hs].
      - intros a1 Hw1 K1. num K1. eapply (sim_sub e (inR this 10)); [|slia].
        eapply (sim_bind e _ (inR this 10)); [apply sim_nameAddr; [exact Hw1|lia|]|exact Hw1|auto|].
        { eapply g16_frame; [|exact Z6]. eapply keeps_agree; [exact K1|lia|lia|unfold schemeW; slia]. }
        intros [] v a2 r2 Hw2 K2 Hv. num K2. apply sim_ret; [exact Hw2|]. split; [reflexivity|]. eapply repAddr_mono; [exact Hv|lia|lia]. }
    intros o v a1 r2 Hw1 K1 HQ. num K1. destruct v as [s|v].
    - destruct HQ as (-> & Y0 & Y6 & Hs). eapply (sim_sub e (inR (this + 8) 2)); [|slia]. eapply sim_mapR; [apply sim_spec; [exact Hw1|lia|exact Hs]|].
      intros a2 [] u K2 Hu. num K2. unfold addrQ, repAddr. cbn [aAngle aName aUri repAName]. split; [rewrite <- Y0; apply K2; slia|].
      split; [eapply g16_frame; [|exact Y6]; agr K2|]. eapply repAUri_mono; [exact Hu|lia|lia].
    - destruct HQ as (-> & HQ). apply sim_ret; auto.
  Qed.
  (** parsAddrSpecWithoutInit: the display name is not read or written. *)
  Lemma sim_addrSpec a r : wfA e a -> this + 10 <= aused a -> g16 (mem a) (this + 6) = NILPTR ->
    sim e (inR this 10) (mAddrSpec this) parseAddrSpec (addrQ (aused a)) a r.
  Proof.
    intros Hw Hl Z6. num Hw. eapply sim_sub; [|instantiate (1 := orS (inR this 2) (orS (inR (this + 4) 2) (inR (this + 8) 2))); slia].
    exact (sim_schemeSpec true 0 false false None (aused a) a r Hw ltac:(lia) ltac:(lia) Z6 eq_refl).
  Qed.
End AddrP.

(** ** Encoders *)
Section Enc.
  Variable e : env.
  Variable a : arena.
  Variable hi : N.
  Hypothesis Hw : wfA e a.
  Hypothesis Hhi : hi <= aused a.
  Hypothesis Hcap : hi < cap a.
  Lemma enc_quoted lo p b : str (mem a) lo hi p b -> mEncQuoted p e a = WOk (encQuoted b).
  Proof. intros H. pose proof (enc_cstr e a hi Hw Hhi Hcap lo p b H) as E. unfold mEncQuoted, encQuoted. apply (enc_app e a (eOut [34]) _ [34] _); [reflexivity|]. now apply enc_app. Qed.
  Lemma enc_aUri this lo u : 8 <= lo -> repAUri (mem a) this lo hi u -> mEncAUri this e a = WOk (encAUri e u).
  Proof.
    intros H8 HR. unfold mEncAUri, eMem, repAUri in *. destruct u as [u|t]; destruct HR as (H1 & H2 & H3 & H4); rewrite H1; replace (g16 (mem a) (this + 8) =? NILPTR) with false by (unfold NILPTR; lia); cbn [negb].
    - assert (E : ((if uSecure u then 3 else 2) =? 2) || ((if uSecure u then 3 else 2) =? 3) = true) by (destruct (uSecure u); reflexivity). rewrite E.
      eapply enc_deref; [exact Hhi|exact Hcap|lia|]. cbn [encAUri]. eapply enc_sipUri; [exact Hw|exact Hhi|exact Hcap| |exact H4]; lia.
    - eapply enc_deref; [exact Hhi|exact Hcap|lia|]. cbn [encAUri]. eapply enc_telUri; [exact Hw|exact Hhi|exact Hcap| |exact H4]; lia.
  Qed.
  Lemma enc_addr this lo v : 8 <= lo -> repAddr (mem a) this lo hi v -> mEncAddr this e a = WOk (encAddr e v).
  Proof.
    intros H8 (H1 & H2 & H3). unfold mEncAddr, eMem, eEnv, encAddr. rewrite H1. replace ((if aAngle v then 1 else 0) =? 1) with (aAngle v) by (destruct (aAngle v); reflexivity).
    destruct (aAngle v || eNameSpace e); [|now apply (enc_aUri this lo)].
    apply enc_app; [|apply (enc_app e a (eOut [60]) _ [60] _); [reflexivity|]; apply enc_app; [now apply (enc_aUri this lo)|reflexivity]].
    unfold repAName in H2. destruct (aName v) as [[q b]|].
    - destruct H2 as (Hq & Hs). rewrite (str_nonnil _ _ _ _ _ Hs), Hq. cbn [negb]. destruct q; cbn [negb]; [apply (enc_quoted lo)|apply (enc_cstr e a hi Hw Hhi Hcap lo)]; exact Hs.
    - rewrite H2. reflexivity.
  Qed.
  Lemma enc_addrSpec this lo v : 8 <= lo -> repAddr (mem a) this lo hi v -> mEncAddrSpec this e a = WOk (encAddrSpec e v).
  Proof.
    intros H8 (_ & _ & HR). unfold mEncAddrSpec, eMem, encAddrSpec, repAUri in *. destruct (aUri v) as [u|t]; destruct HR as (H1 & H2 & H3 & H4); rewrite H1; replace (g16 (mem a) (this + 8) =? NILPTR) with false by (unfold NILPTR; lia); cbn [negb].
    - assert (E : ((if uSecure u then 3 else 2) =? 2) || ((if uSecure u then 3 else 2) =? 3) = true) by (destruct (uSecure u); reflexivity). rewrite E.
      eapply enc_deref; [exact Hhi|exact Hcap|lia|]. eapply enc_sipUri; [exact Hw|exact Hhi|exact Hcap| |exact H4]; lia.
    - reflexivity.
  Qed.
End Enc.
