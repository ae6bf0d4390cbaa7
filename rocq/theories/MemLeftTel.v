(** What a failed TelUri.Parse leaves in the struct. *)
From Verif Require Import Base Charset BaseLemmas Num Lws Str Monad Host Uri Tel Arena ArenaProofs Layout Mem MemSim MemTac MemUri MemRep MemList Inv MemHostProofs MemParamProofs MemUriProofs MemTel MemTelProofs Left LeftUri MemLeft MemLeftUri.

Section TelUri.
  Variables (e : env) (this : N).
  Hypothesis H8 : 8 <= this.

  Definition telLeft (lo : N) (a : arena) (v : (option uparam * bool) * known uparam) : Prop :=
    lo <= aused a /\ mem a (this + 1) = (if snd (fst v) then 1 else 0) /\ repEntry repUParam 6 (mem a) lo (aused a) (g16 (mem a) (this + 4)) (fst (fst v)) /\
    repTable repUParam 6 2 (mem a) lo (aused a) (g16 (mem a) (this + 8)) (snd v).
  Lemma telLeft_keeps lo a a' v : lo <= aused a -> this + 10 <= lo -> keeps (from (aused a)) a a' -> telLeft lo a v -> telLeft lo a' v.
  Proof.
    intros Hla Hlo K (_ & H1 & H2 & H3). num K. split; [lia|].
    split; [rewrite <- H1; apply K; slia|].
    split; [replace (g16 (mem a') (this + 4)) with (g16 (mem a) (this + 4)) by (symmetry; eapply g16_frame; [|reflexivity]; agr K);
            eapply repEntry_mono; [eapply repEntry_frame; [|exact H2]; agr K|lia|lia]|].
    replace (g16 (mem a') (this + 8)) with (g16 (mem a) (this + 8)) by (symmetry; eapply g16_frame; [|reflexivity]; agr K).
    eapply repTable_mono; [eapply repTable_frame; [exact repUParam_agree| |exact H3]; agr K|lia|lia].
  Qed.
  Lemma telJ_left lo a hp v : this + 10 <= lo -> telJ this lo a hp v -> telLeft lo a (fst v, fst (snd v)).
  Proof.
    intros Hlo (L & HJ & HB & HC). split; [exact L|]. cbn [fst snd]. split; [exact HB|]. split.
    - destruct (fst (fst v)) as [cx|]; [|exact HC]. destruct HC as (q & Q1 & Q2 & Q3 & Q4 & _). split; [exact Q1|]. split; [unfold NILPTR; lia|]. exists q. auto.
    - exact (LInv_table repUParam 6 4 2 ltac:(lia) repUParam_frame _ _ _ _ _ _ _ _ HJ).
  Qed.
  Lemma telSet_fail v p e' s s' : telSet v p e' s <> Fail s'.
  Proof.
    unfold telSet. destruct (equalNoCase _ _).
    - destruct (upValue p) as [[|x b]|]; try discriminate. destruct (negb (x =? 43)); discriminate.
    - unfold bind, withEnv, ret. destruct (addParam _ _ _ _ _ e' s) eqn:E; try discriminate. exfalso. revert E. apply addParam_fail.
  Qed.
  Lemma left_telParamOne cn cv lo hp v a r : wfA e a -> this + 10 <= lo -> telJ this lo a hp v ->
    simF e (telW this lo) (mUriParamOne cn cv (Some (mTelSet this)) hp) (uriParamOne cn cv telSet v) (telJ this lo) (fun a' => telLeft lo a' (fst v, fst (snd v))) a r.
  Proof.
    intros Hw Hlo HJ. pose proof (sim_telParamOne e this lo H8 Hlo cn cv hp v a r Hw HJ) as Old. pose proof (telJ_left lo a hp v Hlo HJ) as HT. destruct HJ as (Hla & _). num Hw.
    unfold simF, sim in *. destruct (uriParamOne cn cv telSet v e (mkst r (aused a))) as [w s|s| |] eqn:E; [exact Old| |exact Old|exact Old].
    destruct Old as (a' & R & U & K). exists a'. split; [exact R|]. split; [exact U|]. split; [exact K|].
    assert (G : simF e (from (aused a)) (p <~ mNew 6 ;; mUriParam cn cv p ;~ mret p) (allocStruct 6 ;;; parseUriParam cn cv) (fun a' p v => True) (fun a' => telLeft lo a' (fst v, fst (snd v))) a r).
    { eapply (simF_bindS e _ nowhere); [apply sim_new; [exact Hw|lia|lia]|exact Hw|slia| |].
      - intros a1 s1 _ K1. eapply telLeft_keeps; [exact Hla|exact Hlo| |exact HT]. eapply keeps_sub; [exact K1|slia].
      - intros p [] a1 r1 _ Hw1 K1 (-> & U1 & Z1). num K1.
        eapply (simF_conseq e (orS (inR (aused a) 4) (from (aused a1)))); [|slia|intros a2 x w _ HQ; exact HQ|intros a2 _ HF; exact HF].
        apply (simF_of e); [|].
        + apply (sim_bindR e _ (inR (aused a) 4) _ _ _ (uparamQ (aused a) (aused a1))); [apply sim_uriParam; [exact Hw1|lia|lia|exact Z1]|exact Hw1|slia|].
          intros [] w a2 r2 Hw2 K2 _. now apply sim_ret.
        + intros a2 s2 _ _ K2. eapply telLeft_keeps; [exact Hla|exact Hlo| |exact HT]. apply (keeps_sub _ (from (aused a))) in K1; [|slia].
          eapply keeps_trans; [exact K1|]. eapply keeps_sub; [exact K2|slia]. }
    unfold simF in G. unfold uriParamOne in E. unfold bind in E, G. unfold mUriParamOne in R. unfold mbind in R, G.
    destruct (allocStruct 6 e (mkst r (aused a))) as [v0 s0|s0| |]; try discriminate.
    - destruct (parseUriParam cn cv e s0) as [p s1|s1| |]; try discriminate.
      + exfalso. revert E. apply telSet_fail.
      + destruct G as (a2 & R2 & _ & _ & G). destruct (mNew 6 e a r) as [q a3 r3|a3 r3| |]; try discriminate.
        * destruct (mUriParam cn cv q e a3 r3) as [x4 a4 r4|a4 r4| |]; try discriminate. injection R as Ra _. injection R2 as Rb _. rewrite <- Ra, Rb. exact G.
        * injection R as Ra _. injection R2 as Rb _. rewrite <- Ra, Rb. exact G.
    - destruct G as (a2 & R2 & _ & _ & G). destruct (mNew 6 e a r) as [q a3 r3|a3 r3| |]; try discriminate.
      + destruct (mUriParam cn cv q e a3 r3) as [x4 a4 r4|a4 r4| |]; try discriminate. injection R as Ra _. injection R2 as Rb _. rewrite <- Ra, Rb. exact G.
      + injection R as Ra _. injection R2 as Rb _. rewrite <- Ra, Rb. exact G.
  Qed.
  Lemma left_telParams lo a r : wfA e a -> this + 10 <= lo -> lo <= aused a -> g16 (mem a) (this + 8) = NILPTR -> g16 (mem a) (this + 4) = NILPTR -> mem a (this + 1) = 0 ->
    simF e (telW this lo) (mUriParams SIP_PNAME SIP_PVALUE (Some (mTelSet this))) (parseUriParams SIP_PNAME SIP_PVALUE telSet ((None, false), (None, [])))
      (fun a' p v => exists hp, fst hp = p /\ telJ this lo a' hp v) (fun a' => telLeft lo a' (leftTelLoop e (mkst r (aused a)))) a r.
  Proof.
    intros Hw Hlo Hla Z8 Z4 Z1. pose proof (sim_telParams e this lo H8 Hlo SIP_PNAME SIP_PVALUE a r Hw Hla Z8 Z4 Z1) as Old. num Hw. eapply simF_both; [exact Old|]. clear Old.
    assert (J0 : telJ this lo a (NILPTR, NILPTR) ((None, false), (None, []))).
    { split; [exact Hla|]. cbn [fst snd]. rewrite Z8. split; [apply LInv_nil; lia|]. split; [exact Z1|exact Z4]. }
    destruct r as [|x r1]; [apply simF_onRest, simF_fail; [exact Hw|exact (telJ_left lo a _ _ Hlo J0)]|]. apply simF_onRest.
    assert (G : simF e (telW this lo) (loopM (fun hp => mOnRest (fun r => match r with [] => mret (inr hp) | _ => mbind (mUriParamOne SIP_PNAME SIP_PVALUE (Some (mTelSet this)) hp) (mContIf 59) end)) (NILPTR, NILPTR))
        (sepLoop 59 (uriParamOne SIP_PNAME SIP_PVALUE telSet) ((None, false), (None, []))) (telJ this lo) (fun a' => telLeft lo a' (leftTelLoop e (mkst (x :: r1) (aused a)))) a (x :: r1)).
    { unfold sepLoop, leftTelLoop. eapply (simF_loop e _ _ _ (telJ this lo)); [|exact Hw|exact J0].
      clear - H8 Hlo. intros hp v a r Hw HJ. apply simF_onRest. destruct r as [|y r]; [apply simF_ret; [exact Hw|exact HJ]|].
      eapply (simF_bind e _ (telW this lo)); [apply left_telParamOne; [exact Hw|exact Hlo|exact HJ]|exact Hw|auto|intros a' _ F1; exact F1|].
      intros hp1 v1 a1 r1 _ Hw1 _ HJ1. apply simF_of; [now apply sim_contIf|]. intros a2 s Ec. unfold contIf, onRest in Ec. cbn [rest] in Ec. destruct r1 as [|z r1]; [discriminate|]. destruct (z =? 59); discriminate. }
    cbv beta iota. set (lm := loopM _ _) in G |- *. unfold simF, mbind in G |- *. unfold mret. destruct (sepLoop 59 (uriParamOne SIP_PNAME SIP_PVALUE telSet) ((None, false), (None, [])) e (mkst (x :: r1) (aused a))) as [v s|s| |].
    - destruct G as (hp & a' & -> & U & K & _). exists (fst hp), a'. split; [reflexivity|]. split; [exact U|]. split; [exact K|exact Logic.I].
    - destruct G as (a' & -> & U & K & G). exists a'. split; [reflexivity|]. split; [exact U|]. split; [exact K|exact G].
    - intros N0. now rewrite G.
    - now rewrite G.
  Qed.
  (** A number that is wrong leaves nothing but NIL. *)
  Lemma left_telNumber a r : wfA e a -> this + 10 <= aused a -> g16 (mem a) (this + 2) = NILPTR ->
    simF e (orS (inR this 1) (inR (this + 2) 2)) (mTelNumber this) parseTelNumber (numQ this (aused a)) (fun a' => mem a' this = mem a this /\ g16 (mem a') (this + 2) = NILPTR) a r.
  Proof.
    intros Hw Hl Z. eapply simF_both; [now apply sim_telNumber|]. num Hw. apply simF_onRest. destruct r as [|x r1]; [apply simF_fail; [exact Hw|auto]|].
    assert (G : forall cs b, simF e (orS (inR this 1) (inR (this + 2) 2)) (mInto (this + 2) (mStr (ParseAndAllocTelNumber cs)) ;~ set8 this (if b : bool then 1 else 0)) (n <- paTelNumber cs ;; ret (b, n)) (fun _ _ _ => True)
       (fun a' => mem a' this = mem a this /\ g16 (mem a') (this + 2) = NILPTR) a (x :: r1)).
    { intros cs b. eapply (simF_bind e _ (orS nowhere (inR (this + 2) 2))); [|exact Hw|slia|intros a' _ F1; exact F1|].
      - eapply simF_when; [eapply (simF_into e nowhere (this + 2) _ _ _ (fun a' => keeps nowhere a a')); [exact Hw|eapply simF_of; [apply sim_Tel; exact Hw|auto]|intros a' q v K (_ & Hq & _); exact Hq]|].
        intros a' s _ K (a0 & K0 & K1 & U & V). split; [|exact V]. rewrite (proj2 (proj2 (proj2 K))); [reflexivity|lia|slia].
      - intros [] v a2 r2 _ Hw2 K2 _. num K2. apply simF_of; [|intros a' s E; discriminate]. apply sim_eta. apply sim_set8; [exact Hw2|slia|]. intros a3 Hw3 K3 U3 V3. now apply sim_ret. }
    destruct (x =? 43); [apply (G _ true)|apply (G _ false)].
  Qed.
  Lemma left_telAfterScheme a r : wfA e a -> this + 10 <= aused a -> zeros (mem a) this 10 ->
    simF e (inR this 10) (mTelAfterScheme this) parseTelAfterScheme (telQ this (aused a)) (fun a' => telQ this (aused a) a' tt (leftTelAfterScheme e (mkst r (aused a)))) a r.
  Proof.
    intros Hw Hl Z. eapply simF_both; [now apply sim_telAfterScheme|]. num Hw. unfold mTelAfterScheme, parseTelAfterScheme, leftTelAfterScheme.
    eapply (simF_bind e (inR this 10) (orS (inR this 1) (inR (this + 2) 2))); [|exact Hw|slia|intros a' _ F1; exact F1|].
    { eapply simF_when; [apply left_telNumber; [exact Hw|exact Hl|eapply zeros16; [exact Z|lia|lia]]|]. intros a' s E K (F0 & F2). rewrite E. num K.
      assert (Zk : forall i, i = 4 \/ i = 6 \/ i = 8 -> g16 (mem a') (this + i) = NILPTR) by (intros i Hi; eapply g16_frame; [|eapply zeros16; [exact Z|lia|lia]]; agr K).
      split; cbn [tGlobal tDomain tNumber tContext tKnown tParams]; [rewrite F0; replace this with (this + 0) by lia; apply Z; lia|].
      split; [transitivity (mem a (this + 1)); [apply K; slia|apply Z; lia]|]. split; [right; auto|]. split; [apply Zk; lia|]. split; apply Zk; lia. }
    intros [] [g n] a1 r1 E1 Hw1 K1 (G1 & G2). rewrite E1. cbn [fst snd rest used] in *. num K1.
    assert (Z1 : forall i, i = 4 \/ i = 6 \/ i = 8 -> g16 (mem a1) (this + i) = NILPTR) by (intros i Hi; eapply g16_frame; [|eapply zeros16; [exact Z|lia|lia]]; agr K1).
    assert (Zb : mem a1 (this + 1) = 0) by (transitivity (mem a (this + 1)); [apply K1; slia|apply Z; lia]). clear Z.
    apply simF_onRest. destruct r1 as [|x r1]; [now apply simF_ret|]. destruct (x =? 59); [|now apply simF_ret]. apply simF_goto_bind. apply simF_eta.
    eapply (simF_bind e _ (orS (telW this (aused a1)) (inR (this + 6) 2))); [|exact Hw1|unfold telW; slia|intros a' _ F1; exact F1|].
    - eapply simF_when; [eapply simF_into; [exact Hw1|apply (left_telParams (aused a1)); [exact Hw1|lia|lia|apply Z1; lia|apply Z1; lia|exact Zb]|]|].
      + intros a' q v K' (hp & <- & (L1 & L2 & _)). unfold telW in K'. num K'. destruct (LInv_head repUParam 6 4 2 ltac:(lia) repUParam_frame _ _ _ _ _ _ _ _ L2) as ([->|G] & _); [reflexivity|]. unfold two16. lia.
      + intros a3 s _ K3 (a2 & (L1 & L3 & L4 & L5) & K23 & U23 & V). unfold telW in K3. num K3. num K23.
        set (l := leftTelLoop e (mkst r1 (aused a1))) in *.
        assert (A3 : agreeR (mem a2) (mem a3) (aused a1) (aused a2)) by agr K23.
        assert (E8 : g16 (mem a3) (this + 8) = g16 (mem a2) (this + 8)) by (eapply g16_frame; [|reflexivity]; agr K23).
        assert (E4 : g16 (mem a3) (this + 4) = g16 (mem a2) (this + 4)) by (eapply g16_frame; [|reflexivity]; agr K23).
        assert (E2 : g16 (mem a3) (this + 2) = g16 (mem a1) (this + 2)) by (eapply g16_frame; [|reflexivity]; agr K3).
        split; cbn [tGlobal tDomain tNumber tContext tKnown tParams].
        { transitivity (mem a1 this); [apply K3; slia|exact G1]. }
        split. { transitivity (mem a2 (this + 1)); [apply K23; slia|exact L3]. }
        split. { rewrite E2. left. eapply str_mono; [eapply str_frame; [|exact G2]; agr K3|lia|lia]. }
        split. { rewrite E4. eapply repEntry_mono; [eapply repEntry_frame; [exact A3|exact L4]|lia|lia]. }
        split. { exact V. }
        rewrite E8. eapply repTable_mono; [eapply repTable_frame; [exact repUParam_agree|exact A3|exact L5]|lia|lia].
    - intros [] v a3 r3 _ Hw3 _ _. now apply simF_ret.
  Qed.
  Lemma left_telUri a r : wfA e a -> this + 10 <= aused a -> zeros (mem a) this 10 ->
    simF e (inR this 10) (mTelUriWithoutInit this) parseTelUri (telQ this (aused a)) (fun a' => telQ this (aused a) a' tt (leftTelUri e (mkst r (aused a)))) a r.
  Proof.
    intros Hw Hl Z. num Hw. unfold mTelUriWithoutInit, parseTelUri, leftTelUri.
    eapply (simF_bind e _ nowhere _ _ _ _ (fun a' _ _ => a' = a) _ (fun a' => a' = a /\ exists s, parseTelScheme e (mkst r (aused a)) = Fail s)); [|exact Hw|slia| |].
    - eapply simF_when; [apply (simF_both e nowhere nowhere _ _ (fun a' _ _ => a' = a) (fun a' => a' = a))|intros a' s E _ F1; eauto].
      + apply sim_onRest. destruct r as [|c1 [|c2 [|c3 [|c4 r1]]]]; try (apply sim_fail, Hw). destruct (lc c1 116 && lc c2 101 && lc c3 108 && lc c4 58); [|apply sim_fail, Hw].
        apply sim_goto; auto.
      + apply simF_onRest. destruct r as [|c1 [|c2 [|c3 [|c4 r1]]]]; try (apply simF_fail; auto). destruct (lc c1 116 && lc c2 101 && lc c3 108 && lc c4 58); [|apply simF_fail; auto].
        eapply simF_of; [apply sim_goto; [exact Hw|exact Logic.I]|intros a' s E; discriminate].
    - intros a' _ (-> & s & E). rewrite E. split; cbn [tGlobal tDomain tNumber tContext tKnown tParams]; [replace this with (this + 0) by lia; apply Z; lia|].
      split; [apply Z; lia|]. split; [right; split; [eapply zeros16; [exact Z|lia|lia]|reflexivity]|].
      split; [eapply zeros16; [exact Z|lia|lia]|]. split; (eapply zeros16; [exact Z|lia|lia]).
    - intros [] [] a1 r1 E1 Hw1 K1 ->. rewrite E1. eapply simF_sub; [apply left_telAfterScheme; auto|slia].
  Qed.
End TelUri.
