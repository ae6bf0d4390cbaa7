(** SipUri on the arena simulates the value layer. *)
From Verif Require Import Base Charset BaseLemmas Num Lws Str Monad Host Uri Arena ArenaProofs Layout Mem MemSim MemTac MemUri MemRep MemList Inv MemHostProofs MemParamProofs MemUriProofs.

Ltac carry_ext K a a1 ::=
  match goal with
  | H : repUParams (mem a) ?lo ?hi _ _ |- _ => let A := fresh in assert (A : agreeR (mem a) (mem a1) lo hi) by (agr K); apply (repUParams_frame _ _ _ _ _ _ A) in H; clear A
  | H : repHostPort (mem a) ?this ?lo ?hi _ |- _ => let A := fresh in let B := fresh in assert (A : agreeR (mem a) (mem a1) this (this + 6)) by (agr K); assert (B : agreeR (mem a) (mem a1) lo hi) by (agr K);
      apply (repHostPort_frame _ _ _ _ _ _ A B) in H; clear A B
  | H : repTable repUParam 6 ?n (mem a) ?lo ?hi _ _ |- _ => let A := fresh in assert (A : agreeR (mem a) (mem a1) lo hi) by (agr K); apply (repTable_frame _ _ repUParam_agree _ _ _ _ _ _ _ A) in H; clear A
  end.

Section SipUri.
  Variable e : env.
  Hypothesis Hnet : netLen e.
  Variable this : N.
  Hypothesis H8 : 8 <= this.

  Lemma sim_password a r : wfA e a -> this + 18 <= aused a -> g16 (mem a) (this + 4) = NILPTR ->
    sim e (inR (this + 4) 2) (mPassword this) parsePassword (fun a' _ v => ostr (mem a') (aused a) (aused a') (g16 (mem a') (this + 4)) v) a r.
  Proof.
    intros Hw Hl Hz. num Hw. apply sim_onRest. destruct r as [|x r1]; [apply sim_panic|].
    destruct (x =? 58); [|apply sim_ret; [exact Hw|exact Hz]]. apply sim_goto_bind. destruct r1 as [|y r1]; [apply sim_fail, Hw|].
    eapply (sim_bind e _ nowhere); [apply sim_EscapableEmpty, Hw|exact Hw|slia|]. intros q v a1 r2 Hw1 K1 (Hs & Hq & Hq1 & Hu). num K1.
    apply sim_eta. apply sim_set16; [exact Hw1|exact Hq|slia|]. step_in a2. apply sim_ret; [exact Hw0|]. cbn [ostr]. rewrite V. eapply str_mono; [exact Hs|lia|lia].
  Qed.
  Lemma sim_userinfo a r : wfA e a -> this + 18 <= aused a -> g16 (mem a) (this + 2) = NILPTR -> g16 (mem a) (this + 4) = NILPTR ->
    sim e (inR (this + 2) 4) (mUserinfo this) parseUserinfo (fun a' _ up => ostr (mem a') (aused a) (aused a') (g16 (mem a') (this + 2)) (fst up) /\ ostr (mem a') (aused a) (aused a') (g16 (mem a') (this + 4)) (snd up)) a r.
  Proof.
    intros Hw Hl Hz2 Hz4. num Hw. apply sim_onRest. destruct (findUserinfo r); [|apply sim_ret; auto].
    eapply (sim_bind e _ nowhere); [apply sim_Escapable, Hw|exact Hw|slia|]. intros q u a1 r1 Hw1 K1 (Hs & Hq & Hq1 & Hu). carry K1.
    apply sim_onRest. destruct r1 as [|x r1]; [apply sim_fail, Hw1|]. apply sim_set16; [exact Hw1|exact Hq|slia|]. step_in a2.
    eapply (sim_bind e _ (inR (this + 4) 2)); [apply sim_password; [exact Hw0|lia|exact Hz4]|exact Hw0|slia|]. intros [] pw a3 r3 Hw3 K3 Hp. carry K3.
    apply sim_onRest. destruct r3 as [|y r3]; [apply sim_fail, Hw3|]. destruct (y =? 64); [|apply sim_fail, Hw3].
    apply sim_eta. apply sim_goto_bind. apply sim_ret; [exact Hw3|]. cbn [fst snd]. split.
    - cbn [ostr]. rewrite V. eapply str_mono; [exact Hs|lia|lia].
    - eapply ostr_mono; [exact Hp|lia|lia].
  Qed.
  Lemma sim_sipScheme a r : wfA e a -> this + 18 <= aused a ->
    sim e (inR this 1) (mSipScheme this) parseSipScheme (fun a' _ s => mem a' this = (if s then 1 else 0) /\ aused a' = aused a) a r.
  Proof.
    intros Hw Hl. num Hw. apply sim_onRest.
    assert (G : forall (b : bool) r2, sim e (inR this 1) (mbind (mGoto r2) (fun _ => set8 this (if b then 1 else 0))) (bind (goto r2) (fun _ => ret b)) (fun a' _ s => mem a' this = (if s then 1 else 0) /\ aused a' = aused a) a r).
    { intros b r2. apply sim_goto_bind. apply sim_eta. apply sim_set8; [exact Hw|slia|]. step_in a2. apply sim_ret; auto. }
    destruct r as [|x1 [|x2 [|x3 [|x4 r1]]]]; try apply sim_fail, Hw. destruct (lc x1 115 && lc x2 105 && lc x3 112); [|apply sim_fail, Hw].
    destruct (x4 =? 58); [apply (G false)|]. destruct r1 as [|x5 r2]; [apply sim_fail, Hw|]. destruct (lc x4 115 && (x5 =? 58)); [apply (G true)|apply sim_fail, Hw].
  Qed.

  Definition sipUriQ (lo : N) : arena -> unit -> sipuri -> Prop := fun a' _ u => repSipUri (mem a') this lo (aused a') u.
  Lemma sim_uriAfterScheme (b : bool) a r : wfA e a -> this + 18 <= aused a -> mem a this = (if b then 1 else 0) -> zeros (mem a) (this + 2) 16 ->
    sim e (inR this 18) (mUriAfterScheme this) (parseUriAfterScheme b) (sipUriQ (aused a)) a r.
  Proof.
    intros Hw Hl Hb Z. num Hw.
    assert (Z2 : g16 (mem a) (this + 2) = NILPTR) by (eapply zeros16; [exact Z|lia|lia]).
    assert (Z4 : g16 (mem a) (this + 4) = NILPTR) by (eapply zeros16; [exact Z|lia|lia]).
    assert (Z12 : g16 (mem a) (this + 12) = NILPTR) by (eapply zeros16; [exact Z|lia|lia]).
    assert (Z14 : g16 (mem a) (this + 14) = NILPTR) by (eapply zeros16; [exact Z|lia|lia]).
    assert (Z16 : g16 (mem a) (this + 16) = NILPTR) by (eapply zeros16; [exact Z|lia|lia]).
    assert (Z7 : mem a (this + 6 + 1) = 0) by (apply Z; lia). clear Z.
    unfold mUriAfterScheme, parseUriAfterScheme.
    eapply (sim_bind e _ (inR (this + 2) 4)); [apply sim_userinfo; auto|exact Hw|slia|]. intros [] up a1 r1 Hw1 K1 (Hu & Hp).
    carry K1.
    eapply (sim_bind e _ (inR (this + 6) 6)); [apply sim_hostPort; [exact Hnet|exact Hw1|lia|lia|exact Z7]|exact Hw1|slia|]. intros [] h a2 r2 Hw2 K2 Hh.
    assert (Eu : g16 (mem a2) (this + 2) = g16 (mem a1) (this + 2)) by (eapply g16_frame; [|reflexivity]; agr K2).
    assert (Ep : g16 (mem a2) (this + 4) = g16 (mem a1) (this + 4)) by (eapply g16_frame; [|reflexivity]; agr K2).
    rewrite <- Eu in Hu. rewrite <- Ep in Hp. clear Eu Ep Z7. carry K2.
    eapply ostr_mono in Hu; [|apply N.le_refl|exact Nk3]. eapply ostr_mono in Hp; [|apply N.le_refl|exact Nk3]. eapply repHostPort_mono in Hh; [|exact Nk0|apply N.le_refl].
    (* from here on only params, headers and knownParams change *)
    set (u0 := aused a) in *.
    assert (Fin : forall (W : N -> Prop) a3 r3 k ps hs, wfA e a3 -> keeps (orS (inR (this + 12) 6) (from (aused a2))) a2 a3 ->
      repUParams (mem a3) u0 (aused a3) (g16 (mem a3) (this + 12)) ps -> repUParams (mem a3) u0 (aused a3) (g16 (mem a3) (this + 14)) hs ->
      repTable repUParam 6 6 (mem a3) u0 (aused a3) (g16 (mem a3) (this + 16)) k ->
      sim e W (mret tt) (ret (mkuri b (fst up) (snd up) h k ps hs)) (sipUriQ u0) a3 r3).
    { intros W a3 r3 k ps hs Hw3 K3 G1 G2 G3. apply sim_ret; [exact Hw3|]. num K3.
      assert (Eu : g16 (mem a3) (this + 2) = g16 (mem a2) (this + 2)) by (eapply g16_frame; [|reflexivity]; agr K3).
      assert (Ep : g16 (mem a3) (this + 4) = g16 (mem a2) (this + 4)) by (eapply g16_frame; [|reflexivity]; agr K3).
      rewrite <- Eu in Hu. rewrite <- Ep in Hp. repeat carry1 K3. unfold sipUriQ, repSipUri. cbn [uSecure uUser uPass uHost uParams uHeaders uKnown].
      split; [exact Hb|]. split; [eapply ostr_mono; [exact Hu|lia|lia]|]. split; [eapply ostr_mono; [exact Hp|lia|lia]|]. split; [eapply repHostPort_mono; [exact Hh|lia|lia]|]. auto. }
    apply sim_onRest. destruct r2 as [|x r2].
    { apply Fin; [exact Hw2|apply (keeps_refl _ e a2 Hw2)|exact Z12|exact Z14|exact Z16]. }
    assert (Hdr : forall a3 r3 k ps, wfA e a3 -> keeps (orS (inR (this + 12) 6) (from (aused a2))) a2 a3 -> g16 (mem a3) (this + 14) = NILPTR ->
      repUParams (mem a3) u0 (aused a3) (g16 (mem a3) (this + 12)) ps ->
      repTable repUParam 6 6 (mem a3) u0 (aused a3) (g16 (mem a3) (this + 16)) k ->
      sim e (orS (inR this 18) (from u0))
        (mOnRest (fun r2 => match r2 with y :: r3 => if y =? 63 then mGoto r3 ;~ mInto (this + 14) mUriHeaders else mret tt | [] => mret tt end))
        (onRest (fun r2 => match r2 with y :: r3 => if y =? 63 then goto r3 ;;; (hs <- parseUriHeaders ;; ret (mkuri b (fst up) (snd up) h k ps hs)) else ret (mkuri b (fst up) (snd up) h k ps []) | [] => ret (mkuri b (fst up) (snd up) h k ps []) end))
        (sipUriQ u0) a3 r3).
    { intros a3 r3 k ps Hw3 K3 E14 G1 G3. num K3. apply sim_onRest.
      assert (N0 : forall W : N -> Prop, sim e W (mret tt) (ret (mkuri b (fst up) (snd up) h k ps [])) (sipUriQ u0) a3 r3) by (intros W; apply Fin; auto).
      destruct r3 as [|y r4]; [apply N0|]. destruct (y =? 63); [|apply N0]. apply sim_goto_bind. apply sim_eta.
      eapply (sim_bind e _ (orS (from (aused a3)) (inR (this + 14) 2))).
      - eapply sim_into; [exact Hw3|apply (sim_uriHeaders e (aused a3)); [exact Hw3|lia|lia]|].
        intros a' q v K' (hp & <- & (L1 & L2)). num K'. destruct (LInv_head repUParam 6 4 6 ltac:(lia) repUParam_frame _ _ _ _ _ _ _ _ L2) as ([->|G] & _); [reflexivity|]. unfold two16. lia.
      - exact Hw3.
      - slia.
      - intros [] hs a5 r5 Hw5 K5 (q & a4 & (hp & <- & (L1 & L2)) & K45 & U45 & V). num K5.
        apply (LInv_list repUParam 6 4 6 ltac:(lia) repUParam_frame) in L2.
        assert (A5 : agreeR (mem a4) (mem a5) (aused a3) (aused a4)) by agr K45.
        apply (repUParams_frame _ _ _ _ _ _ A5) in L2. rewrite <- V, <- U45 in L2.
        assert (E12 : g16 (mem a5) (this + 12) = g16 (mem a3) (this + 12)) by (eapply g16_frame; [|reflexivity]; agr K5).
        assert (E16 : g16 (mem a5) (this + 16) = g16 (mem a3) (this + 16)) by (eapply g16_frame; [|reflexivity]; agr K5).
        rewrite <- E12 in G1. rewrite <- E16 in G3. repeat carry1 K5.
        apply Fin; [exact Hw5| |eapply repList_mono; [exact G1|lia|lia]|eapply repList_mono; [exact L2|lia|lia]|eapply repTable_mono; [exact G3|lia|lia]].
        eapply keeps_trans; [exact K3|]. eapply keeps_sub; [exact K5|slia]. }
    destruct (x =? 59).
    - unfold sim at 1. change (sim e (orS (orS (inR this 18) (from u0)) (from (aused a1)))
        (mbind (mbind (mGoto r2) (fun _ => mInto (this + 12) (mUriParams SIP_PNAME SIP_PVALUE (Some (mSipUriSet this)))))
          (fun _ => mOnRest (fun r2 => match r2 with y :: r3 => if y =? 63 then mGoto r3 ;~ mInto (this + 14) mUriHeaders else mret tt | [] => mret tt end)))
        (bind (bind (goto r2) (fun _ => parseUriParams SIP_PNAME SIP_PVALUE sipUriSet (None, []))) (fun kp => onRest (fun r2 => match r2 with y :: r3 => if y =? 63 then goto r3 ;;; (hs <- parseUriHeaders ;; ret (mkuri b (fst up) (snd up) h (fst kp) (snd kp) hs)) else ret (mkuri b (fst up) (snd up) h (fst kp) (snd kp) []) | [] => ret (mkuri b (fst up) (snd up) h (fst kp) (snd kp) []) end)))
        (sipUriQ u0) a2 (x :: r2)).
      eapply (sim_bind e _ (orS (orS (inR (this + 16) 2) (from (aused a2))) (inR (this + 12) 2))).
      + apply sim_goto_bind. eapply sim_into; [exact Hw2|apply (sim_uriParams e SIP_PNAME SIP_PVALUE this (aused a2)); [exact Hw2|exact H8|lia|lia|exact Z16]|].
        intros a' q v K' (hp & <- & (L1 & L2)). num K'. destruct (LInv_head repUParam 6 4 6 ltac:(lia) repUParam_frame _ _ _ _ _ _ _ _ L2) as ([->|G] & _); [reflexivity|]. unfold two16. lia.
      + exact Hw2.
      + slia.
      + intros [] [k ps] a4 r4 Hw4 K4 (q & a3 & (hp & <- & (L1 & L2)) & K34 & U34 & V). num K4. cbn [fst snd] in *.
        pose proof (LInv_list repUParam 6 4 6 ltac:(lia) repUParam_frame _ _ _ _ _ _ _ _ L2) as P1.
        pose proof (LInv_table repUParam 6 4 6 ltac:(lia) repUParam_frame _ _ _ _ _ _ _ _ L2) as P2. clear L2.
        assert (A4 : agreeR (mem a3) (mem a4) (aused a2) (aused a3)) by agr K34.
        assert (E16 : g16 (mem a4) (this + 16) = g16 (mem a3) (this + 16)) by (eapply g16_frame; [|reflexivity]; agr K34).
        apply (repUParams_frame _ _ _ _ _ _ A4) in P1. apply (repTable_frame _ _ repUParam_agree _ _ _ _ _ _ _ A4) in P2. rewrite <- V, <- U34 in P1. rewrite <- E16, <- U34 in P2.
        eapply sim_sub; [apply Hdr|]; [exact Hw4|eapply keeps_sub; [exact K4|slia]| |eapply repList_mono; [exact P1|lia|lia]|eapply repTable_mono; [exact P2|lia|lia]|slia].
        eapply g16_frame; [|exact Z14]. agr K4.
    - apply sim_ret_bind. eapply sim_sub; [apply (Hdr a2 (x :: r2) None [])|slia]; [exact Hw2|apply (keeps_refl _ e a2 Hw2)|exact Z14|exact Z12|exact Z16].
  Qed.
  Lemma sim_sipUri a r : wfA e a -> this + 18 <= aused a -> zeros (mem a) this 18 ->
    sim e (inR this 18) (mSipUriWithoutInit this) parseSipUri (sipUriQ (aused a)) a r.
  Proof.
    intros Hw Hl Z. num Hw. eapply (sim_bind e _ (inR this 1)); [apply sim_sipScheme; auto|exact Hw|slia|]. intros [] b a1 r1 Hw1 K1 (V & U). num K1.
    rewrite <- U. eapply sim_sub; [apply sim_uriAfterScheme; [exact Hw1|lia|exact V|]|slia].
    eapply zeros_frame; [agr K1|]. intros i Hi. apply Z. lia.
  Qed.
End SipUri.
