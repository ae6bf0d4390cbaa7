(** What a failed SipHostPort.Parse and a failed SipUri.Parse leave in the struct. *)
From Verif Require Import Base Charset BaseLemmas Num Lws Str Monad Host Uri Arena ArenaProofs Layout Mem MemSim MemTac MemUri MemRep MemList Inv MemHostProofs MemParamProofs MemUriProofs MemSipUriProofs Left LeftUri MemLeft.

Lemma simF_eta {X A} e W (m : M X) (p : P A) Q F a r : simF e W (mbind m (fun x => mret x)) p Q F a r -> simF e W m p Q F a r.
Proof. unfold simF, mbind, mret. destruct (m e a r); exact (fun H => H). Qed.
Lemma simF_sub {X A} e (W W' : N -> Prop) (m : M X) (p : P A) Q F a r : simF e W m p Q F a r -> (forall i, 8 <= i < aused a -> W i -> W' i) -> simF e W' m p Q F a r.
Proof. intros H HW. eapply simF_conseq; [exact H|exact HW|auto|auto]. Qed.
Lemma simF_set16 {X A} e (W : N -> Prop) p v (f : unit -> M X) (q : P A) Q F a r : wfA e a -> v < two16 -> (forall i, 8 <= i < aused a -> inR p 2 i -> W i) ->
  (forall a1, wfA e a1 -> keeps (inR p 2) a a1 -> aused a1 = aused a -> g16 (mem a1) p = v -> simF e (orS W (from (aused a))) (f tt) q Q F a1 r) ->
  simF e W (mbind (set16 p v) f) q Q F a r.
Proof.
  intros Hw Hv HW H. assert (K : keeps (inR p 2) a (setMem a (p16 (mem a) p v))).
  { destruct Hw as (_ & _ & _ & Hc). repeat split; cbn; auto; try lia. intros i _ Hi. now apply p16_other. }
  eapply simF_left; [reflexivity|exact (keeps_sub _ _ _ _ K HW)|reflexivity|]. apply H; [exact (keeps_wf _ _ _ _ Hw K)|exact K|reflexivity|]. apply g16_p16, Hv.
Qed.
(** A field that receives NIL when the callee fails. *)
Lemma simF_into {A} e (W : N -> Prop) p (m : M N) (q : P A) Q (F : arena -> Prop) a r : wfA e a -> simF e W m q Q F a r ->
  (forall a' x v, keeps W a a' -> Q a' x v -> x < two16) ->
  simF e (orS W (inR p 2)) (mInto p m) q (intoQ p Q) (fun a' => exists a0, F a0 /\ keeps (inR p 2) a0 a' /\ aused a' = aused a0 /\ g16 (mem a') p = NILPTR) a r.
Proof.
  intros Hw H Hx. pose proof (sim_into e W p m q Q a r Hw (simF_sim _ _ _ _ _ _ _ _ H) Hx) as Old. unfold simF, sim, mInto in *. destruct (q e _) as [v s|s| |]; auto.
  destruct H as (a0 & E & U & K & q0). rewrite E in *. destruct Old as (a' & E' & U' & K'). injection E' as <-. eexists. split; [reflexivity|]. split; [exact U'|]. split; [exact K'|].
  exists a0. split; [exact q0|]. pose proof (keeps_wf _ _ _ _ Hw K) as Hw0. split; [|split; [reflexivity|apply g16_p16; unfold two16, NILPTR; lia]].
  destruct Hw0 as (_ & _ & _ & Hc). repeat split; cbn; auto; try lia. intros i _ Hi. now apply p16_other.
Qed.

(** The answer and the failure can be proved apart. *)
Lemma simF_both {X A} e (W W' : N -> Prop) (m : M X) (p : P A) Q (F : arena -> Prop) a r : sim e W m p Q a r -> simF e W' m p (fun _ _ _ => True) F a r -> simF e W m p Q F a r.
Proof.
  unfold sim, simF. destruct (p e _) as [v s|s| |]; auto. intros (a' & R & U & K) (a2 & R2 & _ & _ & H). exists a'. split; [exact R|]. split; [exact U|]. split; [exact K|].
  rewrite R in R2. injection R2 as Ra. rewrite Ra. exact H.
Qed.

Section Host.
  Variable e : env.
  Hypothesis Hnet : netLen e.
  Variable this : N.
  Notation same a := (fun a' : arena => mem a' this = mem a this /\ mem a' (this + 1) = mem a (this + 1)).

  Lemma left_hostname a r : wfA e a -> 8 <= this -> this + 6 <= aused a -> simF e (inR this 6) (mHostname this) parseHostname (hostQ this a) (same a) a r.
  Proof.
    intros Hw H8 Hl. pose proof (sim_hostname e this a r Hw H8 Hl) as Old. num Hw. unfold simF, sim in *.
    destruct (parseHostname e (mkst r (aused a))) as [v s|s| |] eqn:E; [exact Old| |exact Old|exact Old].
    assert (G : simF e (orS nowhere (inR (this + 4) 2)) (mInto (this + 4) (mStr (ParseAndAllocCString HOSTNAME))) (paCString HOSTNAME) (intoQ (this + 4) (strQ a))
        (fun a' => exists a0, keeps nowhere a a0 /\ keeps (inR (this + 4) 2) a0 a' /\ aused a' = aused a0 /\ g16 (mem a') (this + 4) = NILPTR) a r).
    { apply simF_into; [exact Hw|eapply simF_of; [apply sim_CString, Hw|auto]|intros a' x v _ (_ & H & _); exact H]. }
    unfold mHostname, mbind. unfold parseHostname, bind, ret in E. unfold simF in G. destruct (paCString HOSTNAME e (mkst r (aused a))) as [v s0|s0| |]; try discriminate.
    injection E as ->. destruct G as (a' & -> & U & K & a0 & K0 & K1 & U0 & _). exists a'. split; [reflexivity|]. split; [exact U|]. split; [eapply keeps_sub; [exact K|slia]|]. num K0.
    split; rewrite (proj2 (proj2 (proj2 K1))), (proj2 (proj2 (proj2 K0))); auto; try lia; slia.
  Qed.
  Lemma left_setIp id n ip h a r : wfA e a -> 8 <= this -> this + 6 <= aused a -> 0 < n -> n < 1000 -> n = len ip ->
    (forall a' q, mem a' this = id -> g16 (mem a') (this + 4) = q -> aused a <= q -> q + n <= aused a' -> readBytes (mem a') q (N.to_nat n) = ip -> repHost (mem a') this (aused a) (aused a') h) ->
    forall r2, simF e (inR this 6) (mbind (q <~ mAlloc n ;; mCopy q n ip ;~ set8 this id ;~ set16 (this + 4) q) (fun _ => mGoto r2))
                   (bind (allocStruct n) (fun _ => bind (goto r2) (fun _ => ret h))) (hostQ this a) (same a) a r.
  Proof.
    intros Hw H8 Hl Hn Hn' Hlen Hrep r2. pose proof (sim_setIp e this id n ip h a r Hw H8 Hl Hn Hn' Hlen Hrep r2) as Old. num Hw. unfold simF, sim in *.
    destruct (bind _ _ e (mkst r (aused a))) as [v s|s| |] eqn:E; [exact Old| |exact Old|exact Old].
    pose proof (sim_alloc e n a r Hw Hn Hn') as G. unfold sim in G. unfold bind, goto, ret in E. destruct (allocStruct n e (mkst r (aused a))) as [v s0|s0| |]; try discriminate. injection E as ->.
    destruct G as (a' & E & U & K). exists a'. unfold mbind. unfold mbind in E. rewrite E. split; [reflexivity|]. split; [exact U|]. split; [eapply keeps_sub; [exact K|slia]|].
    split; apply K; auto; try lia; slia.
  Qed.
  Lemma left_ipv6 a r : wfA e a -> 8 <= this -> this + 6 <= aused a -> simF e (inR this 6) (mIpv6 this) parseIpv6 (hostQ this a) (same a) a r.
  Proof.
    intros Hw H8 Hl. apply simF_onRest. destruct (span (fun x => negb (x =? 93)) r) as [txt r1]. apply simF_goto_bind.
    destruct r1 as [|c r2]; [apply simF_fail; auto|]. apply simF_withEnv. destruct (ipParse e txt) as [ip|] eqn:E; [|apply simF_fail; auto].
    apply left_setIp; auto; try lia.
    - unfold len. rewrite (Hnet _ _ E). reflexivity.
    - intros a' q H1 H2 H3 H4 H5. cbn [repHost]. rewrite H2. repeat split; auto.
  Qed.
  Lemma left_host a r : wfA e a -> 8 <= this -> this + 6 <= aused a -> simF e (inR this 6) (mHost this) parseHost (hostQ this a) (same a) a r.
  Proof.
    intros Hw H8 Hl. apply simF_onRest. destruct r as [|x r1]; [apply simF_fail; auto|].
    destruct (x =? 91); [apply simF_goto_bind, left_ipv6; auto|]. destruct (IsAlpha x); [apply left_hostname; auto|].
    destruct (parseIpv4 (x :: r1)) as [[[[[n1 n2] n3] n4] r2]|]; [|apply left_hostname; auto].
    apply simF_goto_bind. assert (H := left_setIp 1 4 [n1; n2; n3; n4] (HIpv4 n1 n2 n3 n4) a r2 Hw H8 Hl eq_refl eq_refl eq_refl).
    assert (G : simF e (inR this 6) (mbind (mSetIpv4 this [n1; n2; n3; n4]) (fun _ => mGoto r2)) (bind (allocStruct 4) (fun _ => bind (goto r2) (fun _ => ret (HIpv4 n1 n2 n3 n4)))) (hostQ this a) (same a) a r2).
    { apply H. intros a' q G1 G2 G3 G4 G5. cbn [repHost]. rewrite G2. repeat split; auto. }
    unfold simF, bind, allocStruct, mbind, goto, ret in *. cbn [rest used] in *. destruct (leMem e (aused a + 4)).
    - destruct G as (y & a' & G1 & G2 & G3 & G4). cbn [rest used] in *. exists tt, a'. destruct (mSetIpv4 this [n1; n2; n3; n4] e a r2) as [y0 a0 r0| | |] eqn:E; try discriminate.
      assert (r0 = r2) as ->. { revert E. unfold mSetIpv4, mbind, mAlloc, mAllocX, mbind. destruct (Alloc 4 a) as [q1 a1]. destruct (q1 =? NILPTR); [discriminate|]. unfold mret, mCopy.
        destruct (cap a1 <=? q1); [discriminate|]. destruct (writeBytes _ _ _ _) as [[m0 u0]|]; [|discriminate]. unfold set8, set16. intros E. now injection E. }
      unfold mGoto in G1. injection G1 as _ ->. destruct y0. split; [reflexivity|]. split; [exact G2|]. split; [exact G3|exact G4].
    - destruct G as (a' & G1 & G2 & G3). exists a'. destruct (mSetIpv4 this [n1; n2; n3; n4] e a r2) as [y0 a0 r0| | |] eqn:E; try discriminate. auto.
  Qed.
  Lemma left_hostPort a r : wfA e a -> 8 <= this -> this + 6 <= aused a -> mem a this = 0 -> mem a (this + 1) = 0 ->
    simF e (inR this 6) (mHostPort this) parseHostPort (fun a' _ h => repHostPort (mem a') this (aused a) (aused a') h) (fun a' => repHostPort (mem a') this (aused a) (aused a') (leftHostPort e (mkst r (aused a)))) a r.
  Proof.
    intros Hw H8 Hl Hz0 Hz. num Hw. pose proof (sim_hostPort e Hnet this a r Hw H8 Hl Hz) as Old. unfold leftHostPort.
    eapply (simF_bind e _ (inR this 6)); [|exact Hw|slia|intros a' _ F1; exact F1|].
    - eapply simF_when; [apply left_host; auto|]. intros a' s E _ (F1 & F2). rewrite E. split; cbn [hpHost hpPort repHost]; congruence.
    - intros [] h a1 r1 E1 Hw1 K1 (Hh & Hp). num K1. rewrite Hz in Hp. rewrite E1. apply simF_onRest.
      assert (B : repHostPort (mem a1) this (aused a) (aused a1) (mkhp h None)) by (split; [exact Hh|exact Hp]).
      assert (N0 : forall r2, simF e (orS (inR this 6) (from (aused a))) (mret tt) (ret (mkhp h None)) (fun a' _ h => repHostPort (mem a') this (aused a) (aused a') h)
        (fun a' => repHostPort (mem a') this (aused a) (aused a') (mkhp h None)) a1 r2).
      { intros r2. apply simF_ret; [exact Hw1|exact B]. }
      destruct r1 as [|x r2]; [apply N0|]. destruct (x =? 58); [|apply N0]. apply simF_goto_bind.
      eapply (simF_bindS e _ nowhere); [apply sim_UInt, Hw1|exact Hw1|slia| |].
      { intros a' s _ K. num K. eapply repHostPort_mono; [eapply repHostPort_frame; [| |exact B]; agr K|lia|lia]. }
      intros n n' a1' r3 _ _ _ (-> & ->).
      destruct (N.ltb_spec 65535 n') as [L|L]; [apply simF_fail; [exact Hw1|exact B]|].
      apply simF_of; [|intros a' s E; discriminate]. unfold mSetPort.
      apply sim_set8; [exact Hw1|slia|]. intros a2 Hw2 K2 U2 V2. apply sim_eta. num K2. repeat carry1 K2.
      apply sim_set16; [exact Hw2|unfold two16; lia|slia|]. intros a3 Hw3 K3 U3 V3. num K3. repeat carry1 K3. apply sim_ret; [exact Hw3|].
      split; [|cbn [hpPort]; split; [exact V2|exact V3]]. cbn [hpHost].
      assert (E : forall i, this <= i < this + 1 \/ this + 4 <= i < this + 6 -> mem a3 i = mem a1 i).
      { intros i Hi. rewrite (proj2 (proj2 (proj2 K3))), (proj2 (proj2 (proj2 K2))); auto; slia. }
      assert (A2 : agreeR (mem a1) (mem a3) (aused a) (aused a1)).
      { intros i Hi. rewrite (proj2 (proj2 (proj2 K3))), (proj2 (proj2 (proj2 K2))); auto; slia. }
      replace (aused a3) with (aused a1) by lia. revert Hh. unfold repHost. assert (G : g16 (mem a3) (this + 4) = g16 (mem a1) (this + 4)) by (unfold g16; rewrite !E by lia; reflexivity).
      rewrite G, (E this) by lia. destruct h as [|b1 b2 b3 b4|ip|s].
      + auto.
      + intros (F1 & F2 & F3 & F4). repeat split; auto. eapply readBytes_frame; [|exact F4]. eapply agreeR_sub; [exact A2|lia|lia].
      + intros (F1 & F2 & F3 & F4). repeat split; auto. eapply readBytes_frame; [|exact F4]. eapply agreeR_sub; [exact A2|lia|lia].
      + intros (F1 & F2). split; auto. eapply str_frame; eauto.
  Qed.
End Host.

Section SipUri.
  Variable e : env.
  Hypothesis Hnet : netLen e.
  Variable this : N.
  Hypothesis H8 : 8 <= this.
  Notation users a a' up := (ostr (mem a') (aused a) (aused a') (g16 (mem a') (this + 2)) (fst up) /\ ostr (mem a') (aused a) (aused a') (g16 (mem a') (this + 4)) (snd up)).

  (** A password that is not there leaves NIL. *)
  Lemma left_password a r : wfA e a -> this + 18 <= aused a -> g16 (mem a) (this + 4) = NILPTR ->
    simF e (inR (this + 4) 2) (mPassword this) parsePassword (fun a' _ v => ostr (mem a') (aused a) (aused a') (g16 (mem a') (this + 4)) v)
      (fun a' => g16 (mem a') (this + 4) = NILPTR) a r.
  Proof.
    intros Hw Hl Hz. num Hw. apply simF_onRest. destruct r as [|x r1]; [intros _; reflexivity|].
    destruct (x =? 58); [|apply simF_ret; [exact Hw|exact Hz]]. apply simF_goto_bind. destruct r1 as [|y r1]; [apply simF_fail; [exact Hw|exact Hz]|].
    eapply (simF_bindS e _ nowhere); [apply sim_EscapableEmpty, Hw|exact Hw|slia| |].
    { intros a' s _ K. num K. carry1 K. exact Hz. }
    intros q v a1 r2 _ Hw1 K1 (Hs & Hq & Hq1 & Hu). num K1. apply simF_of; [|intros a' s E; discriminate].
    apply sim_eta. apply sim_set16; [exact Hw1|exact Hq|slia|]. step_in a2. apply sim_ret; [exact Hw0|]. cbn [ostr]. rewrite V. eapply str_mono; [exact Hs|lia|lia].
  Qed.
  Lemma left_userinfo a r : wfA e a -> this + 18 <= aused a -> g16 (mem a) (this + 2) = NILPTR -> g16 (mem a) (this + 4) = NILPTR ->
    simF e (inR (this + 2) 4) (mUserinfo this) parseUserinfo (fun a' _ up => users a a' up) (fun a' => users a a' (leftUserinfo e (mkst r (aused a)))) a r.
  Proof.
    intros Hw Hl Hz2 Hz4. num Hw. apply simF_onRest. unfold leftUserinfo. destruct (findUserinfo r); [|apply simF_ret; auto].
    eapply (simF_bindS e _ nowhere); [apply sim_Escapable, Hw|exact Hw|slia| |].
    { intros a' s E K. rewrite E. num K. repeat carry1 K. split; [exact Hz2|exact Hz4]. }
    intros q u a1 r1 E1 Hw1 K1 (Hs & Hq & Hq1 & Hu). rewrite E1. carry K1. cbn [rest].
    apply simF_onRest. destruct r1 as [|x r1]; [apply simF_fail; [exact Hw1|split; [exact Hz2|exact Hz4]]|]. apply simF_set16; [exact Hw1|exact Hq|slia|]. step_in a2.
    assert (Hus : ostr (mem a2) (aused a) (aused a2) (g16 (mem a2) (this + 2)) (Some u)) by (cbn [ostr]; rewrite V; eapply str_mono; [exact Hs|lia|lia]).
    rewrite <- U. clear Hs V.
    eapply (simF_bind e _ (inR (this + 4) 2)); [|exact Hw0|slia|intros a' _ F4; exact F4|].
    - eapply simF_when; [apply left_password; [exact Hw0|lia|exact Hz4]|]. intros a' s E K3 F4. rewrite E. cbn [fst snd]. num K3. split; [|exact F4]. carry1 K3.
      replace (g16 (mem a') (this + 2)) with (g16 (mem a2) (this + 2)) by (symmetry; eapply g16_frame; [|reflexivity]; agr K3). eapply ostr_mono; [exact Hus|lia|lia].
    - intros [] pw a3 r3 E3 Hw3 K3 Hp. rewrite E3. cbn [fst snd].
      assert (G : users a a3 (Some u, pw)).
      { num K3. cbn [fst snd]. split; [|eapply ostr_mono; [exact Hp|lia|lia]]. carry1 K3.
        replace (g16 (mem a3) (this + 2)) with (g16 (mem a2) (this + 2)) by (symmetry; eapply g16_frame; [|reflexivity]; agr K3). eapply ostr_mono; [exact Hus|lia|lia]. }
      apply simF_onRest. destruct r3 as [|y r3]; [apply simF_fail; [exact Hw3|exact G]|]. destruct (y =? 64); [|apply simF_fail; [exact Hw3|exact G]].
      apply simF_eta. apply simF_goto_bind. apply simF_ret; [exact Hw3|exact G].
  Qed.

  (** The parameters: the table stays as it was in front of the wrong one. *)
  Definition leftTable (lo : N) (a : arena) (k : known uparam) : Prop := lo <= aused a /\ repTable repUParam 6 6 (mem a) lo (aused a) (g16 (mem a) (this + 16)) k.
  Lemma leftTable_keeps lo a a' k : lo <= aused a -> this + 18 <= lo -> keeps (from (aused a)) a a' -> leftTable lo a k -> leftTable lo a' k.
  Proof.
    intros Hla Hlo K (_ & H). num K. split; [lia|]. replace (g16 (mem a') (this + 16)) with (g16 (mem a) (this + 16)) by (symmetry; eapply g16_frame; [|reflexivity]; agr K).
    eapply repTable_mono; [eapply repTable_frame; [exact repUParam_agree| |exact H]; agr K|lia|lia].
  Qed.
  Lemma uriJ_table lo a hp kl : uriJ (this + 16) lo a hp kl -> leftTable lo a (fst kl).
  Proof. intros (L & HJ). split; [exact L|]. exact (LInv_table repUParam 6 4 6 ltac:(lia) repUParam_frame _ _ _ _ _ _ _ _ HJ). Qed.
  Lemma addParam_fail (en : bool) names (a : known uparam * list uparam) p e' s s' : addParam en names upName a p e' s <> Fail s'.
  Proof.
    unfold addParam. destruct en; [|discriminate]. unfold bind, setKnown, ret. destruct (findName names (upName p) 0) as [i|]; [|discriminate].
    destruct (fst a) as [tbl|]; [discriminate|]. destruct (leMem e' _); [discriminate|]. destruct (Nat.ltb i 4); discriminate.
  Qed.
  Lemma left_uriParamOne cn cv lo hp kl a r : wfA e a -> this + 18 <= lo -> uriJ (this + 16) lo a hp kl ->
    simF e (orS (inR (this + 16) 2) (from lo)) (mUriParamOne cn cv (Some (mSipUriSet this)) hp) (uriParamOne cn cv sipUriSet kl) (uriJ (this + 16) lo) (fun a' => leftTable lo a' (fst kl)) a r.
  Proof.
    intros Hw Hlo HJ. pose proof (sim_uriParamOne e cn cv this lo hp kl a r Hw H8 Hlo HJ) as Old. pose proof (uriJ_table lo a hp kl HJ) as HT. destruct HJ as (Hla & _). num Hw.
    unfold simF, sim in *. destruct (uriParamOne cn cv sipUriSet kl e (mkst r (aused a))) as [v s|s| |] eqn:E; [exact Old| |exact Old|exact Old].
    destruct Old as (a' & R & U & K). exists a'. split; [exact R|]. split; [exact U|]. split; [exact K|].
    assert (G : simF e (from (aused a)) (p <~ mNew 6 ;; mUriParam cn cv p ;~ mret p) (allocStruct 6 ;;; parseUriParam cn cv) (fun a' p v => True) (fun a' => leftTable lo a' (fst kl)) a r).
    { eapply (simF_bindS e _ nowhere); [apply sim_new; [exact Hw|lia|lia]|exact Hw|slia| |].
      - intros a1 s1 _ K1. eapply leftTable_keeps; [exact Hla|exact Hlo| |exact HT]. eapply keeps_sub; [exact K1|slia].
      - intros p [] a1 r1 _ Hw1 K1 (-> & U1 & Z1). num K1.
        eapply (simF_conseq e (orS (inR (aused a) 4) (from (aused a1)))); [|slia|intros a2 x v _ HQ; exact HQ|intros a2 _ HF; exact HF].
        apply (simF_of e); [|].
        + apply (sim_bindR e _ (inR (aused a) 4) _ _ _ (uparamQ (aused a) (aused a1))); [apply sim_uriParam; [exact Hw1|lia|lia|exact Z1]|exact Hw1|slia|].
          intros [] v a2 r2 Hw2 K2 _. now apply sim_ret.
        + intros a2 s2 _ _ K2. eapply leftTable_keeps; [exact Hla|exact Hlo| |exact HT]. apply (keeps_sub _ (from (aused a))) in K1; [|slia].
          eapply keeps_trans; [exact K1|]. eapply keeps_sub; [exact K2|slia]. }
    unfold simF in G. unfold uriParamOne in E. unfold bind in E, G. unfold mUriParamOne in R. unfold mbind in R, G.
    destruct (allocStruct 6 e (mkst r (aused a))) as [v0 s0|s0| |]; try discriminate.
    - destruct (parseUriParam cn cv e s0) as [p s1|s1| |]; try discriminate.
      + exfalso. revert E. apply addParam_fail.
      + destruct G as (a2 & R2 & _ & _ & G). destruct (mNew 6 e a r) as [q a3 r3|a3 r3| |]; try discriminate.
        * destruct (mUriParam cn cv q e a3 r3) as [x4 a4 r4|a4 r4| |]; try discriminate. injection R as Ra _. injection R2 as Rb _. rewrite <- Ra, Rb. exact G.
        * injection R as Ra _. injection R2 as Rb _. rewrite <- Ra, Rb. exact G.
    - destruct G as (a2 & R2 & _ & _ & G). destruct (mNew 6 e a r) as [q a3 r3|a3 r3| |]; try discriminate.
      + destruct (mUriParam cn cv q e a3 r3) as [x4 a4 r4|a4 r4| |]; try discriminate. injection R as Ra _. injection R2 as Rb _. rewrite <- Ra, Rb. exact G.
      + injection R as Ra _. injection R2 as Rb _. rewrite <- Ra, Rb. exact G.
  Qed.
  Lemma left_uriParams cn cv lo a r : wfA e a -> this + 18 <= lo -> lo <= aused a -> g16 (mem a) (this + 16) = NILPTR ->
    simF e (orS (inR (this + 16) 2) (from lo)) (mUriParams cn cv (Some (mSipUriSet this))) (parseUriParams cn cv sipUriSet (None, []))
      (fun a' p kl => exists hp, fst hp = p /\ uriJ (this + 16) lo a' hp kl) (fun a' => leftTable lo a' (leftKnown cn cv e (mkst r (aused a)))) a r.
  Proof.
    intros Hw Hlo Hla Hz. pose proof (sim_uriParams e cn cv this lo a r Hw H8 Hlo Hla Hz) as Old. num Hw. eapply simF_both; [exact Old|]. clear Old.
    destruct r as [|x r1]; [apply simF_onRest, simF_fail; [exact Hw|split; [exact Hla|exact Hz]]|]. apply simF_onRest.
    assert (J0 : uriJ (this + 16) lo a (NILPTR, NILPTR) (None, [])) by (split; [exact Hla|]; cbn [fst snd]; rewrite Hz; apply LInv_nil; lia).
    assert (G : simF e (orS (inR (this + 16) 2) (from lo)) (loopM (fun hp => mOnRest (fun r => match r with [] => mret (inr hp) | _ => mbind (mUriParamOne cn cv (Some (mSipUriSet this)) hp) (mContIf 59) end)) (NILPTR, NILPTR))
        (sepLoop 59 (uriParamOne cn cv sipUriSet) (None, [])) (uriJ (this + 16) lo) (fun a' => leftTable lo a' (leftKnown cn cv e (mkst (x :: r1) (aused a)))) a (x :: r1)).
    { unfold sepLoop, leftKnown. eapply (simF_loop e _ _ _ (uriJ (this + 16) lo)); [|exact Hw|exact J0].
      clear - H8 Hlo. intros hp kl a r Hw HJ. apply simF_onRest. destruct r as [|y r]; [apply simF_ret; [exact Hw|exact HJ]|].
      eapply (simF_bind e _ (orS (inR (this + 16) 2) (from lo))); [apply left_uriParamOne; [exact Hw|exact Hlo|exact HJ]|exact Hw|auto|intros a' _ F1; exact F1|].
      intros hp1 kl1 a1 r1 _ Hw1 _ HJ1. apply simF_of; [now apply sim_contIf|]. intros a2 s Ec. unfold contIf, onRest in Ec. cbn [rest] in Ec. destruct r1 as [|z r1]; [discriminate|]. destruct (z =? 59); discriminate. }
    cbv beta iota. set (lm := loopM _ _) in G |- *. unfold simF, mbind in G |- *. unfold mret. destruct (sepLoop 59 (uriParamOne cn cv sipUriSet) (None, []) e (mkst (x :: r1) (aused a))) as [v s|s| |].
    - destruct G as (hp & a' & -> & U & K & _). exists (fst hp), a'. split; [reflexivity|]. split; [exact U|]. split; [exact K|exact Logic.I].
    - destruct G as (a' & -> & U & K & G). exists a'. split; [reflexivity|]. split; [exact U|]. split; [exact K|exact G].
    - intros N0. now rewrite G.
    - now rewrite G.
  Qed.
  Lemma left_uriAfterScheme (b : bool) a r : wfA e a -> this + 18 <= aused a -> mem a this = (if b then 1 else 0) -> zeros (mem a) (this + 2) 16 ->
    simF e (inR this 18) (mUriAfterScheme this) (parseUriAfterScheme b) (sipUriQ this (aused a)) (fun a' => sipUriQ this (aused a) a' tt (leftAfterScheme b e (mkst r (aused a)))) a r.
  Proof.
    intros Hw Hl Hb Z. pose proof (sim_uriAfterScheme e Hnet this H8 b a r Hw Hl Hb Z) as Old. eapply simF_both; [exact Old|]. clear Old. num Hw.
    assert (Z2 : g16 (mem a) (this + 2) = NILPTR) by (eapply zeros16; [exact Z|lia|lia]).
    assert (Z4 : g16 (mem a) (this + 4) = NILPTR) by (eapply zeros16; [exact Z|lia|lia]).
    assert (Zr : zeros (mem a) (this + 6) 12) by (intros i Hi; apply Z; lia). clear Z.
    unfold mUriAfterScheme, parseUriAfterScheme, leftAfterScheme.
    eapply (simF_bind e (inR this 18) (inR (this + 2) 4)); [|exact Hw|slia|intros a' _ F1; exact F1|].
    { eapply simF_when; [apply left_userinfo; auto|]. intros a' s E K (F2 & F4). rewrite E. num K. repeat carry1 K. unfold sipUriQ, repSipUri. cbn [uSecure uUser uPass uHost uParams uHeaders uKnown].
      split; [exact Hb|]. split; [exact F2|]. split; [exact F4|]. split; [split; cbn [repHost hpHost hpPort]; apply Zr; lia|].
      split; [eapply zeros16; [exact Zr|lia|lia]|]. split; [eapply zeros16; [exact Zr|lia|lia]|]. cbn [repTable]. eapply zeros16; [exact Zr|lia|lia]. }
    intros [] up a1 r1 E1 Hw1 K1 (Hu & Hp). rewrite E1. carry K1.
    set (u0 := aused a) in *.
    (* from here on user and password stay *)
    assert (Fin : forall a3 h k ps hs, keeps (orS (inR (this + 6) 12) (from (aused a1))) a1 a3 ->
      repHostPort (mem a3) (this + 6) u0 (aused a3) h -> repUParams (mem a3) u0 (aused a3) (g16 (mem a3) (this + 12)) ps -> repUParams (mem a3) u0 (aused a3) (g16 (mem a3) (this + 14)) hs ->
      repTable repUParam 6 6 (mem a3) u0 (aused a3) (g16 (mem a3) (this + 16)) k -> sipUriQ this u0 a3 tt (mkuri b (fst up) (snd up) h k ps hs)).
    { intros a3 h k ps hs K3 G0 G1 G2 G3. num K3. clear Zr.
      assert (Eu : g16 (mem a3) (this + 2) = g16 (mem a1) (this + 2)) by (eapply g16_frame; [|reflexivity]; agr K3).
      assert (Ep : g16 (mem a3) (this + 4) = g16 (mem a1) (this + 4)) by (eapply g16_frame; [|reflexivity]; agr K3).
      rewrite <- Eu in Hu. rewrite <- Ep in Hp. repeat carry1 K3. unfold sipUriQ, repSipUri. cbn [uSecure uUser uPass uHost uParams uHeaders uKnown].
      split; [exact Hb|]. split; [eapply ostr_mono; [exact Hu|lia|lia]|]. split; [eapply ostr_mono; [exact Hp|lia|lia]|]. auto. }
    eapply (simF_bind e _ (inR (this + 6) 6)); [|exact Hw1|slia|intros a' _ F1; exact F1|].
    { eapply simF_when; [apply left_hostPort; [exact Hnet|exact Hw1|lia|lia|apply Zr; lia|apply Zr; lia]|]. intros a' s E K F1. rewrite E.
      assert (Z' : zeros (mem a') (this + 12) 6).
      { assert (Z0 : zeros (mem a1) (this + 12) 6) by (intros i Hi; apply Zr; lia). eapply zeros_frame; [|exact Z0]. agr K. }
      num K. apply Fin; [eapply keeps_sub; [exact K|slia]|eapply repHostPort_mono; [exact F1|lia|lia]| | |]; (eapply zeros16; [exact Z'|lia|lia]). }
    intros [] h a2 r2 E2 Hw2 K2 Hh. rewrite E2. cbn [rest used].
    assert (Z' : zeros (mem a2) (this + 12) 6).
    { assert (Z0 : zeros (mem a1) (this + 12) 6) by (intros i Hi; apply Zr; lia). eapply zeros_frame; [|exact Z0]. agr K2. }
    assert (Z12 : g16 (mem a2) (this + 12) = NILPTR) by (eapply zeros16; [exact Z'|lia|lia]).
    assert (Z14 : g16 (mem a2) (this + 14) = NILPTR) by (eapply zeros16; [exact Z'|lia|lia]).
    assert (Z16 : g16 (mem a2) (this + 16) = NILPTR) by (eapply zeros16; [exact Z'|lia|lia]). clear Z'.
    num K2. eapply repHostPort_mono in Hh; [|exact Nk0|apply N.le_refl].
    (* from here on the host stays, too *)
    assert (Fin2 : forall a3 k ps hs, keeps (orS (inR (this + 12) 6) (from (aused a2))) a2 a3 ->
      repUParams (mem a3) u0 (aused a3) (g16 (mem a3) (this + 12)) ps -> repUParams (mem a3) u0 (aused a3) (g16 (mem a3) (this + 14)) hs ->
      repTable repUParam 6 6 (mem a3) u0 (aused a3) (g16 (mem a3) (this + 16)) k -> sipUriQ this u0 a3 tt (mkuri b (fst up) (snd up) h k ps hs)).
    { intros a3 k ps hs K3 G1 G2 G3. num K3. apply Fin; [|eapply repHostPort_mono; [eapply repHostPort_frame; [| |exact Hh]; agr K3|lia|lia]|exact G1|exact G2|exact G3].
      eapply keeps_trans; [eapply keeps_sub; [exact K2|slia]|]. eapply keeps_sub; [exact K3|slia]. }
    clear Fin Zr Hu Hp Hh E1 E2.
    assert (Hdr : forall a3 r3 k ps, wfA e a3 -> keeps (orS (inR (this + 12) 6) (from (aused a2))) a2 a3 -> g16 (mem a3) (this + 14) = NILPTR ->
      repUParams (mem a3) u0 (aused a3) (g16 (mem a3) (this + 12)) ps -> repTable repUParam 6 6 (mem a3) u0 (aused a3) (g16 (mem a3) (this + 16)) k ->
      simF e (orS (inR this 18) (from u0))
        (mOnRest (fun r2 => match r2 with y :: r3 => if y =? 63 then mGoto r3 ;~ mInto (this + 14) mUriHeaders else mret tt | [] => mret tt end))
        (onRest (fun r2 => match r2 with y :: r3 => if y =? 63 then goto r3 ;;; (hs <- parseUriHeaders ;; ret (mkuri b (fst up) (snd up) h k ps hs)) else ret (mkuri b (fst up) (snd up) h k ps []) | [] => ret (mkuri b (fst up) (snd up) h k ps []) end))
        (fun _ _ _ => True) (fun a' => sipUriQ this u0 a' tt (mkuri b (fst up) (snd up) h k ps [])) a3 r3).
    { intros a3 r3 k ps Hw3 K3 E14 G1 G3. num K3. apply simF_onRest. destruct r3 as [|y r4]; [now apply simF_ret|]. destruct (y =? 63); [|now apply simF_ret]. apply simF_goto_bind. apply simF_eta.
      eapply (simF_bind e _ (orS (from (aused a3)) (inR (this + 14) 2))).
      - eapply (simF_into e (from (aused a3)) (this + 14) mUriHeaders parseUriHeaders _ (fun a' => keeps (from (aused a3)) a3 a')); [exact Hw3|eapply simF_of; [apply (sim_uriHeaders e (aused a3)); [exact Hw3|lia|lia]|auto]|].
        intros a' q v K' (hp & <- & (L1 & L2)). num K'. destruct (LInv_head repUParam 6 4 6 ltac:(lia) repUParam_frame _ _ _ _ _ _ _ _ L2) as ([->|G] & _); [reflexivity|]. unfold two16. lia.
      - exact Hw3.
      - slia.
      - intros a' K (a0 & K0 & K1' & U0 & V0). num K.
        assert (E12 : g16 (mem a') (this + 12) = g16 (mem a3) (this + 12)) by (eapply g16_frame; [|reflexivity]; agr K).
        assert (E16 : g16 (mem a') (this + 16) = g16 (mem a3) (this + 16)) by (eapply g16_frame; [|reflexivity]; agr K).
        apply Fin2; [|rewrite E12; eapply repList_mono; [eapply repUParams_frame; [|exact G1]; agr K|lia|lia]|exact V0|rewrite E16; eapply repTable_mono; [eapply repTable_frame; [exact repUParam_agree| |exact G3]; agr K|lia|lia]].
        eapply keeps_trans; [exact K3|]. eapply keeps_sub; [exact K|slia].
      - intros [] hs a5 r5 _ Hw5 _ _. now apply simF_ret. }
    apply simF_onRest. destruct r2 as [|x r2]; [now apply simF_ret|]. destruct (x =? 59).
    - eapply (simF_bind e _ (orS (orS (inR (this + 16) 2) (from (aused a2))) (inR (this + 12) 2))); [|exact Hw2|slia|intros a' _ F1; exact F1|].
      + eapply simF_when.
        * apply simF_goto_bind. eapply simF_into; [exact Hw2|apply (left_uriParams SIP_PNAME SIP_PVALUE (aused a2)); [exact Hw2|lia|lia|exact Z16]|].
          intros a' q v K' (hp & <- & (L1 & L2)). num K'. destruct (LInv_head repUParam 6 4 6 ltac:(lia) repUParam_frame _ _ _ _ _ _ _ _ L2) as ([->|G] & _); [reflexivity|]. unfold two16. lia.
        * intros a' s E K (a0 & (La & T0) & K0 & U0 & V0). change (parseUriParams SIP_PNAME SIP_PVALUE sipUriSet (None, []) e (mkst r2 (aused a2)) = Fail s) in E. rewrite E. num K.
          assert (E14 : g16 (mem a') (this + 14) = NILPTR) by (eapply g16_frame; [|exact Z14]; agr K).
          assert (E16 : g16 (mem a') (this + 16) = g16 (mem a0) (this + 16)) by (eapply g16_frame; [|reflexivity]; agr K0).
          apply Fin2; [eapply keeps_sub; [exact K|slia]|exact V0|exact E14|rewrite E16; eapply repTable_mono; [eapply repTable_frame; [exact repUParam_agree| |exact T0]; agr K0|lia|lia]].
      + intros [] [k ps] a4 r4 E4 Hw4 K4 (q & a3 & (hp & <- & (L1 & L2)) & K34 & U34 & V). num K4. cbn [fst snd] in *.
        change (parseUriParams SIP_PNAME SIP_PVALUE sipUriSet (None, []) e (mkst r2 (aused a2)) = Ok (k, ps) (mkst r4 (aused a4))) in E4. rewrite E4. cbn [fst snd].
        pose proof (LInv_list repUParam 6 4 6 ltac:(lia) repUParam_frame _ _ _ _ _ _ _ _ L2) as P1.
        pose proof (LInv_table repUParam 6 4 6 ltac:(lia) repUParam_frame _ _ _ _ _ _ _ _ L2) as P2. clear L2.
        assert (A4 : agreeR (mem a3) (mem a4) (aused a2) (aused a3)) by agr K34.
        assert (E16 : g16 (mem a4) (this + 16) = g16 (mem a3) (this + 16)) by (eapply g16_frame; [|reflexivity]; agr K34).
        apply (repUParams_frame _ _ _ _ _ _ A4) in P1. apply (repTable_frame _ _ repUParam_agree _ _ _ _ _ _ _ A4) in P2. rewrite <- V, <- U34 in P1. rewrite <- E16, <- U34 in P2.
        eapply simF_sub; [apply Hdr|]; [exact Hw4|eapply keeps_sub; [exact K4|slia]| |eapply repList_mono; [exact P1|lia|lia]|eapply repTable_mono; [exact P2|lia|lia]|slia].
        eapply g16_frame; [|exact Z14]. agr K4.
    - eapply (simF_bindS e _ nowhere _ _ _ _ (fun a' (_ : unit) kp => a' = a2 /\ kp = (None, []))); [apply sim_ret; auto|exact Hw2|slia|intros a' s E; discriminate|].
      intros [] kp a3 r3 E3 Hw3 _ (-> & ->). injection E3 as <-. cbn [fst snd]. eapply simF_sub; [apply (Hdr a2 (x :: r2) None [])|slia]; [exact Hw2|apply (keeps_refl _ e a2 Hw2)|exact Z14|exact Z12|exact Z16].
  Qed.
  Lemma left_sipScheme a r : wfA e a -> this + 18 <= aused a ->
    simF e (inR this 1) (mSipScheme this) parseSipScheme (fun a' _ s => mem a' this = (if s then 1 else 0) /\ aused a' = aused a) (fun a' => a' = a) a r.
  Proof.
    intros Hw Hl. num Hw. eapply simF_both; [now apply sim_sipScheme|]. apply simF_onRest.
    assert (G : forall (b : bool) r2, simF e (inR this 1) (mbind (mGoto r2) (fun _ => set8 this (if b then 1 else 0))) (bind (goto r2) (fun _ => ret b)) (fun a' _ s => True) (fun a' => a' = a) a r).
    { intros b r2. eapply simF_of; [|intros a' s E; discriminate]. apply sim_goto_bind. apply sim_eta. apply sim_set8; [exact Hw|slia|]. step_in a2. apply sim_ret; auto. }
    destruct r as [|x1 [|x2 [|x3 [|x4 r1]]]]; try (apply simF_fail; auto). destruct (lc x1 115 && lc x2 105 && lc x3 112); [|apply simF_fail; auto].
    destruct (x4 =? 58); [apply (G false)|]. destruct r1 as [|x5 r2]; [apply simF_fail; auto|]. destruct (lc x4 115 && (x5 =? 58)); [apply (G true)|apply simF_fail; auto].
  Qed.
  Lemma left_sipUri a r : wfA e a -> this + 18 <= aused a -> zeros (mem a) this 18 ->
    simF e (inR this 18) (mSipUriWithoutInit this) parseSipUri (sipUriQ this (aused a)) (fun a' => sipUriQ this (aused a) a' tt (leftUri e (mkst r (aused a)))) a r.
  Proof.
    intros Hw Hl Z. num Hw. unfold leftUri. eapply (simF_bind e _ (inR this 1)); [|exact Hw|slia|intros a' _ F1; exact F1|].
    - eapply simF_when; [apply left_sipScheme; auto|]. intros a' s E K ->. rewrite E. unfold sipUriQ, repSipUri. cbn [uSecure uUser uPass uHost uParams uHeaders uKnown].
      split; [apply Z; lia|]. split; [eapply zeros16; [exact Z|lia|lia]|]. split; [eapply zeros16; [exact Z|lia|lia]|]. split; [split; cbn [repHost hpHost hpPort]; apply Z; lia|].
      split; [eapply zeros16; [exact Z|lia|lia]|]. split; [eapply zeros16; [exact Z|lia|lia]|]. cbn [repTable]. eapply zeros16; [exact Z|lia|lia].
    - intros [] b a1 r1 E1 Hw1 K1 (V & U). rewrite E1. num K1.
      rewrite <- U. eapply simF_sub; [apply left_uriAfterScheme; [exact Hw1|lia|exact V|]|slia].
      eapply zeros_frame; [agr K1|]. intros i Hi. apply Z. lia.
  Qed.
End SipUri.
