(** SipHostPort on the arena simulates the value layer. *)
From Verif Require Import Base Charset BaseLemmas Num Lws Str Monad Host Uri Arena ArenaProofs Layout Mem MemSim MemTac MemUri MemRep.

(** net.ParseIP (external) answers with 16 bytes. *)
Definition netLen (e : env) : Prop := forall t ip, ipParse e t = Some ip -> List.length ip = 16%nat.

Lemma repHost_frame m m' this lo hi h : agreeR m m' this (this + 6) -> agreeR m m' lo hi -> repHost m this lo hi h -> repHost m' this lo hi h.
Proof.
  intros A1 A2. assert (E : g16 m' (this + 4) = g16 m (this + 4)) by (apply (g16_frame m); [eapply agreeR_sub; [exact A1|lia|lia]|reflexivity]).
  unfold repHost. rewrite E. destruct h as [|a b c d|ip|s]; rewrite (A1 this) by lia.
  - auto.
  - intros (H1 & H2 & H3 & H4). repeat split; auto. eapply readBytes_frame; [|exact H4]. eapply agreeR_sub; [exact A2|lia|lia].
  - intros (H1 & H2 & H3 & H4). repeat split; auto. eapply readBytes_frame; [|exact H4]. eapply agreeR_sub; [exact A2|lia|lia].
  - intros (H1 & H2). split; auto. eapply str_frame; eauto.
Qed.
Lemma repHostPort_frame m m' this lo hi h : agreeR m m' this (this + 6) -> agreeR m m' lo hi -> repHostPort m this lo hi h -> repHostPort m' this lo hi h.
Proof.
  intros A1 A2 (H1 & H2). split; [eapply repHost_frame; eauto|]. destruct (hpPort h) as [n|].
  - destruct H2 as (H2 & H3). split; [rewrite A1 by lia; exact H2|]. eapply g16_frame; [|exact H3]. eapply agreeR_sub; [exact A1|lia|lia].
  - rewrite A1 by lia. exact H2.
Qed.
Lemma repHost_mono m this lo hi lo' hi' h : repHost m this lo hi h -> lo' <= lo -> hi <= hi' -> repHost m this lo' hi' h.
Proof.
  destruct h; cbn; auto.
  - intros (H1 & H2 & H3 & H4) ? ?. repeat split; auto; lia.
  - intros (H1 & H2 & H3 & H4) ? ?. repeat split; auto; lia.
  - intros (H1 & H2) ? ?. split; auto. eapply str_mono; eauto.
Qed.
Lemma repHostPort_mono m this lo hi lo' hi' h : repHostPort m this lo hi h -> lo' <= lo -> hi <= hi' -> repHostPort m this lo' hi' h.
Proof. intros (H1 & H2) ? ?. split; [eapply repHost_mono; eauto|exact H2]. Qed.

Section Host.
  Variable e : env.
  Hypothesis Hnet : netLen e.
  Variable this : N.

  Lemma sim_hostname a r : wfA e a -> 8 <= this -> this + 6 <= aused a ->
    sim e (inR this 6) (mHostname this) parseHostname (fun a' _ h => repHost (mem a') this (aused a) (aused a') h /\ mem a' (this + 1) = mem a (this + 1)) a r.
  Proof.
    intros Hw H8 Hl. num Hw. unfold mHostname, parseHostname.
    eapply (sim_bind e _ _ _ _ _ _ (intoQ (this + 4) (strQ a))); [eapply sim_into; [exact Hw|apply sim_CString, Hw|]|exact Hw|slia|].
    { intros a' x v _ (_ & H & _). exact H. }
    intros [] n a2 r1 Hw2 K2 (q & a1 & (Hs & Hq & Hq1 & Hu) & K1 & U1 & Hg). num K2.
    assert (Ha1 : aused a <= aused a1) by (rewrite Hu; unfold len; lia). carry K1.
    pose proof eq_refl (mem a (this + 1)) as Hp. assert (Hp2 : mem a2 (this + 1) = mem a (this + 1)).
    { apply K2; [lia|slia]. }
    apply sim_eta. apply sim_set8; [exact Hw2|slia|]. step_in a3. apply sim_ret; [exact Hw0|]. split; [|exact Hp2].
    cbn [repHost]. split; [exact V|]. rewrite Hg. eapply str_mono; [exact Hs|lia|lia].
  Qed.

  Definition hostQ (a : arena) : arena -> unit -> host -> Prop := fun a' _ h => repHost (mem a') this (aused a) (aused a') h /\ mem a' (this + 1) = mem a (this + 1).
  Lemma sim_setIp id n ip h a r : wfA e a -> 8 <= this -> this + 6 <= aused a -> 0 < n -> n < 1000 -> n = len ip ->
    (forall a' q, mem a' this = id -> g16 (mem a') (this + 4) = q -> aused a <= q -> q + n <= aused a' -> readBytes (mem a') q (N.to_nat n) = ip -> repHost (mem a') this (aused a) (aused a') h) ->
    forall r2, sim e (inR this 6) (mbind (q <~ mAlloc n ;; mCopy q n ip ;~ set8 this id ;~ set16 (this + 4) q) (fun _ => mGoto r2))
                   (bind (allocStruct n) (fun _ => bind (goto r2) (fun _ => ret h))) (hostQ a) a r.
  Proof.
    intros Hw H8 Hl Hn Hn' Hlen Hrep r2. num Hw. apply sim_assoc.
    eapply (sim_bind e _ nowhere); [apply sim_alloc; [exact Hw|exact Hn|exact Hn']|exact Hw|slia|].
    intros q [] a1 r1 Hw1 K1 (-> & U1).
    assert (Hp : mem a1 (this + 1) = mem a (this + 1)) by (apply K1; [lia|slia]). num K1.
    apply sim_assoc. apply sim_copy; [exact Hw1|lia|lia|exact Hn|lia|slia|]. step_in a2.
    apply sim_assoc. apply sim_set8; [exact Hw0|slia|]. intros a3 Hw3 K3 U3 V3. rewrite firstn_all2 in V by (unfold len in Hlen; lia).
    num K3. repeat carry1 K3.
    apply sim_set16; [exact Hw3|unfold two16; lia|slia|]. intros a4 Hw4 K4 U4 V4. num K4. repeat carry1 K4.
    change (bind (goto r2) (fun _ : unit => ret h)) with (fun (e0 : env) (s : st) => @Ok host h (mkst r2 (used s))).
    unfold sim. exists tt, a4. split; [reflexivity|]. split; [reflexivity|]. split; [exact (keeps_refl _ e a4 Hw4)|].
    split; [|exact Hp]. eapply Hrep; [exact V3|exact V4|lia|lia|exact V].
  Qed.
  Lemma sim_ipv6 a r : wfA e a -> 8 <= this -> this + 6 <= aused a -> sim e (inR this 6) (mIpv6 this) parseIpv6 (hostQ a) a r.
  Proof.
    intros Hw H8 Hl. apply sim_onRest. destruct (span (fun x => negb (x =? 93)) r) as [txt r1]. apply sim_goto_bind.
    destruct r1 as [|c r2]; [apply sim_fail, Hw|]. apply sim_withEnv. destruct (ipParse e txt) as [ip|] eqn:E; [|apply sim_fail, Hw].
    apply sim_setIp; auto; try lia.
    - unfold len. rewrite (Hnet _ _ E). reflexivity.
    - intros a' q H1 H2 H3 H4 H5. cbn [repHost]. rewrite H2. repeat split; auto.
  Qed.
  Lemma sim_host a r : wfA e a -> 8 <= this -> this + 6 <= aused a -> sim e (inR this 6) (mHost this) parseHost (hostQ a) a r.
  Proof.
    intros Hw H8 Hl. apply sim_onRest. destruct r as [|x r1]; [apply sim_fail, Hw|].
    destruct (x =? 91); [apply sim_goto_bind, sim_ipv6; auto|]. destruct (IsAlpha x); [apply sim_hostname; auto|].
    destruct (parseIpv4 (x :: r1)) as [[[[[n1 n2] n3] n4] r2]|]; [|apply sim_hostname; auto].
    apply sim_goto_bind. assert (H := sim_setIp 1 4 [n1; n2; n3; n4] (HIpv4 n1 n2 n3 n4) a r2 Hw H8 Hl eq_refl eq_refl eq_refl).
    assert (G : sim e (inR this 6) (mbind (mSetIpv4 this [n1; n2; n3; n4]) (fun _ => mGoto r2)) (bind (allocStruct 4) (fun _ => bind (goto r2) (fun _ => ret (HIpv4 n1 n2 n3 n4)))) (hostQ a) a r2).
    { apply H. intros a' q G1 G2 G3 G4 G5. cbn [repHost]. rewrite G2. repeat split; auto. }
    (* the final [goto] to the current position changes nothing *)
    unfold sim, bind, allocStruct, mbind, goto, ret in *. cbn [rest used] in *. destruct (leMem e (aused a + 4)).
    - destruct G as (y & a' & G1 & G2 & G3 & G4). cbn [rest used] in *. exists tt, a'. destruct (mSetIpv4 this [n1; n2; n3; n4] e a r2) as [y0 a0 r0| | |] eqn:E; try discriminate.
      assert (r0 = r2) as ->. { revert E. unfold mSetIpv4, mbind, mAlloc, mAllocX, mbind. destruct (Alloc 4 a) as [q1 a1]. destruct (q1 =? NILPTR); [discriminate|]. unfold mret, mCopy.
        destruct (cap a1 <=? q1); [discriminate|]. destruct (writeBytes _ _ _ _) as [[m0 u0]|]; [|discriminate]. unfold set8, set16. intros E. now injection E. }
      unfold mGoto in G1. injection G1 as _ ->. destruct y0. split; [reflexivity|]. split; [exact G2|]. split; [exact G3|exact G4].
    - destruct G as (a' & G1 & G2 & G3). exists a'. destruct (mSetIpv4 this [n1; n2; n3; n4] e a r2) as [y0 a0 r0| | |] eqn:E; try discriminate. auto.
  Qed.
  Lemma sim_hostPort a r : wfA e a -> 8 <= this -> this + 6 <= aused a -> mem a (this + 1) = 0 ->
    sim e (inR this 6) (mHostPort this) parseHostPort (fun a' _ h => repHostPort (mem a') this (aused a) (aused a') h) a r.
  Proof.
    intros Hw H8 Hl Hz. num Hw. eapply (sim_bind e _ (inR this 6)); [apply sim_host; auto|exact Hw|slia|].
    intros [] h a1 r1 Hw1 K1 (Hh & Hp). num K1. rewrite Hz in Hp. apply sim_onRest.
    assert (N0 : forall r2, sim e (orS (inR this 6) (from (aused a))) (mret tt) (ret (mkhp h None)) (fun a' _ h => repHostPort (mem a') this (aused a) (aused a') h) a1 r2).
    { intros r2. apply sim_ret; [exact Hw1|]. split; [exact Hh|exact Hp]. }
    destruct r1 as [|x r2]; [apply N0|]. destruct (x =? 58); [|apply N0]. apply sim_goto_bind.
    eapply (sim_bind e _ nowhere); [apply sim_UInt, Hw1|exact Hw1|slia|]. intros n n' a1' r3 _ _ (-> & ->).
    destruct (N.ltb_spec 65535 n') as [L|L]; [apply sim_fail, Hw1|]. unfold mSetPort.
    apply sim_set8; [exact Hw1|slia|]. intros a2 Hw2 K2 U2 V2. apply sim_eta. num K2. repeat carry1 K2.
    apply sim_set16; [exact Hw2|unfold two16; lia|slia|]. intros a3 Hw3 K3 U3 V3. num K3. repeat carry1 K3. apply sim_ret; [exact Hw3|].
    split; [|cbn [hpPort]; split; [exact V2|exact V3]]. cbn [hpHost].
    (* id and data are not touched by SetPort *)
    assert (E : forall i, this <= i < this + 1 \/ this + 4 <= i < this + 6 -> mem a3 i = mem a1 i).
    { intros i Hi. rewrite (proj2 (proj2 (proj2 K3))), (proj2 (proj2 (proj2 K2))); auto; slia. }
    assert (A2 : agreeR (mem a1) (mem a3) (aused a) (aused a1)).
    { intros i Hi. rewrite (proj2 (proj2 (proj2 K3))), (proj2 (proj2 (proj2 K2))); auto; slia. }
    replace (aused a3) with (aused a1) by lia. revert Hh. unfold repHost. assert (G : g16 (mem a3) (this + 4) = g16 (mem a1) (this + 4)) by (unfold g16; rewrite !E by lia; reflexivity).
    rewrite G, (E this) by lia. destruct h as [|b1 b2 b3 b4|ip|s].
    - auto.
    - intros (F1 & F2 & F3 & F4). repeat split; auto. eapply readBytes_frame; [|exact F4]. eapply agreeR_sub; [exact A2|lia|lia].
    - intros (F1 & F2 & F3 & F4). repeat split; auto. eapply readBytes_frame; [|exact F4]. eapply agreeR_sub; [exact A2|lia|lia].
    - intros (F1 & F2). split; auto. eapply str_frame; eauto.
  Qed.
End Host.
