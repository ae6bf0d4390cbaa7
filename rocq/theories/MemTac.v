(** Automation for the simulation proofs: carrying facts about the memory across a step. *)
From Verif Require Import Base Charset BaseLemmas Num Lws Str Monad Arena ArenaProofs Layout Mem MemSim.

(** Writing a block. *)
Lemma sim_copy {X A} e (W : N -> Prop) p n b (f : unit -> M X) (q : P A) Q a r : wfA e a -> 8 <= p -> p + n <= aused a -> 0 < n -> n <= len b ->
  (forall i, 8 <= i < aused a -> inR p n i -> W i) ->
  (forall a1, wfA e a1 -> keeps (inR p n) a a1 -> aused a1 = aused a -> readBytes (mem a1) p (N.to_nat n) = firstn (N.to_nat n) b -> sim e (orS W (from (aused a))) (f tt) q Q a1 r) ->
  sim e W (mbind (mCopy p n b) f) q Q a r.
Proof.
  intros Hw H8 Hp Hn Hb HW H. pose proof Hw as (_ & _ & _ & Hc). set (b' := firstn (N.to_nat n) b).
  assert (L : List.length b' = N.to_nat n). { unfold b'. rewrite firstn_length. unfold len in Hb. lia. }
  assert (L' : len b' = n) by (unfold len; lia).
  assert (K : keeps (inR p n) a (setMem a (wr (mem a) p b'))).
  { repeat split; cbn; auto; try lia. intros i _ Hi. apply wr_outside. unfold inR in Hi. lia. }
  eapply (sim_left _ _ _ _ _ tt (setMem a (wr (mem a) p b'))); [|exact (keeps_sub _ _ _ _ K HW)|reflexivity|].
  - unfold mCopy. fold b'. replace (cap a <=? p) with false by lia. rewrite writeBytes_spec, L'.
    replace (p + n <=? cap a) with true by lia. rewrite orb_true_r. reflexivity.
  - apply H; [exact (keeps_wf _ _ _ _ Hw K)|exact K|reflexivity|]. cbn [mem setMem]. fold b'. rewrite <- L. apply readBytes_wr.
Qed.

(** Goals about sets of addresses. *)
Ltac slia := unfold orS, from, inR, nowhere in *; intros; lia.
(** The numbers in a [keeps] or [wfA] fact. *)
Ltac num H :=
  lazymatch type of H with
  | wfA _ ?a => let H1 := fresh "Nw" in let H2 := fresh "Nw" in let H3 := fresh "Nw" in
      pose proof (proj1 (proj2 H)) as H1; pose proof (proj1 (proj2 (proj2 H))) as H2; pose proof (proj2 (proj2 (proj2 H))) as H3; unfold two16 in H1
  | keeps _ ?a ?a1 => let H1 := fresh "Nk" in let H2 := fresh "Nk" in let H3 := fresh "Nk" in
      pose proof (proj1 H) as H1; pose proof (proj1 (proj2 H)) as H2; pose proof (proj1 (proj2 (proj2 H))) as H3
  end.
Ltac agr K := eapply keeps_agree; [exact K|lia|lia|slia].

Lemma readBytes_frame m m' p n b : agreeR m m' p (p + N.of_nat n) -> readBytes m p n = b -> readBytes m' p n = b.
Proof. intros A <-. apply readBytes_ext. intros i Hi. apply A. lia. Qed.

(** Extended for each representation predicate by redefinition. *)
Ltac carry_ext K a a1 := fail.
Ltac carry1 K :=
  match type of K with
  | keeps _ ?a ?a1 =>
      match goal with
      | H : str (mem a) ?lo ?hi _ _ |- _ => let A := fresh in assert (A : agreeR (mem a) (mem a1) lo hi) by (agr K); apply (str_frame _ _ _ _ _ _ A) in H; clear A
      | H : ostr (mem a) ?lo ?hi _ _ |- _ => let A := fresh in assert (A : agreeR (mem a) (mem a1) lo hi) by (agr K); apply (ostr_frame _ _ _ _ _ _ A) in H; clear A
      | H : zeros (mem a) ?p ?n |- _ => let A := fresh in assert (A : agreeR (mem a) (mem a1) p (p + n)) by (agr K); apply (zeros_frame _ _ _ _ A) in H; clear A
      | H : g16 (mem a) ?p = _ |- _ => let A := fresh in assert (A : agreeR (mem a) (mem a1) p (p + 2)) by (agr K); apply (g16_frame _ _ _ _ A) in H; clear A
      | H : g32 (mem a) ?p = _ |- _ => let A := fresh in assert (A : agreeR (mem a) (mem a1) p (p + 4)) by (agr K); apply (g32_frame _ _ _ _ A) in H; clear A
      | H : mem a ?p = _ |- _ => let A := fresh in assert (A : agreeR (mem a) (mem a1) p (p + 1)) by (agr K); apply (mem_frame _ _ _ _ A) in H; clear A
      | H : readBytes (mem a) ?p ?n = _ |- _ => let A := fresh in assert (A : agreeR (mem a) (mem a1) p (p + N.of_nat n)) by (agr K); apply (readBytes_frame _ _ _ _ _ A) in H; clear A
      | _ => carry_ext K a a1
      end
  end.
Ltac carry K := num K; repeat carry1 K.
(** Introduce the state after a step. *)
Tactic Notation "step_in" ident(a1) := 
  let Hw1 := fresh "Hw" in let K := fresh "K" in let U := fresh "U" in let V := fresh "V" in
  intros a1 Hw1 K U V; carry K.
