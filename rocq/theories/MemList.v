(** Building linked lists and tables of recognised parameters in the arena: the invariant of the parsing loops. *)
From Verif Require Import Base Charset BaseLemmas Num Lws Str Monad Arena ArenaProofs Layout Mem MemSim MemRep.

Section Lists.
  Context {A : Type} (node : (N -> N) -> N -> N -> A -> Prop) (size next n : N).
  Hypothesis Hnext : next + 2 <= size.
  (** The representation of a node does not look at its [next] field. *)
  Hypothesis node_frame : forall m m' p q x, (forall i, p <= i < q -> ~ inR (p + next) 2 i -> m' i = m i) -> node m p q x -> node m' p q x.

  (** All the nodes allocated so far, in order of address; the flag says whether the node is on the list. *)
  Definition entry := (N * N * A * bool)%type.
  Fixpoint nodesT (m : N -> N) (lo hi : N) (tr : list entry) : Prop :=
    match tr with
    | [] => lo <= hi
    | (p, q, x, b) :: tr' => lo <= p /\ p + size <= q /\ node m p q x /\ nodesT m q hi tr'
    end.
  Fixpoint ptrs (tr : list entry) : list N :=
    match tr with [] => [] | (p, _, _, b) :: tr' => if b : bool then p :: ptrs tr' else ptrs tr' end.
  Fixpoint vals (tr : list entry) : list A :=
    match tr with [] => [] | (_, _, x, b) :: tr' => if b : bool then x :: vals tr' else vals tr' end.
  Fixpoint chain (m : N -> N) (head : N) (ps : list N) : Prop :=
    match ps with [] => head = NILPTR | p :: ps' => head = p /\ chain m (g16 m (p + next)) ps' end.
  Definition tableT (m : N -> N) (lo hi t : N) (k : known A) (tr : list entry) : Prop :=
    match k with
    | None => t = NILPTR
    | Some tbl => lo <= t /\ t + 2 * n <= hi /\ (forall p q x b, In (p, q, x, b) tr -> q <= t \/ t + 2 * n <= p) /\ List.length tbl = N.to_nat n /\
        forall i, (i < List.length tbl)%nat ->
          match nth i tbl None with None => g16 m (t + 2 * N.of_nat i) = NILPTR | Some x => exists q, In (g16 m (t + 2 * N.of_nat i), q, x, false) tr end
    end.
  Definition LInv (m : N -> N) (lo hi head prev t : N) (k : known A) (l : list A) : Prop :=
    8 <= lo /\ exists tr, nodesT m lo hi tr /\ chain m head (ptrs tr) /\ prev = last (ptrs tr) NILPTR /\ l = vals tr /\ tableT m lo hi t k tr.

  Lemma nodesT_le m lo hi tr : nodesT m lo hi tr -> lo <= hi.
  Proof. revert lo. induction tr as [|[[[p q] x] b] tr IH]; intros lo; cbn [nodesT]; [auto|]. intros (H1 & H2 & _ & H3). apply IH in H3. lia. Qed.
  Lemma nodesT_in m lo hi tr p q x b : nodesT m lo hi tr -> In (p, q, x, b) tr -> lo <= p /\ p + size <= q /\ q <= hi /\ node m p q x.
  Proof.
    revert lo. induction tr as [|[[[p' q'] x'] b'] tr IH]; intros lo; cbn [nodesT]; [intros _ []|].
    intros (H1 & H2 & H3 & H4) [E|Hi].
    - injection E as -> -> -> ->. apply nodesT_le in H4. auto.
    - destruct (IH _ H4 Hi) as (? & ? & ? & ?). repeat split; auto; lia.
  Qed.
  Lemma ptrs_in tr p : In p (ptrs tr) -> exists q x, In (p, q, x, true) tr.
  Proof.
    induction tr as [|[[[p' q'] x'] b'] tr IH]; cbn [ptrs]; [intros []|]. destruct b'.
    - intros [->|H]; [exists q', x'; now left|]. destruct (IH H) as (q & x & Hi). exists q, x. now right.
    - intros H. destruct (IH H) as (q & x & Hi). exists q, x. now right.
  Qed.
  Lemma nodesT_frame m m' lo hi tr : (forall p q x b i, In (p, q, x, b) tr -> p <= i < q -> ~ inR (p + next) 2 i -> m' i = m i) -> nodesT m lo hi tr -> nodesT m' lo hi tr.
  Proof.
    revert lo. induction tr as [|[[[p q] x] b] tr IH]; intros lo A0; cbn [nodesT]; [auto|].
    intros (H1 & H2 & H3 & H4). split; [auto|]. split; [auto|]. split.
    - eapply node_frame; [|exact H3]. intros i Hi Hn. eapply A0; eauto. now left.
    - apply IH; [|auto]. intros p0 q0 x0 b0 i Hin Hr Hnn. eapply A0; [right; exact Hin|exact Hr|exact Hnn].
  Qed.
  Lemma nodesT_hi m lo hi hi' tr : nodesT m lo hi tr -> hi <= hi' -> nodesT m lo hi' tr.
  Proof. revert lo. induction tr as [|[[[p q] x] b] tr IH]; intros lo; cbn [nodesT]; [lia|]. intros (H1 & H2 & H3 & H4) L. repeat split; auto. Qed.
  Lemma nodesT_snoc m lo hi hi' tr p q x b : nodesT m lo hi tr -> hi <= p -> p + size <= q -> q <= hi' -> node m p q x -> nodesT m lo hi' (tr ++ [(p, q, x, b)]).
  Proof.
    revert lo. induction tr as [|[[[p' q'] x'] b'] tr IH]; intros lo; cbn [nodesT app]; [intros; repeat split; auto; lia|].
    intros (H1 & H2 & H3 & H4) L1 L2 L3 L4. repeat split; auto.
  Qed.
  Lemma ptrs_snoc tr p q x b : ptrs (tr ++ [(p, q, x, b)]) = ptrs tr ++ if b : bool then [p] else [].
  Proof. induction tr as [|[[[p' q'] x'] b'] tr IH]; cbn [ptrs app]; [destruct b; reflexivity|]. rewrite IH. destruct b'; reflexivity. Qed.
  Lemma vals_snoc tr p q x b : vals (tr ++ [(p, q, x, b)]) = vals tr ++ if b : bool then [x] else [].
  Proof. induction tr as [|[[[p' q'] x'] b'] tr IH]; cbn [vals app]; [destruct b; reflexivity|]. rewrite IH. destruct b'; reflexivity. Qed.
  Lemma chain_ext m m' head ps : (forall p, In p ps -> g16 m' (p + next) = g16 m (p + next)) -> chain m head ps -> chain m' head ps.
  Proof.
    revert head. induction ps as [|p ps IH]; intros head H; cbn [chain]; [auto|]. intros (-> & H2). split; [reflexivity|].
    rewrite H by now left. apply IH; [|exact H2]. intros p0 Hp. apply H. now right.
  Qed.
  (** The last node of the list, and the other ones. *)
  Lemma last_in {B} (l : list B) d : l <> [] -> In (last l d) l.
  Proof. induction l as [|x l IH]; [congruence|]. intros _. destruct l as [|y l]; [now left|]. right. apply IH. discriminate. Qed.
  (** The addresses on the list are distinct and apart by [size]. *)
  Lemma ptrs_apart m lo hi tr : nodesT m lo hi tr -> forall p p', In p (ptrs tr) -> In p' (ptrs tr) -> p = p' \/ p + size <= p' \/ p' + size <= p.
  Proof.
    revert lo. induction tr as [|[[[p q] x] b] tr IH]; intros lo; cbn [nodesT ptrs]; [intros _ ? ? []|].
    intros (H1 & H2 & H3 & H4). assert (G : forall p', In p' (ptrs tr) -> q <= p').
    { intros p' Hp. apply ptrs_in in Hp as (q' & x' & Hi). apply (nodesT_in _ _ _ _ _ _ _ _ H4 Hi). }
    destruct b; [|eauto]. intros p1 p2 [<-|Hp1] [<-|Hp2]; eauto.
    - apply G in Hp2. right; left. lia.
    - apply G in Hp1. right; right. lia.
  Qed.
  Lemma chain_snoc m m' head ps p : ps <> [] ->
    (forall p', In p' (removelast ps) -> g16 m' (p' + next) = g16 m (p' + next)) ->
    g16 m' (last ps NILPTR + next) = p -> g16 m' (p + next) = NILPTR -> chain m head ps -> chain m' head (ps ++ [p]).
  Proof.
    revert head. induction ps as [|p0 ps IH]; intros head Hne Hk Hl Hp; [congruence|]. cbn [chain app]. intros (-> & Hc). split; [reflexivity|].
    destruct ps as [|p1 ps].
    - cbn [last] in Hl. rewrite Hl. cbn. auto.
    - rewrite Hk by (cbn; now left). apply IH; auto; [discriminate|]. intros p' Hp'. apply Hk. change (removelast (p0 :: p1 :: ps)) with (p0 :: removelast (p1 :: ps)). now right.
  Qed.
  Lemma NoDup_removelast m lo hi tr : nodesT m lo hi tr -> 0 < size -> ptrs tr <> [] -> forall p', In p' (removelast (ptrs tr)) -> p' + size <= last (ptrs tr) NILPTR.
  Proof.
    intros H Hs. revert lo H. induction tr as [|[[[p q] x] b] tr IH]; intros lo; cbn [nodesT ptrs]; [congruence|].
    intros (H1 & H2 & H3 & H4) Hne p' Hp'. destruct b; [|eauto]. destruct (ptrs tr) as [|p1 ps] eqn:E; [destruct Hp'|].
    change (removelast (p :: p1 :: ps)) with (p :: removelast (p1 :: ps)) in Hp'. change (last (p :: p1 :: ps) NILPTR) with (last (p1 :: ps) NILPTR).
    destruct Hp' as [<-|Hp']; [|eapply IH; eauto; discriminate].
    assert (Hi : In (last (p1 :: ps) NILPTR) (ptrs tr)) by (rewrite E; apply last_in; discriminate).
    apply ptrs_in in Hi as (q' & x' & Hi). pose proof (nodesT_in _ _ _ _ _ _ _ _ H4 Hi). lia.
  Qed.

  Lemma LInv_nil m lo hi : 8 <= lo -> lo <= hi -> LInv m lo hi NILPTR NILPTR NILPTR None [].
  Proof. intros H8 H. split; [exact H8|]. exists []. cbn. auto. Qed.

  Lemma LInv_frame m m' lo hi hi' head prev t k l : agreeR m m' lo hi -> hi <= hi' -> LInv m lo hi head prev t k l -> LInv m' lo hi' head prev t k l.
  Proof.
    intros Ag L (H8 & tr & T1 & T2 & T3 & T4 & T5). split; [exact H8|]. exists tr. split; [|split; [|split; [|split]]]; auto.
    - eapply nodesT_hi; [|exact L]. eapply nodesT_frame; [|exact T1]. intros p q x b i Hi Hr _. apply Ag. pose proof (nodesT_in _ _ _ _ _ _ _ _ T1 Hi). lia.
    - eapply chain_ext; [|exact T2]. intros p Hp. apply ptrs_in in Hp as (q & x & Hi). pose proof (nodesT_in _ _ _ _ _ _ _ _ T1 Hi).
      unfold g16. rewrite !Ag by lia. reflexivity.
    - destruct k as [tbl|]; [|exact T5]. destruct T5 as (A1 & A2 & A3 & A4 & A5). split; [exact A1|]. split; [lia|]. split; [exact A3|]. split; [exact A4|].
      intros i Hi. specialize (A5 i Hi).
      assert (E : g16 m' (t + 2 * N.of_nat i) = g16 m (t + 2 * N.of_nat i)) by (unfold g16; rewrite !Ag by lia; reflexivity). rewrite E. exact A5.
  Qed.

  (** A node allocated after everything else and put at the end of the list. *)
  Lemma LInv_append m m' lo hi hi' head prev t k l p q x : LInv m lo hi head prev t k l ->
    (forall i, lo <= i < hi -> prev <> NILPTR -> ~ inR (prev + next) 2 i -> m' i = m i) -> (prev = NILPTR -> agreeR m m' lo hi) ->
    (prev <> NILPTR -> g16 m' (prev + next) = p) ->
    hi <= p -> p + size <= q -> q <= hi' -> node m' p q x -> g16 m' (p + next) = NILPTR ->
    LInv m' lo hi' (if prev =? NILPTR then p else head) p t k (l ++ [x]).
  Proof.
    intros (H8 & tr & T1 & T2 & T3 & T4 & T5) Ag Ag0 Hl L1 L2 L3 Hx Hz.
    assert (Hs : 0 < size) by lia.
    assert (AgN : forall p0 q0 x0 b0 i, In (p0, q0, x0, b0) tr -> p0 <= i < q0 -> ~ inR (p0 + next) 2 i -> m' i = m i).
    { intros p0 q0 x0 b0 i Hi Hr Hn. pose proof (nodesT_in _ _ _ _ _ _ _ _ T1 Hi) as (G1 & G2 & G3 & _).
      destruct (N.eq_dec prev NILPTR) as [E|E]; [apply Ag0; [exact E|lia]|].
      destruct (N.eq_dec p0 prev) as [E'|E']; [subst p0; apply Ag; auto; lia|].
      apply Ag; [lia|exact E|]. intros Hin.
      (* the last list node is a different node, hence elsewhere *)
      assert (Hne : ptrs tr <> []) by (intros Em; rewrite Em in T3; cbn in T3; congruence).
      pose proof (last_in _ NILPTR Hne) as Hlst. rewrite <- T3 in Hlst. apply ptrs_in in Hlst as (q1 & x1 & Hi1).
      revert T1 Hi Hi1 Hr Hin E'. clear - Hnext node_frame. revert lo. induction tr as [|[[[p2 q2] x2] b2] tr IH]; intros lo T1 Hi Hi1 Hr Hin E'; [destruct Hi|].
      cbn [nodesT] in T1. destruct T1 as (F1 & F2 & F3 & F4). unfold inR in *.
      destruct Hi as [Hi|Hi], Hi1 as [Hi1|Hi1].
      - injection Hi as -> -> _ _. injection Hi1 as -> _ _ _. congruence.
      - injection Hi as -> -> _ _. pose proof (nodesT_in _ _ _ _ _ _ _ _ F4 Hi1). lia.
      - injection Hi1 as -> -> _ _. pose proof (nodesT_in _ _ _ _ _ _ _ _ F4 Hi). lia.
      - eapply IH; eauto. }
    split; [exact H8|]. exists (tr ++ [(p, q, x, true)]). rewrite ptrs_snoc, vals_snoc. split; [|split; [|split; [|split]]].
    - eapply nodesT_snoc; eauto. eapply nodesT_frame; [exact AgN|exact T1].
    - destruct (ptrs tr) as [|p0 ps] eqn:E.
      + cbn [last] in T3. rewrite T3. cbn. auto.
      + assert (Hne : prev <> NILPTR).
        { assert (Hin : In prev (ptrs tr)) by (rewrite T3, E; apply last_in; discriminate). apply ptrs_in in Hin as (q1 & x1 & Hi).
          pose proof (nodesT_in _ _ _ _ _ _ _ _ T1 Hi). unfold NILPTR. lia. }
        replace (prev =? NILPTR) with false by lia. eapply (chain_snoc m m'); [discriminate| | |exact Hz|exact T2].
        * intros p' Hp'. assert (Hlt : p' + size <= last (ptrs tr) NILPTR) by (eapply NoDup_removelast; eauto; rewrite E; [discriminate|exact Hp']).
          assert (Hin : In p' (ptrs tr)). { rewrite E. clear - Hp'. revert p0 Hp'. induction ps as [|y ps IH]; intros p0 Hp'; [destruct Hp'|]. change (removelast (p0 :: y :: ps)) with (p0 :: removelast (y :: ps)) in Hp'. destruct Hp' as [->|Hp']; [now left|]. right. now apply IH. }
          apply ptrs_in in Hin as (q1 & x1 & Hi). pose proof (nodesT_in _ _ _ _ _ _ _ _ T1 Hi).
          rewrite E, <- T3 in Hlt. unfold g16. rewrite !Ag by (unfold inR; lia). reflexivity.
        * rewrite <- T3. now apply Hl.
    - destruct (ptrs tr); [reflexivity|]. symmetry. apply last_last.
    - now rewrite T4.
    - destruct k as [tbl|]; [|exact T5]. destruct T5 as (A1 & A2 & A3 & A4 & A5). split; [exact A1|]. split; [lia|]. split; [|split; [exact A4|]].
      + intros p0 q0 x0 b0 Hi. apply in_app_or in Hi as [Hi|[Hi|[]]]; [eauto|]. injection Hi as <- <- <- <-. lia.
      + intros i Hi. specialize (A5 i Hi).
        assert (E : g16 m' (t + 2 * N.of_nat i) = g16 m (t + 2 * N.of_nat i)).
        { destruct (N.eq_dec prev NILPTR) as [E|E]; [unfold g16; rewrite !Ag0 by lia; reflexivity|].
          assert (Hne : ptrs tr <> []) by (intros Em; rewrite Em in T3; cbn in T3; congruence).
          pose proof (last_in _ NILPTR Hne) as Hlst. rewrite <- T3 in Hlst. apply ptrs_in in Hlst as (q1 & x1 & Hi1).
          pose proof (nodesT_in _ _ _ _ _ _ _ _ T1 Hi1). apply A3 in Hi1. unfold g16. rewrite !Ag by (unfold inR; lia). reflexivity. }
        rewrite E. destruct (nth i tbl None) as [y|]; [|exact A5]. destruct A5 as (q0 & Hq0). exists q0. apply in_or_app. now left.
  Qed.

  Lemma setNth_nth {B} (l : list (option B)) i x j : (i < List.length l)%nat -> nth j (setNth l i (Some x)) None = if Nat.eqb j i then Some x else nth j l None.
  Proof.
    revert i j. induction l as [|y l IH]; intros i j H; [cbn in H; lia|]. destruct i as [|i], j as [|j]; cbn [setNth nth]; try reflexivity.
    cbn in H. rewrite IH by lia. reflexivity.
  Qed.
  Lemma setNth_len {B} (l : list B) i x : List.length (setNth l i x) = List.length l.
  Proof. revert i. induction l as [|y l IH]; intros [|i]; cbn [setNth List.length]; auto. Qed.

  (** A node recognised as entry [i] of an existing table. *)
  Lemma LInv_known m m' lo hi hi' head prev t tbl l i p q x : LInv m lo hi head prev t (Some tbl) l -> (i < N.to_nat n)%nat ->
    (forall j, lo <= j < hi -> ~ inR (t + 2 * N.of_nat i) 2 j -> m' j = m j) -> g16 m' (t + 2 * N.of_nat i) = p ->
    hi <= p -> p + size <= q -> q <= hi' -> node m' p q x ->
    LInv m' lo hi' head prev t (Some (setNth tbl i (Some x))) l.
  Proof.
    intros (H8 & tr & T1 & T2 & T3 & T4 & (A1 & A2 & A3 & A4 & A5)) Hin Ag Hg L1 L2 L3 Hx. split; [exact H8|]. exists (tr ++ [(p, q, x, false)]).
    rewrite ptrs_snoc, vals_snoc, !app_nil_r. split; [|split; [|split; [|split]]]; auto.
    - eapply nodesT_snoc; eauto. eapply nodesT_frame; [|exact T1]. intros p0 q0 x0 b0 j Hj Hr _. pose proof (nodesT_in _ _ _ _ _ _ _ _ T1 Hj) as (G1 & G2 & G3 & _).
      apply A3 in Hj. apply Ag; unfold inR; lia.
    - eapply chain_ext; [|exact T2]. intros p0 Hp. apply ptrs_in in Hp as (q0 & x0 & Hj). pose proof (nodesT_in _ _ _ _ _ _ _ _ T1 Hj) as (G1 & G2 & G3 & _).
      apply A3 in Hj. unfold g16. rewrite !Ag by (unfold inR; lia). reflexivity.
    - split; [exact A1|]. split; [lia|]. rewrite setNth_len. split; [|split; [exact A4|]].
      + intros p0 q0 x0 b0 Hi. apply in_app_or in Hi as [Hi|[Hi|[]]]; [eauto|]. injection Hi as <- <- <- <-. lia.
      + intros j Hj. rewrite setNth_nth by lia. destruct (Nat.eqb_spec j i) as [->|Hne].
        * exists q. apply in_or_app. right. left. now rewrite Hg.
        * specialize (A5 j Hj). assert (E : g16 m' (t + 2 * N.of_nat j) = g16 m (t + 2 * N.of_nat j)) by (unfold g16; rewrite !Ag by (unfold inR; lia); reflexivity).
          rewrite E. destruct (nth j tbl None) as [y|]; [|exact A5]. destruct A5 as (q0 & Hq0). exists q0. apply in_or_app. now left.
  Qed.
  (** A node recognised first: the table is allocated after it. *)
  Lemma LInv_known1 m m' lo hi hi' head prev t t' l i p q x : LInv m lo hi head prev t None l -> (i < N.to_nat n)%nat ->
    agreeR m m' lo hi -> hi <= p -> p + size <= q -> node m' p q x ->
    q <= t' -> t' + 2 * n <= hi' -> (forall j, (j < N.to_nat n)%nat -> g16 m' (t' + 2 * N.of_nat j) = if Nat.eqb j i then p else NILPTR) ->
    LInv m' lo hi' head prev t' (Some (setNth (repeat None (N.to_nat n)) i (Some x))) l.
  Proof.
    intros H Hin Ag L1 L2 Hx L3 L4 Hg. apply (LInv_frame m m' lo hi hi) in H; [|exact Ag|lia]. destruct H as (H8 & tr & T1 & T2 & T3 & T4 & T5).
    pose proof (nodesT_le _ _ _ _ T1) as Hle.
    split; [exact H8|]. exists (tr ++ [(p, q, x, false)]). rewrite ptrs_snoc, vals_snoc, !app_nil_r. split; [|split; [|split; [|split]]]; auto.
    - eapply nodesT_snoc; eauto. lia.
    - split; [lia|]. split; [exact L4|]. rewrite setNth_len, repeat_length. split; [|split; [reflexivity|]].
      + intros p0 q0 x0 b0 Hi. apply in_app_or in Hi as [Hi|[Hi|[]]].
        * pose proof (nodesT_in _ _ _ _ _ _ _ _ T1 Hi). left. lia.
        * injection Hi as <- <- <- <-. lia.
      + intros j Hj. rewrite setNth_nth by (rewrite repeat_length; lia). rewrite Hg by exact Hj. destruct (Nat.eqb j i).
        * exists q. apply in_or_app. right. now left.
        * assert (E : nth j (repeat (@None A) (N.to_nat n)) None = None) by (clear; generalize (N.to_nat n); intros k; revert j; induction k as [|k IH]; intros [|j]; cbn; auto).
          now rewrite E.
  Qed.

  (** The loop is over. *)
  Lemma chain_rep m lo hi tr : 8 <= lo -> nodesT m lo hi tr -> forall lo' hi' head, lo' <= lo -> hi <= hi' -> chain m head (ptrs tr) -> repList node size next m lo' hi' head (vals tr).
  Proof.
    intros H8 H. revert lo H8 H. induction tr as [|[[[p q] x] b] tr IH]; intros lo H8 H lo' hi' head L1 L2; cbn [ptrs vals nodesT] in *; [exact (fun H => H)|].
    destruct H as (F1 & F2 & F3 & F4). pose proof (nodesT_le _ _ _ _ F4). destruct b; cbn [chain repList].
    - intros (-> & Hc). split; [lia|]. split; [unfold NILPTR; lia|]. split; [exists q; repeat split; auto; lia|]. apply (IH q); [lia|exact F4|lia|lia|exact Hc].
    - intros Hc. apply (IH q); [lia|exact F4|lia|lia|exact Hc].
  Qed.
  Lemma LInv_list m lo hi head prev t k l : LInv m lo hi head prev t k l -> repList node size next m lo hi head l.
  Proof. intros (H8 & tr & T1 & T2 & T3 & -> & _). eapply chain_rep; eauto; lia. Qed.
  Lemma LInv_table m lo hi head prev t k l : LInv m lo hi head prev t k l -> repTable node size n m lo hi t k.
  Proof.
    intros (H8 & tr & T1 & T2 & T3 & T4 & T5). destruct k as [tbl|]; [|exact T5]. destruct T5 as (A1 & A2 & A3 & A4 & A5).
    split; [exact A1|]. split; [unfold NILPTR; lia|]. split; [exact A2|]. split; [exact A4|]. intros i Hi. specialize (A5 i Hi).
    destruct (nth i tbl None) as [x|]; [|exact A5]. destruct A5 as (q & Hq). destruct (nodesT_in _ _ _ _ _ _ _ _ T1 Hq) as (G1 & G2 & G3 & G4).
    split; [exact G1|]. split; [unfold NILPTR; lia|]. exists q. auto.
  Qed.
  Lemma LInv_head m lo hi head prev t k l : LInv m lo hi head prev t k l -> (head = NILPTR \/ lo <= head /\ head + size <= hi) /\ (prev = NILPTR \/ lo <= prev /\ prev + size <= hi) /\
     (t = NILPTR \/ lo <= t /\ t + 2 * n <= hi) /\ lo <= hi.
  Proof.
    intros (H8 & tr & T1 & T2 & T3 & T4 & T5). split; [|split; [|split]].
    - destruct (ptrs tr) as [|p ps] eqn:E; [now left|]. right. destruct T2 as (-> & _). assert (Hin : In p (ptrs tr)) by (rewrite E; now left).
      apply ptrs_in in Hin as (q & x & Hi). pose proof (nodesT_in _ _ _ _ _ _ _ _ T1 Hi). lia.
    - destruct (ptrs tr) as [|p ps] eqn:E; [now left|]. right. assert (Hin : In prev (ptrs tr)) by (rewrite T3, E; apply last_in; discriminate).
      apply ptrs_in in Hin as (q & x & Hi). pose proof (nodesT_in _ _ _ _ _ _ _ _ T1 Hi). lia.
    - destruct k; [|now left]. destruct T5 as (A1 & A2 & _). right. auto.
    - eapply nodesT_le; eauto.
  Qed.
End Lists.
