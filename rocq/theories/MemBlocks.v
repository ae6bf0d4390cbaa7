(** Several linked lists built together in the arena: every element owns a block of consecutive bytes, the blocks are disjoint and in the order of allocation, and only
    the field [next] of an element is written after its block is complete. *)
From Verif Require Import Base Charset BaseLemmas Num Lws Str Monad Arena ArenaProofs Layout Mem MemSim MemTac MemRep MemList.

(** The walk to the last element of a list: SipHeaders.go:38-49 (appendUnknownSipHeader); the same loop, without the result, in SipHeaderVia.go:347-356 (AppendSipViaValue),
    SipHeaderContact.go:304-313 (AppendSipContactValue), SipHeaderRoute.go:145-154 (AppendSipRouteValue), SipHeaderRecordRoute.go:153-162 (AppendSipRecordRouteValue),
    SipHeaderPath.go:144-153 (AppendSipPathValue), SipHeaderServiceRoute.go:157-166 (AppendSipServiceRouteValue) and SipHeaderPAssertedIdentity.go:138-147
    (AppendSipPAssertedIdentityValue). [next] is the offset of the field. The fuel is more than the number of addresses. *)
Fixpoint mAppendWalk (next : N) (fuel : nat) (addr new : N) : M bool :=
  match fuel with
  | O => fun _ _ _ => MLoop
  | S f =>
      if addr =? NILPTR then mret false
      else deref addr ;~
           nx <~ get16 (addr + next) ;;
           if nx =? NILPTR then set16 (addr + next) new ;~ mret true else mAppendWalk next f nx new
  end.
Definition mAppendTo (next head new : N) : M bool := fun e a r => mAppendWalk next (S (N.to_nat (cap a))) head new e a r.

Lemma walk_spec next new e r : forall fuel a head ps, chain next (mem a) head ps -> ps <> [] -> (forall p, In p ps -> p <> NILPTR /\ p < cap a) -> (List.length ps <= fuel)%nat ->
  mAppendWalk next fuel head new e a r = MOk true (setMem a (p16 (mem a) (last ps NILPTR + next) new)) r.
Proof.
  induction fuel as [|f IH]; intros a head [|p ps] Hc Hne Hb Hf; try congruence; [cbn in Hf; lia|].
  cbn [chain] in Hc. destruct Hc as (-> & Hc). cbn [mAppendWalk]. destruct (Hb p (or_introl eq_refl)) as (Hp1 & Hp2).
  replace (p =? NILPTR) with false by lia. unfold mbind at 1, deref. replace (cap a <=? p) with false by lia. unfold mbind at 1, get16.
  destruct ps as [|p1 ps].
  - cbn [chain] in Hc. rewrite Hc. cbn [N.eqb NILPTR]. reflexivity.
  - pose proof Hc as Hc'. cbn [chain] in Hc'. destruct Hc' as (E & _). rewrite E. destruct (Hb p1) as (Hq1 & _); [right; now left|]. replace (p1 =? NILPTR) with false by lia.
    change (last (p :: p1 :: ps) NILPTR) with (last (p1 :: ps) NILPTR). apply IH; [rewrite <- E at 1; exact Hc|discriminate|intros x Hx; apply Hb; now right|cbn [List.length] in *; lia].
Qed.

Section Blocks.
  Context {X : Type} (ok : (N -> N) -> N -> N -> N -> X -> Prop) (nx : X -> option N) (lid : X -> nat).
  (** The bytes that may change: the field [next]. *)
  Definition nextR (x : X) (p : N) : N -> Prop := match nx x with Some n => inR (p + n) 2 | None => nowhere end.
  Hypothesis ok_frame : forall m m' b p q x, (forall i, b <= i < q -> ~ nextR x p i -> m' i = m i) -> ok m b p q x -> ok m' b p q x.
  Hypothesis ok_in : forall m b p q x, ok m b p q x -> b <= p /\ p < q /\ forall n, nx x = Some n -> p + n + 2 <= q.

  (** An element: the start of the block, the address of the struct, the end of the block, what it is. *)
  Local Notation elem := (N * N * N * X)%type.
  Definition eptr (t : elem) : N := snd (fst (fst t)).
  Fixpoint blocks (m : N -> N) (lo hi : N) (tr : list elem) : Prop :=
    match tr with
    | [] => lo <= hi
    | (b, p, q, x) :: tr' => lo <= b /\ ok m b p q x /\ blocks m q hi tr'
    end.
  Definition sel (j : nat) (tr : list elem) : list elem := filter (fun t => Nat.eqb (lid (snd t)) j) tr.
  Definition ptrsOf (j : nat) (tr : list elem) : list N := map eptr (sel j tr).
  Definition valsOf (j : nat) (tr : list elem) : list X := map snd (sel j tr).

  Lemma blocks_le m lo hi tr : blocks m lo hi tr -> lo <= hi.
  Proof using ok_in. clear ok_frame lid. revert lo. induction tr as [|[[[b p] q] x] tr IH]; intros lo; cbn [blocks]; [auto|]. intros (H1 & H2 & H3). apply ok_in in H2. apply IH in H3. lia. Qed.
  Lemma blocks_in m lo hi tr b p q x : blocks m lo hi tr -> In (b, p, q, x) tr -> lo <= b /\ q <= hi /\ ok m b p q x.
  Proof using ok_in. clear ok_frame lid.
    revert lo. induction tr as [|[[[b' p'] q'] x'] tr IH]; intros lo; cbn [blocks]; [intros _ []|]. intros (H1 & H2 & H3) [E|Hi].
    - injection E as -> -> -> ->. split; [exact H1|]. split; [eapply blocks_le; eauto|exact H2].
    - destruct (IH _ H3 Hi) as (G1 & G2 & G3). apply ok_in in H2. split; [lia|]. auto.
  Qed.
  Lemma blocks_length m lo hi tr : blocks m lo hi tr -> lo + N.of_nat (List.length tr) <= hi.
  Proof using ok_in. clear ok_frame lid. revert lo. induction tr as [|[[[b p] q] x] tr IH]; intros lo; cbn [blocks List.length]; [lia|]. intros (H1 & H2 & H3). apply ok_in in H2. apply IH in H3. lia. Qed.
  Lemma blocks_frame m m' lo hi tr : (forall b p q x i, In (b, p, q, x) tr -> b <= i < q -> ~ nextR x p i -> m' i = m i) -> blocks m lo hi tr -> blocks m' lo hi tr.
  Proof using ok_frame. clear ok_in lid.
    revert lo. induction tr as [|[[[b p] q] x] tr IH]; intros lo F; cbn [blocks]; [auto|]. intros (H1 & H2 & H3). split; [exact H1|]. split.
    - eapply ok_frame; [|exact H2]. intros i Hi Hn. eapply F; eauto. now left.
    - apply IH; [|exact H3]. intros b0 p0 q0 x0 i Hin. apply F. now right.
  Qed.
  Lemma blocks_agree m m' lo hi tr : agreeR m m' lo hi -> blocks m lo hi tr -> blocks m' lo hi tr.
  Proof using ok_frame ok_in. clear lid. intros Ag H. eapply blocks_frame; [|exact H]. intros b p q x i Hin Hi _. apply Ag. pose proof (blocks_in _ _ _ _ _ _ _ _ H Hin). lia. Qed.
  Lemma blocks_hi m lo hi hi' tr : blocks m lo hi tr -> hi <= hi' -> blocks m lo hi' tr.
  Proof using Type. clear ok_frame ok_in lid nx. revert lo. induction tr as [|[[[b p] q] x] tr IH]; intros lo; cbn [blocks]; [lia|]. intros (H1 & H2 & H3) L. auto. Qed.
  Lemma blocks_snoc m lo hi hi' tr b p q x : blocks m lo hi tr -> hi <= b -> q <= hi' -> ok m b p q x -> blocks m lo hi' (tr ++ [(b, p, q, x)]).
  Proof using Type. clear ok_frame ok_in lid nx.
    revert lo. induction tr as [|[[[b' p'] q'] x'] tr IH]; intros lo; cbn [blocks app].
    - intros H1 H2 H3 H4. repeat split; auto; lia.
    - intros (H1 & H2 & H3) L1 L2 L3. auto.
  Qed.
  Lemma blocks_init m lo hi tr t : blocks m lo hi (tr ++ [t]) -> blocks m lo hi tr.
  Proof using ok_in. clear ok_frame lid.
    revert lo. induction tr as [|[[[b0 p0] q0] x0] tr IH]; intros lo; destruct t as [[[b p] q] x]; cbn [blocks app].
    - intros (H1 & H2 & H3). apply ok_in in H2. lia.
    - intros (H1 & H2 & H3). auto.
  Qed.
  Lemma blocks_apart m lo hi tr : blocks m lo hi tr -> forall b p q x b' p' q' x', In (b, p, q, x) tr -> In (b', p', q', x') tr -> (b, p, q, x) = (b', p', q', x') \/ q <= b' \/ q' <= b.
  Proof using ok_in. clear ok_frame lid.
    revert lo. induction tr as [|[[[b p] q] x] tr IH]; intros lo; cbn [blocks]; [intros _ ? ? ? ? ? ? ? ? []|].
    intros (H1 & H2 & H3) b1 p1 q1 x1 b2 p2 q2 x2 [E1|I1] [E2|I2].
    - left. congruence.
    - injection E1 as -> -> -> ->. right; left. apply (blocks_in _ _ _ _ _ _ _ _ H3 I2).
    - injection E2 as -> -> -> ->. right; right. apply (blocks_in _ _ _ _ _ _ _ _ H3 I1).
    - eauto.
  Qed.
  Lemma sel_snoc j tr b p q x : sel j (tr ++ [(b, p, q, x)]) = sel j tr ++ if Nat.eqb (lid x) j then [(b, p, q, x)] else [].
  Proof using Type. clear ok_frame ok_in. unfold sel. rewrite filter_app. cbn [filter snd]. destruct (Nat.eqb (lid x) j); reflexivity. Qed.
  Lemma ptrsOf_snoc j tr b p q x : ptrsOf j (tr ++ [(b, p, q, x)]) = ptrsOf j tr ++ if Nat.eqb (lid x) j then [p] else [].
  Proof using Type. clear ok_frame ok_in. unfold ptrsOf. rewrite sel_snoc, map_app. f_equal. destruct (Nat.eqb (lid x) j); [cbn [map]; unfold eptr; reflexivity|reflexivity]. Qed.
  Lemma valsOf_snoc j tr b p q x : valsOf j (tr ++ [(b, p, q, x)]) = valsOf j tr ++ if Nat.eqb (lid x) j then [x] else [].
  Proof using Type. clear ok_frame ok_in. unfold valsOf. rewrite sel_snoc, map_app. f_equal. destruct (Nat.eqb (lid x) j); reflexivity. Qed.
  Lemma ptrsOf_in j tr p : In p (ptrsOf j tr) -> exists b q x, In (b, p, q, x) tr /\ lid x = j.
  Proof using Type. clear ok_frame ok_in.
    unfold ptrsOf, sel. intros H. apply in_map_iff in H as ([[[b p'] q] x] & E & H). apply filter_In in H as (H1 & H2). cbn in E, H2. subst p'.
    exists b, q, x. split; [exact H1|]. now apply Nat.eqb_eq.
  Qed.
  Lemma ptrsOf_bound m lo hi j tr p : blocks m lo hi tr -> In p (ptrsOf j tr) -> lo <= p /\ p < hi.
  Proof using ok_in. clear ok_frame. intros H Hp. apply ptrsOf_in in Hp as (b & q & x & Hin & _). pose proof (blocks_in _ _ _ _ _ _ _ _ H Hin) as (H1 & H2 & H3). apply ok_in in H3. lia. Qed.
  Lemma ptrsOf_length m lo hi j tr : blocks m lo hi tr -> N.of_nat (List.length (ptrsOf j tr)) <= hi.
  Proof using ok_in. clear ok_frame.
    intros H. apply blocks_length in H. unfold ptrsOf. rewrite map_length. assert (G : (List.length (sel j tr) <= List.length tr)%nat); [|lia].
    clear H. unfold sel. induction tr as [|t tr IH]; cbn [filter List.length]; [lia|]. destruct (Nat.eqb _ _); cbn [List.length]; lia.
  Qed.
  Lemma ptrsOf_last m lo hi j tr : blocks m lo hi tr -> forall p', In p' (removelast (ptrsOf j tr)) -> p' < last (ptrsOf j tr) NILPTR.
  Proof using ok_in. clear ok_frame.
    revert lo. induction tr as [|[[[b p] q] x] tr IH]; intros lo; cbn [blocks]; [intros _ ? []|]. intros (H1 & H2 & H3) p'. apply ok_in in H2.
    specialize (IH _ H3). unfold ptrsOf, sel in *. cbn [filter snd]. destruct (Nat.eqb (lid x) j); [|apply IH]. cbn [map]. unfold eptr at 1 3. cbn [fst snd].
    destruct (map eptr (filter (fun t => Nat.eqb (lid (snd t)) j) tr)) as [|p1 ps] eqn:E; [intros []|].
    change (removelast (p :: p1 :: ps)) with (p :: removelast (p1 :: ps)). change (last (p :: p1 :: ps) NILPTR) with (last (p1 :: ps) NILPTR).
    intros [<-|Hp']; [|apply IH, Hp'].
    assert (Hi : In (last (p1 :: ps) NILPTR) (ptrsOf j tr)) by (unfold ptrsOf, sel; rewrite E; apply last_in; discriminate).
    apply (ptrsOf_bound _ _ _ _ _ _ H3) in Hi. lia.
  Qed.

  (** The next fields of two elements with different addresses do not overlap. *)
  Lemma next_apart m lo hi tr j p n j' p' n' : blocks m lo hi tr -> In p (ptrsOf j tr) -> In p' (ptrsOf j' tr) -> p <> p' ->
    (forall x, lid x = j -> nx x = Some n) -> (forall x, lid x = j' -> nx x = Some n') -> p + n + 2 <= p' + n' \/ p' + n' + 2 <= p + n.
  Proof using ok_in. clear ok_frame.
    intros H Hp Hp' Hne Hn Hn'. apply ptrsOf_in in Hp as (b & q & x & I1 & L1). apply ptrsOf_in in Hp' as (b' & q' & x' & I2 & L2).
    pose proof (blocks_in _ _ _ _ _ _ _ _ H I1) as (_ & _ & O1). pose proof (blocks_in _ _ _ _ _ _ _ _ H I2) as (_ & _ & O2).
    apply ok_in in O1 as (A1 & A2 & A3). apply ok_in in O2 as (B1 & B2 & B3). specialize (A3 n (Hn x L1)). specialize (B3 n' (Hn' x' L2)).
    destruct (blocks_apart _ _ _ _ H _ _ _ _ _ _ _ _ I1 I2) as [E|[L|L]]; [congruence|lia|lia].
  Qed.
  (** Setting the next field of an element leaves everything else as it is. *)
  Lemma blocks_link m lo hi tr j p n v : blocks m lo hi tr -> In p (ptrsOf j tr) -> (forall x, lid x = j -> nx x = Some n) -> blocks (p16 m (p + n) v) lo hi tr.
  Proof using ok_frame ok_in.
    intros H Hp Hn. pose proof Hp as Hp0. apply ptrsOf_in in Hp as (b & q & x & I1 & L1). eapply blocks_frame; [|exact H]. intros b' p' q' x' i I2 Hi Hr. apply p16_other.
    pose proof (blocks_in _ _ _ _ _ _ _ _ H I1) as (_ & _ & O1). apply ok_in in O1 as (A1 & A2 & A3). specialize (A3 n (Hn x L1)).
    destruct (blocks_apart _ _ _ _ H _ _ _ _ _ _ _ _ I1 I2) as [E|[L|L]]; [|unfold inR; lia|unfold inR; lia].
    injection E as -> -> -> ->. unfold nextR in Hr. rewrite (Hn x' L1) in Hr. exact Hr.
  Qed.
  Lemma chain_link m lo hi tr j p n v j' n' head : blocks m lo hi tr -> In p (ptrsOf j tr) -> j' <> j ->
    (forall x, lid x = j -> nx x = Some n) -> (forall x, lid x = j' -> nx x = Some n') -> chain n' m head (ptrsOf j' tr) -> chain n' (p16 m (p + n) v) head (ptrsOf j' tr).
  Proof using ok_in. clear ok_frame.
    intros H Hp Hj Hn Hn' Hc. eapply chain_ext; [|exact Hc]. intros p' Hp'. apply g16_p16_other. apply or_comm. 
    apply ptrsOf_in in Hp as (b & q & x & I1 & L1). apply ptrsOf_in in Hp' as (b' & q' & x' & I2 & L2).
    pose proof (blocks_in _ _ _ _ _ _ _ _ H I1) as (_ & _ & O1). pose proof (blocks_in _ _ _ _ _ _ _ _ H I2) as (_ & _ & O2).
    apply ok_in in O1 as (A1 & A2 & A3). apply ok_in in O2 as (B1 & B2 & B3). specialize (A3 n (Hn x L1)). specialize (B3 n' (Hn' x' L2)).
    destruct (blocks_apart _ _ _ _ H _ _ _ _ _ _ _ _ I1 I2) as [E|[L|L]]; [congruence|lia|lia].
  Qed.
  (** A new element at the end of a list that is not empty. *)
  Lemma chain_append m lo hi tr b p q x j n head : blocks m lo hi (tr ++ [(b, p, q, x)]) -> lid x = j -> p < two16 -> ptrsOf j tr <> [] ->
    (forall x, lid x = j -> nx x = Some n) -> g16 m (p + n) = NILPTR -> chain n m head (ptrsOf j tr) ->
    chain n (p16 m (last (ptrsOf j tr) NILPTR + n) p) head (ptrsOf j (tr ++ [(b, p, q, x)])).
  Proof using ok_in. clear ok_frame.
    intros H Hl Hp Hne Hn Hz Hc. pose proof (ptrsOf_last _ _ _ j _ H) as Hlt. rewrite ptrsOf_snoc, Hl, Nat.eqb_refl in *.
    assert (HL : In (last (ptrsOf j tr) NILPTR) (ptrsOf j (tr ++ [(b, p, q, x)]))) by (rewrite ptrsOf_snoc, Hl, Nat.eqb_refl; apply in_or_app; left; now apply last_in).
    assert (HP : In p (ptrsOf j (tr ++ [(b, p, q, x)]))) by (rewrite ptrsOf_snoc, Hl, Nat.eqb_refl; apply in_or_app; right; now left).
    rewrite removelast_app in Hlt by discriminate. cbn [removelast] in Hlt. rewrite app_nil_r, last_last in Hlt.
    assert (Hlp : last (ptrsOf j tr) NILPTR < p) by (apply Hlt; now apply last_in).
    eapply chain_snoc; [exact Hne| | | |exact Hc].
    - intros p' Hp'. apply g16_p16_other. apply or_comm.
      assert (Hin : In p' (ptrsOf j (tr ++ [(b, p, q, x)]))).
      { rewrite ptrsOf_snoc. apply in_or_app. left. destruct (ptrsOf j tr) as [|y l] eqn:E; [destruct Hp'|]. rewrite (app_removelast_last NILPTR (l := y :: l)) by discriminate. apply in_or_app. now left. }
      assert (Hpl : p' < last (ptrsOf j tr) NILPTR).
      { eapply ptrsOf_last; [eapply blocks_init; exact H|exact Hp']. }
      eapply next_apart; [exact H|exact HL|exact Hin|lia|exact Hn|exact Hn].
    - now apply g16_p16.
    - rewrite g16_p16_other; [exact Hz|]. apply or_comm. eapply next_apart; [exact H|exact HL|exact HP|lia|exact Hn|exact Hn].
  Qed.
End Blocks.
Arguments blocks_le {X ok nx} ok_in {m lo hi tr}.
Arguments blocks_in {X ok nx} ok_in {m lo hi tr b p q x}.
Arguments blocks_agree {X ok nx} ok_frame ok_in {m m' lo hi tr}.
Arguments blocks_hi {X ok m lo hi hi' tr}.
Arguments blocks_snoc {X ok m lo hi hi' tr b p q x}.
Arguments blocks_init {X ok nx} ok_in {m lo hi tr t}.
Arguments blocks_apart {X ok nx} ok_in {m lo hi tr} _ {b p q x b' p' q' x'}.
Arguments ptrsOf_in {X lid j tr p}.
Arguments ptrsOf_bound {X ok nx lid} ok_in {m lo hi j tr p}.
Arguments ptrsOf_length {X ok nx lid} ok_in {m lo hi} j {tr}.
Arguments next_apart {X ok nx lid} ok_in {m lo hi tr j p n j' p' n'}.
Arguments blocks_link {X ok nx lid} ok_frame ok_in {m lo hi tr j p n v}.
Arguments chain_link {X ok nx lid} ok_in {m lo hi tr j p n v j' n' head}.
Arguments chain_append {X ok nx lid} ok_in {m lo hi tr b p q x j n head}.
