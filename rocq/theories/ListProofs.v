(** Lemmas on linked lists. *)
From Verif Require Import Base BaseLemmas Charset Str StrSpec StrProofs MethodTree HeaderTree RawHeaders Msg HeaderList ListSpec.

Section Chains.
Context {A : Type}.
Implicit Types (h : heap A) (l : list (N * A)).
Lemma chain_inv h p x a l : chain h p ((x, a) :: l) -> p = x /\ x <> 0 /\ exists q, h x = Some (a, q) /\ chain h q l.
Proof. intros H. inversion H; subst. eauto. Qed.
Lemma chain_inv0 h p : chain h p [] -> p = 0.
Proof. intros H. inversion H; subst. reflexivity. Qed.
Lemma chain_det h p l : chain h p l -> forall l', chain h p l' -> l = l'.
Proof.
  induction 1 as [|p a q l Hp Ha Hc IH]; intros l' H'; inversion H'; subst; try congruence.
  rewrite Ha in H0. injection H0 as <- <-. f_equal. now apply IH.
Qed.
Lemma chain_in h p l : chain h p l -> forall x a, In (x, a) l -> exists l1 l2, l = l1 ++ l2 /\ chain h x l2 /\ l2 <> [].
Proof.
  induction 1 as [|p a q l Hp Ha Hc IH]; intros x b H; [destruct H|]. destruct H as [[= -> ->]|H].
  - exists [], ((x, b) :: l). split; [reflexivity|]. split; [econstructor; eauto|discriminate].
  - destruct (IH _ _ H) as (l1 & l2 & -> & C & N2). exists ((p, a) :: l1), l2. auto.
Qed.
Lemma chain_nodup h p l : chain h p l -> NoDup (map fst l).
Proof.
  induction 1 as [|p a q l Hp Ha Hc IH]; cbn [map fst]; constructor; auto.
  intros H. apply in_map_iff in H as ((x & b) & E & H). cbn [fst] in E. subst x.
  destruct (chain_in _ _ _ Hc _ _ H) as (l1 & l2 & -> & C & _).
  assert (C' : chain h p ((p, a) :: l1 ++ l2)) by (econstructor; eauto).
  pose proof (chain_det _ _ _ C _ C') as E. apply (f_equal (@List.length _)) in E. cbn [List.length] in E. rewrite app_length in E. lia.
Qed.
Lemma chain_nonnil h p l : chain h p l -> ~ In 0 (map fst l).
Proof. induction 1 as [|p a q l Hp Ha Hc IH]; cbn [map fst]; [tauto|]. intros [H|H]; [congruence|tauto]. Qed.
Lemma chain_nil_iff h p l : chain h p l -> (p = 0 <-> l = []).
Proof. intros H. inversion H; subst; split; intros E; congruence. Qed.
Lemma chain_heap h p l : chain h p l -> forall x a, In (x, a) l -> exists q, h x = Some (a, q).
Proof. induction 1 as [|p a q l Hp Ha Hc IH]; intros x b H; [destruct H|]. destruct H as [[= -> ->]|H]; eauto. Qed.
(** A chain does not change when other nodes do. *)
Lemma chain_other h h' p l : chain h p l -> (forall x, In x (map fst l) -> h' x = h x) -> chain h' p l.
Proof.
  induction 1 as [|p a q l Hp Ha Hc IH]; intros H; [constructor|]. econstructor; [exact Hp|rewrite H; [exact Ha|now left]|].
  apply IH. intros x Hx. apply H. now right.
Qed.
Lemma setNext_same h p a q n : h p = Some (a, q) -> setNext h p n p = Some (a, n).
Proof. intros H. unfold setNext. rewrite N.eqb_refl, H. reflexivity. Qed.
Lemma setNext_other h p n x : x <> p -> setNext h p n x = h x.
Proof. intros H. unfold setNext. destruct (N.eqb_spec x p); congruence. Qed.
Lemma chain_setNext h p l x n : chain h p l -> ~ In x (map fst l) -> chain (setNext h x n) p l.
Proof. intros C H. apply (chain_other _ _ _ _ C). intros y Hy. apply setNext_other. congruence. Qed.
(** Redirecting the last link. *)
Lemma chain_snoc h p l x a : chain h p (l ++ [(x, a)]) -> forall q m, chain h q m -> (forall y, In y (map fst m) -> ~ In y (map fst (l ++ [(x, a)]))) ->
  chain (setNext h x q) p (l ++ (x, a) :: m).
Proof.
  revert p. induction l as [|(y & b) l IH]; intros p C q m Cm D; cbn [app] in C |- *; destruct (chain_inv _ _ _ _ _ C) as (-> & Hp & r & Hr & Cr).
  - econstructor; [assumption|eapply setNext_same; eassumption|]. apply chain_setNext; [exact Cm|]. intros I. apply (D x I). now left.
  - pose proof (chain_nodup _ _ _ C) as Nd. cbn [map fst] in Nd. apply NoDup_cons_iff in Nd as [Nd _].
    econstructor; [assumption| |].
    + rewrite setNext_other; [eassumption|]. intros ->. apply Nd. rewrite map_app. apply in_or_app. right. now left.
    + apply IH; [assumption|exact Cm|]. intros z Hz I. apply (D z Hz). now right.
Qed.

(** The append loop. *)
Lemma append_last h p l x a : chain h p (l ++ [(x, a)]) -> forall n new, (List.length l < n)%nat -> appendList n h p new = Done (setNext h x new, true).
Proof.
  revert p. induction l as [|(y & b) l IH]; intros p C n new Hn; (destruct n as [|n]; [cbn in Hn; lia|]); cbn [app] in C; destruct (chain_inv _ _ _ _ _ C) as (-> & Hp & r & Hr & Cr); cbn [appendList].
  - destruct (N.eqb_spec x NILP); [contradiction|]. rewrite Hr. apply chain_inv0 in Cr. subst r. reflexivity.
  - destruct (N.eqb_spec y NILP); [contradiction|]. rewrite Hr. destruct (N.eqb_spec r NILP) as [Er|].
    + exfalso. apply (chain_nil_iff _ _ _ Cr) in Er. destruct l; discriminate.
    + apply IH; [exact Cr|cbn [List.length] in Hn; lia].
Qed.
Lemma append_spec h p l q m : chain h p l -> l <> [] -> chain h q m -> (forall x, In x (map fst l) -> ~ In x (map fst m)) ->
  exists h', (forall n, (List.length l <= n)%nat -> appendList n h p q = Done (h', true)) /\ chain h' p (l ++ m) /\ (forall x, ~ In x (map fst l) -> h' x = h x).
Proof.
  intros C Ne Cm D. destruct (exists_last Ne) as (l0 & (x & a) & ->). exists (setNext h x q). split; [|split].
  - intros n Hn. apply (append_last _ _ _ _ _ C). rewrite app_length in Hn. cbn in Hn. lia.
  - rewrite <- app_assoc. cbn [app]. apply chain_snoc; [exact C|exact Cm|]. intros y Hy I. exact (D y I Hy).
  - intros y Hy. apply setNext_other. intros ->. apply Hy. rewrite map_app. apply in_or_app. right. now left.
Qed.
Lemma set_spec h p l q a : chain h p l -> chain h q [(q, a)] -> ~ In q (map fst l) ->
  exists h', (forall n, (List.length l <= n)%nat -> exists p', setList n (h, p) q = Done (h', p') /\ chain h' p' (l ++ [(q, a)])) /\ (forall x, ~ In x (map fst l) -> h' x = h x).
Proof.
  intros C Cq Hq. destruct l as [|y l].
  - exists h. split; [|reflexivity]. intros n _. exists q. apply chain_inv0 in C. subst p. split; [reflexivity|exact Cq].
  - destruct (append_spec h p (y :: l) q _ C ltac:(discriminate) Cq) as (h' & R & C' & O'); [cbn [map fst]; intros x Hx [<-|[]]; exact (Hq Hx)|].
    exists h'. split; [|exact O']. intros n Hn. exists p. unfold setList. cbn [fst snd]. destruct (N.eqb_spec p NILP) as [e|]; [apply (chain_nil_iff _ _ _ C) in e; discriminate|].
    rewrite (R n Hn). auto.
Qed.
End Chains.

(** The content test. *)
Lemma hasPrefixNoCase_spec t p : hasPrefixNoCase (Some t) p = true <-> exists a b, t = a ++ b /\ sameNoCase a p.
Proof.
  unfold hasPrefixNoCase. destruct (Nat.ltb_spec (List.length t) (List.length p)) as [H|H].
  - split; [discriminate|]. intros (a & b & -> & E). apply (f_equal (@List.length _)) in E. rewrite !map_length in E. rewrite app_length in H. lia.
  - rewrite beq_eq. split.
    + intros E. exists (firstn (List.length p) t), (skipn (List.length p) t). split; [symmetry; apply firstn_skipn|]. exact E.
    + intros (a & b & -> & E). pose proof E as L. apply (f_equal (@List.length _)) in L. rewrite !map_length in L. rewrite <- L, firstn_app, Nat.sub_diag, firstn_all. cbn [firstn]. rewrite app_nil_r. exact E.
Qed.
Lemma contentTest_spec x : contentTest x = true <-> isContent x.
Proof.
  unfold contentTest, isContent, contentIds. rewrite !orb_true_iff, andb_true_iff, !N.eqb_eq. cbn [In]. split.
  - intros [H|[H H2]]; [left; intuition congruence|right]. split; [exact H|]. destruct (rName x) as [t|]; [|discriminate]. apply hasPrefixNoCase_spec in H2 as (a & b & H2 & H3). exists t, a, b. auto.
  - intros [H|[H (t & a & b & -> & E & S)]]; [left; intuition congruence|right]. split; [exact H|]. apply hasPrefixNoCase_spec. eauto.
Qed.

(** What is left by the loop. *)
Definition hasContent (l : list (N * raw)) : bool := existsb (fun y => contentTest (snd y)) l.
Fixpoint afterLast (l : list (N * raw)) : list (N * raw) :=
  match l with
  | [] => []
  | y :: l' => if hasContent l' then afterLast l' else if contentTest (snd y) then l' else l
  end.
Lemma remove_some h p a q k : forall l addr n, chain h p ((p, a) :: k ++ l) -> chain h addr l -> (List.length l < n)%nat -> h p = Some (a, q) ->
  exists h', removeLoop n h p (Some p) addr = Done (h', p) /\ chain h' p ((p, a) :: if hasContent l then afterLast l else k ++ l) /\ (forall x, x <> p -> h' x = h x).
Proof.
  intros l. revert h q k. induction l as [|(y & b) l IH]; intros h q k addr n C Cl Hn Hp; (destruct n as [|n]; [cbn in Hn; lia|]); cbn [removeLoop].
  - apply chain_inv0 in Cl. subst addr. cbn [N.eqb NILP]. exists h. split; [reflexivity|]. split; [exact C|reflexivity].
  - destruct (chain_inv _ _ _ _ _ Cl) as (-> & Hy & r & Hr & Cr). destruct (N.eqb_spec y NILP) as [E|_]; [contradiction|]. rewrite Hr.
    cbn [hasContent existsb snd]. fold (hasContent l). cbn [List.length] in Hn.
    pose proof (chain_nodup _ _ _ C) as Nd. cbn [map fst] in Nd. apply NoDup_cons_iff in Nd as [Nd _].
    rewrite map_app in Nd. cbn [map fst] in Nd.
    destruct (chain_inv _ _ _ _ _ C) as (_ & Hp0 & _).
    destruct (contentTest b) eqn:Cb; cbn [orb].
    + assert (C2 : chain (setNext h p r) r l) by (apply chain_setNext; [exact Cr|]; intros I; apply Nd; apply in_or_app; right; now right).
      destruct (IH (setNext h p r) r [] r n) as (h' & R & Ch & O'); cbn [app].
      * econstructor; [exact Hp0|eapply setNext_same; eassumption|exact C2].
      * exact C2.
      * lia.
      * eapply setNext_same; eassumption.
      * exists h'. split; [exact R|]. split.
        -- cbn [afterLast snd]. rewrite Cb. destruct (hasContent l); exact Ch.
        -- intros x Hx. rewrite O', setNext_other by exact Hx. reflexivity.
    + destruct (IH h q (k ++ [(y, b)]) r n) as (h' & R & Ch & O'); [rewrite <- app_assoc; exact C|exact Cr|lia|exact Hp|].
      exists h'. split; [exact R|]. split; [|exact O']. cbn [afterLast snd]. rewrite Cb. destruct (hasContent l); [exact Ch|]. rewrite <- app_assoc in Ch. exact Ch.
Qed.
Fixpoint dropped (l : list (N * raw)) : list (N * raw) :=
  match l with
  | [] => []
  | y :: l' => if contentTest (snd y) then dropped l' else y :: if hasContent l' then afterLast l' else l'
  end.
Lemma remove_none h : forall l addr n, chain h addr l -> (List.length l < n)%nat ->
  exists h' hd, removeLoop n h addr None addr = Done (h', hd) /\ chain h' hd (dropped l) /\ (forall x, ~ In x (map fst l) -> h' x = h x).
Proof.
  induction l as [|(y & b) l IH]; intros addr n C Hn; (destruct n as [|n]; [cbn in Hn; lia|]); cbn [removeLoop].
  - apply chain_inv0 in C. subst addr. cbn [N.eqb NILP]. exists h, 0. split; [reflexivity|]. split; [constructor|reflexivity].
  - destruct (chain_inv _ _ _ _ _ C) as (-> & Hy & r & Hr & Cr). destruct (N.eqb_spec y NILP) as [E|_]; [contradiction|]. rewrite Hr. cbn [dropped snd List.length] in *.
    destruct (contentTest b) eqn:Cb.
    + destruct (IH r n Cr ltac:(lia)) as (h' & hd & R & Ch & O'). exists h', hd. split; [exact R|]. split; [exact Ch|]. intros x Hx. apply O'. intros I. apply Hx. now right.
    + destruct (remove_some h y b r [] l r n C Cr ltac:(lia) Hr) as (h' & R & Ch & O'). exists h', y. split; [exact R|]. split; [exact Ch|]. intros x Hx. apply O'. intros ->. apply Hx. now left.
Qed.

Definition kept (y : N * raw) : bool := negb (contentTest (snd y)).
Lemma hasContent_app a b : hasContent (a ++ b) = hasContent a || hasContent b.
Proof. unfold hasContent. apply existsb_app. Qed.
Lemma hasContent_false l : hasContent l = false <-> Forall (fun y => ~ isContent (snd y)) l.
Proof.
  unfold hasContent. rewrite Forall_forall. split.
  - intros H y Hy C. apply contentTest_spec in C. assert (T : existsb (fun y => contentTest (snd y)) l = true) by (apply existsb_exists; eauto). congruence.
  - intros H. destruct (existsb _ l) eqn:E; [|reflexivity]. apply existsb_exists in E as (y & Hy & C). apply contentTest_spec in C. exfalso. exact (H y Hy C).
Qed.
Lemma afterLast_app a c b : contentTest (snd c) = true -> hasContent b = false -> afterLast (a ++ c :: b) = b.
Proof.
  intros Hc Hb. induction a as [|y a IH]; cbn [app afterLast]; [rewrite Hb, Hc; reflexivity|].
  rewrite hasContent_app. unfold hasContent at 2. cbn [existsb]. rewrite Hc, orb_true_r. exact IH.
Qed.
Lemma dropped_none l : hasContent l = false -> dropped l = l.
Proof.
  destruct l as [|y l]; [reflexivity|]. unfold hasContent. cbn [existsb dropped]. intros H. apply orb_false_iff in H as [-> H]. unfold hasContent. rewrite H. reflexivity.
Qed.
Lemma dropped_app a c b : contentTest (snd c) = true -> hasContent b = false -> dropped (a ++ c :: b) = firstn 1 (filter kept a) ++ b.
Proof.
  intros Hc Hb. induction a as [|y a IH]; cbn [app dropped filter firstn]; [rewrite Hc; apply dropped_none, Hb|].
  unfold kept at 1. destruct (contentTest (snd y)) eqn:E; cbn [negb]; [exact IH|].
  rewrite hasContent_app. unfold hasContent at 2. cbn [existsb]. rewrite Hc, orb_true_r, afterLast_app by assumption. reflexivity.
Qed.
(** Every list is split at its last content header. *)
Lemma split_last l : hasContent l = true -> exists a c b, l = a ++ c :: b /\ contentTest (snd c) = true /\ hasContent b = false.
Proof.
  induction l as [|y l IH]; [discriminate|]. unfold hasContent. cbn [existsb]. fold (hasContent l). destruct (hasContent l) eqn:E.
  - intros _. destruct (IH eq_refl) as (a & c & b & -> & H1 & H2). exists (y :: a), c, b. auto.
  - rewrite orb_false_r. intros H. exists [], y, l. auto.
Qed.
(** Searching and writing. *)
Lemma find_chain h i : forall l p n, chain h p l -> (List.length l < n)%nat -> findList n h p i =
  Done (match find (fun y => rId (snd y) =? i) l with Some y => (fst y, true) | None => (NILP, false) end).
Proof.
  induction l as [|(y & b) l IH]; intros p n C Hn; (destruct n as [|n]; [cbn in Hn; lia|]); cbn [findList find].
  - apply chain_inv0 in C. subst p. reflexivity.
  - destruct (chain_inv _ _ _ _ _ C) as (-> & Hy & r & Hr & Cr). destruct (N.eqb_spec y NILP) as [E|_]; [contradiction|]. rewrite Hr. cbn [snd fst].
    destruct (rId b =? i); [reflexivity|]. apply IH; [exact Cr|cbn in Hn; lia].
Qed.
Lemma encode_chain h : forall l p n buf, chain h p l -> (List.length l < n)%nat -> encodeList n h p buf = Done (buf ++ encRawHeaders (map snd l)).
Proof.
  induction l as [|(y & b) l IH]; intros p n buf C Hn; (destruct n as [|n]; [cbn in Hn; lia|]); cbn [encodeList].
  - apply chain_inv0 in C. subst p. cbn [N.eqb NILP map encRawHeaders flat_map]. rewrite app_nil_r. reflexivity.
  - destruct (chain_inv _ _ _ _ _ C) as (-> & Hy & r & Hr & Cr). destruct (N.eqb_spec y NILP) as [E|_]; [contradiction|]. rewrite Hr.
    rewrite (IH _ _ _ Cr) by (cbn in Hn; lia). unfold encRawHeaders. cbn [map snd flat_map]. rewrite app_assoc. reflexivity.
Qed.
(** On a list without end no loop ever finishes. *)
Lemma encode_cycle h p a : p <> 0 -> h p = Some (a, p) -> forall n buf, encodeList n h p buf = Running.
Proof. intros Hp H. induction n as [|n IH]; intros buf; [reflexivity|]. cbn [encodeList]. destruct (N.eqb_spec p NILP); [contradiction|]. rewrite H. apply IH. Qed.

(** Building a list. *)
Lemma setAll_spec {A} : forall (ns l : list (N * A)) (h : heap A) p n, chain h p l -> NoDup (map fst (l ++ ns)) -> (forall q a, In (q, a) ns -> q <> 0 /\ h q = Some (a, 0)) -> (List.length l + List.length ns <= n)%nat ->
  exists h' p', setAll n (h, p) (map fst ns) = Done (h', p') /\ chain h' p' (l ++ ns) /\ (forall x, ~ In x (map fst (l ++ ns)) -> h' x = h x).
Proof.
  induction ns as [|(q & a) ns IH]; intros l h p n C Nd Hns Hn; cbn [map fst setAll].
  - exists h, p. rewrite app_nil_r in *. auto.
  - destruct (Hns q a (or_introl eq_refl)) as [Hq Hqa].
    rewrite map_app in Nd. cbn [map fst] in Nd. apply NoDup_remove in Nd as [Nd1 Nd2].
    assert (Cq : chain h q [(q, a)]) by (econstructor; [exact Hq|exact Hqa|constructor]).
    destruct (set_spec h p l q a C Cq) as (h1 & R & O1); [intros I; apply Nd2; apply in_or_app; now left|].
    destruct (R n) as (p1 & R1 & C1); [lia|]. rewrite R1.
    destruct (IH (l ++ [(q, a)]) h1 p1 n) as (h2 & p2 & R2 & C2 & O2).
    + exact C1.
    + rewrite <- app_assoc. cbn [app]. rewrite map_app. cbn [map fst]. apply NoDup_Add with (a := q) (l := map fst l ++ map fst ns); [|split; assumption]. apply Add_app.
    + intros q' a' H'. destruct (Hns q' a' (or_intror H')) as [H1 H2]. split; [exact H1|]. rewrite O1; [exact H2|]. intros I.
      clear - Nd1 H' I. apply (in_map fst) in H'. cbn [fst] in H'. induction (map fst l) as [|z zs IHz]; [destruct I|]. cbn [app] in Nd1. apply NoDup_cons_iff in Nd1 as [Nz Nd1].
      destruct I as [->|I]; [apply Nz, in_or_app; now right|]. exact (IHz Nd1 I).
    + rewrite app_length. cbn [List.length] in *. lia.
    + exists h2, p2. rewrite <- app_assoc in C2, O2. cbn [app] in C2, O2. split; [exact R2|]. split; [exact C2|]. intros x Hx. rewrite O2 by exact Hx. apply O1. intros I. apply Hx. rewrite map_app. apply in_or_app. now left.
Qed.
Lemma link_spec {A} : forall (ns l : list (N * A)) (h : heap A) p x a, chain h p (l ++ [(x, a)]) -> NoDup (map fst (l ++ (x, a) :: ns)) -> (forall q a, In (q, a) ns -> q <> 0 /\ h q = Some (a, 0)) ->
  exists h' y, fold_left linkRaw (map fst ns) (h, p, Some x) = (h', p, Some y) /\ chain h' p (l ++ (x, a) :: ns) /\ (forall z, ~ In z (map fst (l ++ (x, a) :: ns)) -> h' z = h z).
Proof.
  induction ns as [|(q & b) ns IH]; intros l h p x a C Nd Hns; cbn [map fst fold_left].
  - exists h, x. auto.
  - cbn [linkRaw]. destruct (Hns q b (or_introl eq_refl)) as [Hq Hqb].
    assert (Cq : chain h q [(q, b)]) by (econstructor; [exact Hq|exact Hqb|constructor]).
    assert (Nd' : NoDup (map fst ((l ++ [(x, a)]) ++ (q, b) :: ns))) by (rewrite <- app_assoc; exact Nd).
    pose proof Nd' as Nd2. rewrite map_app in Nd2. cbn [map fst] in Nd2. apply NoDup_remove in Nd2 as [Nd1 Nd2].
    destruct (IH (l ++ [(x, a)]) (setNext h x q) p q b) as (h' & y & R & C' & O').
    + rewrite <- app_assoc. cbn [app]. apply chain_snoc; [exact C|exact Cq|]. cbn [map fst In]. intros z [<-|[]] I. apply Nd2, in_or_app. now left.
    + exact Nd'.
    + intros z c H. destruct (Hns z c (or_intror H)) as [H1 H2]. split; [exact H1|]. rewrite setNext_other; [exact H2|]. intros ->.
      rewrite map_app in Nd. cbn [map fst] in Nd. apply NoDup_remove in Nd as [_ Nd]. apply Nd, in_or_app. right. right. change x with (fst (x, c)). now apply in_map.
    + rewrite <- app_assoc in C', O'. cbn [app] in C', O'. exists h', y. split; [exact R|]. split; [exact C'|]. intros z Hz. rewrite O' by exact Hz. apply setNext_other. intros ->. apply Hz. rewrite map_app. apply in_or_app. right. now left.
Qed.
(** A set of nodes closed under next: the walk never ends. *)
Lemma encode_closed h (S : N -> Prop) : ~ S 0 -> (forall x, S x -> exists a q, h x = Some (a, q) /\ S q) -> forall n p buf, S p -> encodeList n h p buf = Running.
Proof.
  intros S0 Sc. induction n as [|n IH]; intros p buf Hp; [reflexivity|]. cbn [encodeList]. destruct (N.eqb_spec p NILP) as [->|]; [contradiction|].
  destruct (Sc p Hp) as (a & q & -> & Hq). apply IH, Hq.
Qed.
Lemma chain_closed {A} (h : heap A) (S : N -> Prop) : ~ S 0 -> (forall x, S x -> exists a q, h x = Some (a, q) /\ S q) -> forall p l, S p -> ~ chain h p l.
Proof.
  intros S0 Sc p l Hp C. induction C as [|p a q l Hn Ha C IH]; [contradiction|]. apply IH. destruct (Sc p Hp) as (b & r & E & Hr). congruence.
Qed.
Lemma append_inside {A} (h : heap A) p l x a q : chain h p (l ++ [(x, a)]) -> In q (map fst (l ++ [(x, a)])) ->
  let s := fun z => In z (map fst (l ++ [(x, a)])) in ~ s 0 /\ (forall z, s z -> exists b r, setNext h x q z = Some (b, r) /\ s r) /\ s p.
Proof.
  intros C Hq s. split; [exact (chain_nonnil _ _ _ C)|]. split.
  - assert (G : forall l' p', chain h p' (l' ++ [(x, a)]) -> forall z, In z (map fst (l' ++ [(x, a)])) -> z <> x -> exists b r, h z = Some (b, r) /\ In r (map fst (l' ++ [(x, a)]))).
    { induction l' as [|(y & b) l' IH]; intros p' C' z Hz Hzx; cbn [app map fst In] in *.
      - destruct Hz as [<-|[]]. contradiction.
      - destruct (chain_inv _ _ _ _ _ C') as (-> & Hy & r & Hr & Cr). destruct Hz as [<-|Hz].
        + exists b, r. split; [exact Hr|]. right. destruct (l' ++ [(x, a)]) as [|(w & c) t] eqn:E; [destruct l'; discriminate|]. destruct (chain_inv _ _ _ _ _ Cr) as (-> & _). now left.
        + destruct (IH r Cr z Hz Hzx) as (c & t & H1 & H2). exists c, t. auto. }
    intros z Hz. destruct (N.eq_dec z x) as [->|Hzx].
    + destruct (chain_heap _ _ _ C x a) as (r & Hr); [apply in_or_app; right; now left|]. exists a, q. split; [eapply setNext_same; eassumption|exact Hq].
    + destruct (G l p C z Hz Hzx) as (b & r & H1 & H2). exists b, r. rewrite setNext_other by exact Hzx. auto.
  - unfold s. destruct (l ++ [(x, a)]) as [|(w & c) t] eqn:E; [destruct l; discriminate|]. destruct (chain_inv _ _ _ _ _ C) as (-> & _). now left.
Qed.
