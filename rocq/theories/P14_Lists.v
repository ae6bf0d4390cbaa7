(** Properties C39 and C44: the linked lists of headers in the arena. *)
From Verif Require Import Base BaseLemmas Charset Str StrSpec StrProofs MethodTree HeaderTree Monad Uri GenParam RawHeaders Msg HeaderList ListSpec ListProofs.

(** ** C39: RemoveContentHeaders *)
Lemma content_dec x : isContent x \/ ~ isContent x.
Proof. destruct (contentTest x) eqn:E; [left; now apply contentTest_spec|right; intros H; apply contentTest_spec in H; congruence]. Qed.
Lemma dropped_others a : forall y, In y (firstn 1 (filter kept a)) -> ~ isContent (snd y).
Proof.
  intros y H. assert (H' : In y (filter kept a)) by (destruct (filter kept a); [destruct H|destruct H as [<-|[]]; now left]). apply filter_In in H' as [_ H']. unfold kept in H'. intros C. apply contentTest_spec in C. rewrite C in H'. discriminate.
Qed.
Lemma remove_run {V} (nil : V) common h p l : chain h p l -> exists h' p', (forall n, (List.length l < n)%nat -> removeContentHeaders n nil common h p = Done (setNth common 12 nil, h', p')) /\
  chain h' p' (dropped l) /\ (forall x, ~ In x (map fst l) -> h' x = h x).
Proof.
  intros C. destruct (remove_none h l p (S (List.length l)) C ltac:(lia)) as (h' & p' & R & C' & O'). exists h', p'. split; [|auto].
  intros n Hn. unfold removeContentHeaders. change (slotOf OMsg SIP_HDR_CONTENT_DISPOSITION) with 12%nat.
  assert (M : forall m k hh hd pr ad r, removeLoop m hh hd pr ad = Done r -> removeLoop (m + k) hh hd pr ad = Done r).
  { induction m as [|m IH]; intros k hh hd pr ad r H; [discriminate|]. cbn [Nat.add removeLoop] in *. destruct (ad =? NILP); [exact H|]. destruct (hh ad) as [(x, nx)|]; [|discriminate].
    destruct (contentTest x); [destruct pr; now apply IH|now apply IH]. }
  replace n with (S (List.length l) + (n - S (List.length l)))%nat by lia. rewrite (M _ _ _ _ _ _ _ R). reflexivity.
Qed.
(** What it does, for every list: if there is a header to remove, all headers up to the last one of them go, except the first header to be kept. *)
Theorem C39_exact : forall V (nil : V) common h p l, chain h p l ->
  exists h' p' l', (forall n, (List.length l < n)%nat -> removeContentHeaders n nil common h p = Done (setNth common 12 nil, h', p')) /\ chain h' p' l' /\
    (forall x, ~ In x (map fst l) -> h' x = h x) /\
    (Forall (fun y => ~ isContent (snd y)) l -> l' = l) /\
    (forall a c b, l = a ++ c :: b -> isContent (snd c) -> Forall (fun y => ~ isContent (snd y)) b ->
       (Forall (fun y => isContent (snd y)) a -> l' = b) /\
       (forall a1 y a2, a = a1 ++ y :: a2 -> Forall (fun z => isContent (snd z)) a1 -> ~ isContent (snd y) -> l' = y :: b)).
Proof.
  intros V nil common h p l C. destruct (remove_run nil common h p l C) as (h' & p' & R & C' & O'). exists h', p', (dropped l).
  split; [exact R|]. split; [exact C'|]. split; [exact O'|]. split.
  - intros H. apply dropped_none. now apply hasContent_false.
  - intros a c b -> Hc Hb. apply contentTest_spec in Hc. apply hasContent_false in Hb. rewrite dropped_app by assumption.
    assert (Q : forall a1, Forall (fun z => isContent (snd z)) a1 -> filter kept a1 = []).
    { induction 1 as [|z zs Hz _ IH]; [reflexivity|]. cbn [filter]. unfold kept at 1. apply contentTest_spec in Hz. rewrite Hz. exact IH. }
    split; [intros Ha; rewrite (Q a Ha); reflexivity|].
    intros a1 y a2 -> Ha1 Hy. rewrite filter_app, (Q a1 Ha1). cbn [app filter]. unfold kept at 1. destruct (contentTest (snd y)) eqn:E; [apply contentTest_spec in E; contradiction|]. reflexivity.
Qed.
Print Assumptions C39_exact.
(** No header that is to be removed is left; nothing is added; the order stays. *)
Lemma without_unique {B} (P : B -> Prop) l l1 : without P l l1 -> forall l2, without P l l2 -> l1 = l2.
Proof.
  induction 1 as [|x l l1 Hx H IH|x l l1 Hx H IH]; intros l2 H2; inversion H2; subst; try contradiction; auto. f_equal; auto.
Qed.
Theorem C39_none_left : forall V (nil : V) common h p l common' h' p' l' n, chain h p l -> removeContentHeaders n nil common h p = Done (common', h', p') -> chain h' p' l' ->
  Forall (fun y => ~ isContent (snd y)) l' /\ (forall y, In y l' -> In y l) /\ exists P, without P l l'.
Proof.
  intros V nil common h p l common' h' p' l' n C R C'. destruct (remove_run nil common h p l C) as (h1 & p1 & R1 & C1 & _).
  assert (M : forall m k hh hd pr ad r, removeLoop m hh hd pr ad = Done r -> removeLoop (m + k) hh hd pr ad = Done r).
  { induction m as [|m IH]; intros k hh hd pr ad r H; [discriminate|]. cbn [Nat.add removeLoop] in *. destruct (ad =? NILP); [exact H|]. destruct (hh ad) as [(x, nx)|]; [|discriminate].
    destruct (contentTest x); [destruct pr; now apply IH|now apply IH]. }
  assert (E : (h', p') = (h1, p1)).
  { specialize (R1 (n + S (List.length l))%nat ltac:(lia)). unfold removeContentHeaders in R, R1. destruct (removeLoop n h p None p) as [(h2, p2)| |] eqn:E; try discriminate.
    rewrite (M _ _ _ _ _ _ _ E) in R1. congruence. }
  injection E as -> ->. rewrite (chain_det _ _ _ C' _ C1). clear R R1 C' C1 M h1 p1.
  assert (D : Forall (fun y => ~ isContent (snd y)) (dropped l) /\ (forall y, In y (dropped l) -> In y l)).
  { destruct (hasContent l) eqn:E.
    - destruct (split_last l E) as (a & c & b & -> & Hc & Hb). rewrite dropped_app by assumption. apply hasContent_false in Hb. split.
      + apply Forall_app. split; [|exact Hb]. apply Forall_forall. apply dropped_others.
      + intros y H. apply in_app_or in H as [H|H]; apply in_or_app; [left|right; now right]. destruct (filter kept a) as [|z zs] eqn:F; [destruct H|]. destruct H as [<-|[]]. assert (I : In z (filter kept a)) by (rewrite F; now left). now apply filter_In in I.
    - rewrite dropped_none by exact E. split; [now apply hasContent_false|auto]. }
  destruct D as [D1 D2]. split; [exact D1|]. split; [exact D2|].
  pose proof (chain_nodup _ _ _ C) as Nd. exists (fun y => ~ In y (dropped l)).
  assert (W : forall l1 l2 : list (N * raw), NoDup l1 -> (exists a o b, l1 = a ++ b /\ l2 = o ++ b /\ (o = [] \/ exists y, o = [y] /\ In y a)) -> without (fun y => ~ In y l2) l1 l2).
  { intros l1 l2 Nd1 (a & o & b & -> & -> & Ho).
    assert (Keep : forall P b, (forall z, In z b -> ~ P z) -> without P b (b : list (N * raw))) by (intros P b0; induction b0 as [|z zs IHb]; intros Hb; [constructor|]; apply without_keep; [apply Hb; now left|apply IHb; intros w Hw; apply Hb; now right]).
    assert (Drop : forall (P : N * raw -> Prop) a l l', (forall z, In z a -> P z) -> without P l l' -> without P (a ++ l) l') by (intros P a0; induction a0 as [|z zs IHa]; intros l0 l0' Ha W; [exact W|]; cbn [app]; apply without_drop; [apply Ha; now left|apply IHa; [intros w Hw; apply Ha; now right|exact W]]).
    assert (Dis : forall (a b : list (N * raw)) (z : N * raw), NoDup (a ++ b) -> In z a -> In z b -> False).
    { induction a0 as [|w a0 IHa]; intros b0 z Nd0 Ha Hb; [destruct Ha|]. cbn [app] in Nd0. apply NoDup_cons_iff in Nd0 as [Nw Nd0]. destruct Ha as [->|Ha]; [apply Nw, in_or_app; now right|exact (IHa _ _ Nd0 Ha Hb)]. }
    destruct Ho as [->|(y & -> & Hy)].
    - cbn [app]. apply Drop; [intros z Hz Hb; exact (Dis _ _ _ Nd1 Hz Hb)|]. apply Keep. intros z Hz HH. exact (HH Hz).
    - apply in_split in Hy as (a1 & a2 & ->). rewrite <- app_assoc in Nd1 |- *. cbn [app] in *. apply Drop.
      + intros z Hz [<-|Hb]; [exact (Dis _ _ _ Nd1 Hz (or_introl eq_refl))|]. apply (Dis _ _ _ Nd1 Hz). right. apply in_or_app. now right.
      + apply without_keep; [intros HH; apply HH; now left|]. assert (Nd3 : NoDup (y :: a2 ++ b)) by (clear - Nd1; induction a1 as [|w a1 IHa]; [exact Nd1|cbn [app] in Nd1; apply NoDup_cons_iff in Nd1 as [_ Nd1]; exact (IHa Nd1)]).
        apply NoDup_cons_iff in Nd3 as [Ny Nd3]. apply Drop; [intros z Hz [<-|Hb]; [apply Ny, in_or_app; now left|exact (Dis _ _ _ Nd3 Hz Hb)]|]. apply Keep. intros z Hz HH. apply HH. now right. }
  apply W.
  - apply (NoDup_map_inv fst). exact Nd.
  - destruct (hasContent l) eqn:E.
    + destruct (split_last l E) as (a & c & b & -> & Hc & Hb). rewrite dropped_app by assumption. exists (a ++ [c]), (firstn 1 (filter kept a)), b. split; [rewrite <- app_assoc; reflexivity|]. split; [reflexivity|].
      destruct (filter kept a) as [|z zs] eqn:F; [left; reflexivity|right]. exists z. split; [reflexivity|]. assert (I : In z (filter kept a)) by (rewrite F; now left). apply filter_In in I as [I _]. apply in_or_app. now left.
    + rewrite dropped_none by exact E. exists [], [], l. auto.
Qed.
Print Assumptions C39_none_left.
(** It does what it is meant to do exactly when no header to be kept stands between another one and a header to be removed. *)
Theorem C39_removes_exactly : forall V (nil : V) common h p l common' h' p' n, chain h p l -> removeContentHeaders n nil common h p = Done (common', h', p') ->
  ((exists l', chain h' p' l' /\ without (fun y => isContent (snd y)) l l') <-> ~ sandwiched l).
Proof.
  intros V nil common h p l common' h' p' n C R. destruct (remove_run nil common h p l C) as (h1 & p1 & R1 & C1 & _).
  assert (M : forall m k hh hd pr ad r, removeLoop m hh hd pr ad = Done r -> removeLoop (m + k) hh hd pr ad = Done r).
  { induction m as [|m IH]; intros k hh hd pr ad r H; [discriminate|]. cbn [Nat.add removeLoop] in *. destruct (ad =? NILP); [exact H|]. destruct (hh ad) as [(x, nx)|]; [|discriminate].
    destruct (contentTest x); [destruct pr; now apply IH|now apply IH]. }
  assert (E : (h', p') = (h1, p1)).
  { specialize (R1 (n + S (List.length l))%nat ltac:(lia)). unfold removeContentHeaders in R, R1. destruct (removeLoop n h p None p) as [(h2, p2)| |] eqn:E; try discriminate.
    rewrite (M _ _ _ _ _ _ _ E) in R1. congruence. }
  injection E as -> ->. clear R R1 M.
  assert (W : forall l : list (N * raw), without (fun y => isContent (snd y)) l (filter kept l)).
  { induction l0 as [|y l0 IH]; [constructor|]. cbn [filter]. unfold kept at 1. destruct (contentTest (snd y)) eqn:E; cbn [negb]; [apply without_drop; [now apply contentTest_spec|exact IH]|apply without_keep; [intros H; apply contentTest_spec in H; congruence|exact IH]]. }
  assert (K : forall b, hasContent b = false -> filter kept b = b).
  { induction b as [|y b IH]; [reflexivity|]. unfold hasContent. cbn [existsb filter]. intros H. apply orb_false_iff in H as [H1 H2]. unfold kept at 1. rewrite H1. cbn [negb]. f_equal. now apply IH. }
  assert (Z : dropped l = filter kept l <-> ~ sandwiched l).
  { destruct (hasContent l) eqn:E.
    - destruct (split_last l E) as (a & c & b & -> & Hc & Hb). rewrite dropped_app, filter_app by assumption. cbn [filter]. unfold kept at 3. rewrite Hc. cbn [negb]. rewrite (K b Hb). split.
      + intros H Sw. apply app_inv_tail in H. destruct Sw as (l1 & y & l2 & z & l3 & d & l4 & Ed & Hy & Hz & Hd).
        assert (Q : exists t, a = l1 ++ y :: l2 ++ z :: t).
        { assert (Pf : forall (u v : list (N * raw)) c b d w, u ++ c :: b = v ++ d :: w -> hasContent b = false -> contentTest (snd d) = true -> exists t, u ++ [c] = v ++ d :: t).
          { induction u as [|e u IH]; intros [|e2 v] c0 b0 d0 w H1 H2 H3; cbn [app] in *.
            - injection H1 as -> ->. exists []. reflexivity.
            - injection H1 as -> ->. rewrite hasContent_app in H2. unfold hasContent at 2 in H2. cbn [existsb] in H2. rewrite H3, orb_true_r in H2. discriminate.
            - injection H1 as -> H1. exists (u ++ [c0]). reflexivity.
            - injection H1 as -> H1. destruct (IH v c0 b0 d0 w H1 H2 H3) as (t & Et). exists t. congruence. }
          destruct (Pf a (l1 ++ y :: l2 ++ z :: l3) c b d l4) as (t & Et); [rewrite Ed; repeat (rewrite <- app_assoc; cbn [app]); reflexivity|exact Hb|now apply contentTest_spec|].
          destruct (exists_last (l := d :: t) ltac:(discriminate)) as (t' & e & Et'). rewrite Et' in Et. rewrite app_assoc in Et. apply app_inj_tail in Et as [Et _]. exists (l3 ++ t'). rewrite Et. repeat (rewrite <- app_assoc; cbn [app]). reflexivity. }
        destruct Q as (t & ->). rewrite !filter_app in H. cbn [filter] in H. rewrite filter_app in H. cbn [filter] in H. unfold kept in H.
        destruct (contentTest (snd y)) eqn:Ey; [apply contentTest_spec in Ey; contradiction|]. destruct (contentTest (snd z)) eqn:Ez; [apply contentTest_spec in Ez; contradiction|].
        apply (f_equal (@List.length _)) in H. cbn [negb] in H. rewrite firstn_length, !app_length in H. cbn [List.length] in H. rewrite app_length in H. cbn [List.length] in H. lia.
      + intros Sw. f_equal. destruct (filter kept a) as [|y [|z zs]] eqn:F; [reflexivity|reflexivity|]. exfalso. apply Sw.
        assert (Sp : forall (u : list (N * raw)) y t, filter kept u = y :: t -> exists u1 u2, u = u1 ++ y :: u2 /\ kept y = true /\ filter kept u2 = t).
        { induction u as [|e u IH]; intros y0 t H; [discriminate|]. cbn [filter] in H. destruct (kept e) eqn:Ke; [injection H as -> <-; exists [], u; auto|]. destruct (IH _ _ H) as (u1 & u2 & -> & H1 & H2). exists (e :: u1), u2. auto. }
        destruct (Sp _ _ _ F) as (u1 & u2 & -> & Ky & F2). destruct (Sp _ _ _ F2) as (u3 & u4 & -> & Kz & _).
        exists u1, y, u3, z, u4, c, b. split; [repeat (rewrite <- app_assoc; cbn [app]); reflexivity|]. unfold kept in Ky, Kz. apply negb_true_iff in Ky, Kz.
        split; [intros H; apply contentTest_spec in H; congruence|]. split; [intros H; apply contentTest_spec in H; congruence|]. now apply contentTest_spec.
    - rewrite dropped_none, (K l E) by exact E. split; [|reflexivity]. intros _ (l1 & y & l2 & z & l3 & d & l4 & -> & _ & _ & Hd). apply hasContent_false in E. rewrite Forall_forall in E. apply (E d); [|exact Hd].
      apply in_or_app. right. right. apply in_or_app. right. right. apply in_or_app. right. now left. }
  rewrite <- Z. split.
  - intros (l' & C' & W'). rewrite (chain_det _ _ _ C1 _ C'). exact (without_unique _ _ _ W' _ (W l)).
  - intros H. exists (dropped l). split; [exact C1|]. rewrite H. apply W.
Qed.
Print Assumptions C39_removes_exactly.
(** Of the headers kept apart exactly the Content-Disposition header is removed. *)
Theorem C39_disposition : forall V (nil : V) common h p l common' h' p' n, chain h p l -> List.length common = List.length (slotIndexes OMsg) -> removeContentHeaders n nil common h p = Done (common', h', p') ->
  List.length common' = List.length common /\ forall k d, nth_error (slotIndexes OMsg) k = Some d -> nth_error common' k = if d =? SIP_HDR_CONTENT_DISPOSITION then Some nil else nth_error common k.
Proof.
  intros V nil common h p l common' h' p' n C L R. unfold removeContentHeaders in R. destruct (removeLoop n h p None p) as [(h1, p1)| |]; try discriminate.
  change (slotOf OMsg SIP_HDR_CONTENT_DISPOSITION) with 12%nat in R. injection R as <- <- <-. change (List.length (slotIndexes OMsg)) with 19%nat in L.
  do 20 (destruct common as [|? common]; [try discriminate L|]); try discriminate L. split; [reflexivity|].
  intros k d. do 20 (destruct k as [|k]; [intros [= <-]; reflexivity|]). cbn. destruct k; discriminate.
Qed.
Print Assumptions C39_disposition.
(** Four headers in the arena, in the order of their addresses. *)
Definition exHeap (a b c d : raw) : heap raw := fun x =>
  if x =? 16 then Some (a, 24) else if x =? 24 then Some (b, 40) else if x =? 40 then Some (c, 8) else if x =? 8 then Some (d, 0) else None.
Definition exSubject := mkraw SIP_HDR_SUBJECT None (s2b "hello").
Definition exDate := mkraw SIP_HDR_DATE None (s2b "today").
Definition exEnc := mkraw SIP_HDR_CONTENT_ENCODING None (s2b "gzip").
Definition exFoo := mkraw SIP_HDR_UNKNOWN (Some (s2b "CONTENT-foo")) (s2b "1").
Definition exCon := mkraw SIP_HDR_UNKNOWN (Some (s2b "Content")) (s2b "2").
Lemma exChain a b c d : chain (exHeap a b c d) 16 [(16, a); (24, b); (40, c); (8, d)].
Proof. econstructor; [discriminate|reflexivity|]. econstructor; [discriminate|reflexivity|]. econstructor; [discriminate|reflexivity|]. econstructor; [discriminate|reflexivity|]. constructor. Qed.
(** A list that meets the condition, with headers of both kinds, and the result. *)
Example C39_case : let h := exHeap exEnc exSubject exFoo exCon in
  chain h 16 [(16, exEnc); (24, exSubject); (40, exFoo); (8, exCon)] /\ ~ sandwiched [(16, exEnc); (24, exSubject); (40, exFoo); (8, exCon)] /\
  isContent exEnc /\ isContent exFoo /\ ~ isContent exSubject /\ ~ isContent exCon /\
  exists h', removeContentHeaders 5 0 (repeat 7 19) h 16 = Done (repeat 7 12 ++ 0 :: repeat 7 6, h', 24) /\ chain h' 24 [(24, exSubject); (8, exCon)].
Proof.
  intros h. split; [apply exChain|].
  assert (H1 : isContent exEnc) by (apply contentTest_spec; vm_compute; reflexivity).
  assert (H2 : isContent exFoo) by (apply contentTest_spec; vm_compute; reflexivity).
  assert (H3 : ~ isContent exSubject) by (intros H; apply contentTest_spec in H; vm_compute in H; discriminate).
  assert (H4 : ~ isContent exCon) by (intros H; apply contentTest_spec in H; vm_compute in H; discriminate).
  destruct (C39_exact _ 0 (repeat 7 19) h 16 _ (exChain exEnc exSubject exFoo exCon)) as (h' & p' & l' & R & C' & _ & _ & X).
  destruct (X [(16, exEnc); (24, exSubject)] (40, exFoo) [(8, exCon)] eq_refl H2 ltac:(constructor; [exact H4|constructor])) as [_ X2].
  specialize (X2 [(16, exEnc)] (24, exSubject) [] eq_refl ltac:(constructor; [exact H1|constructor]) H3). subst l'.
  specialize (R 5%nat ltac:(cbn; lia)).
  assert (Ep : p' = 24) by (destruct (chain_inv _ _ _ _ _ C') as (-> & _); reflexivity). subst p'.
  split; [|repeat (split; [assumption|]); exists h'; split; [exact R|exact C']].
  apply (proj1 (C39_removes_exactly _ 0 (repeat 7 19) _ _ _ _ _ _ _ (exChain exEnc exSubject exFoo exCon) R)). exists [(24, exSubject); (8, exCon)]. split; [exact C'|].
  apply without_drop; [exact H1|]. apply without_keep; [exact H3|]. apply without_drop; [exact H2|]. apply without_keep; [exact H4|]. constructor.
Qed.
(** False in general: a Date header between a Subject and a Content-Encoding header is lost. *)
Theorem C39_loses_header_refuted : exists h p l h' p', chain h p l /\ In (24, exDate) l /\ ~ isContent exDate /\
  (forall n, (4 < n)%nat -> removeContentHeaders n 0 (repeat 0 19) h p = Done (repeat 0 19, h', p')) /\ forall l', chain h' p' l' -> ~ In (24, exDate) l'.
Proof.
  assert (H1 : isContent exEnc) by (apply contentTest_spec; vm_compute; reflexivity).
  assert (H2 : ~ isContent exSubject) by (intros H; apply contentTest_spec in H; vm_compute in H; discriminate).
  assert (H3 : ~ isContent exDate) by (intros H; apply contentTest_spec in H; vm_compute in H; discriminate).
  assert (H4 : ~ isContent exCon) by (intros H; apply contentTest_spec in H; vm_compute in H; discriminate).
  destruct (C39_exact _ 0 (repeat 0 19) _ 16 _ (exChain exSubject exDate exEnc exCon)) as (h' & p' & l' & R & C' & _ & _ & X).
  destruct (X [(16, exSubject); (24, exDate)] (40, exEnc) [(8, exCon)] eq_refl H1 ltac:(constructor; [exact H4|constructor])) as [_ X2].
  specialize (X2 [] (16, exSubject) [(24, exDate)] eq_refl ltac:(constructor) H2). subst l'.
  exists (exHeap exSubject exDate exEnc exCon), 16, [(16, exSubject); (24, exDate); (40, exEnc); (8, exCon)], h', p'.
  split; [apply exChain|]. split; [right; now left|]. split; [exact H3|]. split; [exact R|].
  intros l' Cl. rewrite (chain_det _ _ _ Cl _ C'). intros [E|[E|[]]]; discriminate.
Qed.
Print Assumptions C39_loses_header_refuted.

(** ** C44: linked lists of headers *)
(** Setting headers (or the values of a multi-valued header) one after the other builds the list of all of them in that order, and touches no other node. *)
Theorem C44_set_in_order : forall A (h : heap A) (ns : list (N * A)), NoDup (map fst ns) -> (forall q a, In (q, a) ns -> q <> 0 /\ h q = Some (a, 0)) ->
  forall n, (List.length ns <= n)%nat -> exists h' p, setAll n (h, 0) (map fst ns) = Done (h', p) /\ chain h' p ns /\ (forall x, ~ In x (map fst ns) -> h' x = h x).
Proof.
  intros A h ns Nd H n Hn. destruct (setAll_spec ns [] h 0 n) as (h' & p & R & C & O'); [constructor|exact Nd|exact H|exact Hn|]. exists h', p. auto.
Qed.
Print Assumptions C44_set_in_order.
(** A further header is added at the end. *)
Theorem C44_append : forall A (h : heap A) p l q a, chain h p l -> l <> [] -> h q = Some (a, 0) -> q <> 0 -> ~ In q (map fst l) ->
  exists h', (forall n, (List.length l <= n)%nat -> appendList n h p q = Done (h', true)) /\ chain h' p (l ++ [(q, a)]) /\ (forall x, ~ In x (map fst l) -> h' x = h x).
Proof.
  intros A h p l q a C Ne Hq Q0 Nq. destruct (append_spec h p l q [(q, a)] C Ne) as (h' & R); [econstructor; [exact Q0|exact Hq|constructor]|intros x Hx [<-|[]]; exact (Nq Hx)|]. exists h'. exact R.
Qed.
Print Assumptions C44_append.
Theorem C44_append_to_nothing : forall A (h : heap A) q n, appendList (S n) h 0 q = Done (h, false).
Proof. reflexivity. Qed.
(** The raw header block is linked in the order in which its headers are read. *)
Theorem C44_raw_block_in_order : forall A (h : heap A) (ns : list (N * A)), NoDup (map fst ns) -> (forall q a, In (q, a) ns -> q <> 0 /\ h q = Some (a, 0)) ->
  exists h' p last, fold_left linkRaw (map fst ns) (h, 0, None) = (h', p, last) /\ chain h' p ns /\ (forall x, ~ In x (map fst ns) -> h' x = h x).
Proof.
  intros A h [|(x & a) ns] Nd H.
  - exists h, 0, None. split; [reflexivity|]. split; [constructor|reflexivity].
  - cbn [map fst fold_left linkRaw]. destruct (H x a (or_introl eq_refl)) as [Hx Hxa].
    destruct (link_spec ns [] h x x a) as (h' & y & R & C & O'); [econstructor; [exact Hx|exact Hxa|constructor]|exact Nd|intros q b Hq; apply H; now right|].
    exists h', x, (Some y). auto.
Qed.
Print Assumptions C44_raw_block_in_order.
(** Looking a header up returns the first node with that index; writing a list writes its headers in order. *)
Theorem C44_find : forall h p l i n, chain h p l -> (List.length l < n)%nat ->
  exists x b, findList n h p i = Done (x, b) /\
    (b = true -> exists l1 y l2, l = l1 ++ (x, y) :: l2 /\ rId y = i /\ forall z, In z l1 -> rId (snd z) <> i) /\ (b = false -> x = 0 /\ forall z, In z l -> rId (snd z) <> i).
Proof.
  intros h p l i n C Hn. rewrite (find_chain h i l p n C Hn). clear. induction l as [|(y & a) l IH]; cbn [find snd].
  - exists 0, false. split; [reflexivity|]. split; [discriminate|]. intros _. split; [reflexivity|]. intros z [].
  - destruct (N.eqb_spec (rId a) i) as [E|E].
    + exists y, true. split; [reflexivity|]. split; [|discriminate]. intros _. exists [], a, l. split; [reflexivity|]. split; [exact E|]. intros z [].
    + destruct IH as (x & b & E1 & H1 & H2). exists x, b. split; [exact E1|]. split.
      * intros Hb. destruct (H1 Hb) as (l1 & w & l2 & -> & Hw & Hl). exists ((y, a) :: l1), w, l2. split; [reflexivity|]. split; [exact Hw|]. intros z [<-|Hz]; [exact E|exact (Hl z Hz)].
      * intros Hb. destruct (H2 Hb) as (Hx & Hl). split; [exact Hx|]. intros z [<-|Hz]; [exact E|exact (Hl z Hz)].
Qed.
Print Assumptions C44_find.
Theorem C44_write : forall h p l n buf, chain h p l -> (List.length l < n)%nat -> encodeList n h p buf = Done (buf ++ flat_map encRaw (map snd l)).
Proof. intros h p l n buf C Hn. exact (encode_chain h l p n buf C Hn). Qed.
Print Assumptions C44_write.
(** The nodes of a list are distinct, and it is determined by the heap: the lists above are the only ones. *)
Theorem C44_list : forall A (h : heap A) p l, chain h p l -> NoDup (map fst l) /\ forall l', chain h p l' -> l' = l.
Proof. intros A h p l C. split; [exact (chain_nodup _ _ _ C)|]. intros l' C'. symmetry. exact (chain_det _ _ _ C _ C'). Qed.
Print Assumptions C44_list.
(** The header must be a new one: appending a node that is already in the list makes a ring, and writing the list never ends. *)
Theorem C44_same_header_twice_refuted : forall h p l q, chain h p l -> In q (map fst l) ->
  exists h', (forall n, (List.length l <= n)%nat -> appendList n h p q = Done (h', true)) /\ (forall l', ~ chain h' p l') /\ (forall n buf, encodeList n h' p buf = Running).
Proof.
  intros h p l q C Hq. assert (Ne : l <> []) by (intros ->; destruct Hq). destruct (exists_last Ne) as (l0 & (x & a) & ->). exists (setNext h x q).
  destruct (append_inside h p l0 x a q C Hq) as (S0 & Sc & Sp). split; [|split].
  - intros n Hn. apply (append_last _ _ _ _ _ C). rewrite app_length in Hn. cbn in Hn. lia.
  - intros l'. exact (chain_closed _ _ S0 Sc _ _ Sp).
  - intros n buf. exact (encode_closed _ _ S0 Sc _ _ _ Sp).
Qed.
Print Assumptions C44_same_header_twice_refuted.
Example C44_case : let h : heap raw := fun x => if x =? 8 then Some (exEnc, 0) else if x =? 16 then Some (exDate, 0) else if x =? 24 then Some (exSubject, 0) else None in
  NoDup (map fst [(16, exDate); (24, exSubject); (8, exEnc)]) /\ (forall q a, In (q, a) [(16, exDate); (24, exSubject); (8, exEnc)] -> q <> 0 /\ h q = Some (a, 0)) /\
  exists h' p, setAll 3 (h, 0) [16; 24; 8] = Done (h', p) /\ chain h' p [(16, exDate); (24, exSubject); (8, exEnc)] /\
    encodeList 4 h' p [] = Done (s2b "Date: today" ++ CRLF ++ s2b "Subject: hello" ++ CRLF ++ s2b "Content-Encoding: gzip" ++ CRLF) /\ findList 4 h' p SIP_HDR_SUBJECT = Done (24, true).
Proof.
  intros h. assert (Nd : NoDup (map fst [(16, exDate); (24, exSubject); (8, exEnc)])).
  { cbn [map fst]. constructor; [intros [H|[H|[]]]; discriminate|]. constructor; [intros [H|[]]; discriminate|]. constructor; [intros []|]. constructor. }
  assert (H : forall q a, In (q, a) [(16, exDate); (24, exSubject); (8, exEnc)] -> q <> 0 /\ h q = Some (a, 0)).
  { intros q a [[= <- <-]|[[= <- <-]|[[= <- <-]|[]]]]; split; (discriminate || reflexivity). }
  split; [exact Nd|]. split; [exact H|]. destruct (C44_set_in_order _ h _ Nd H 3%nat ltac:(cbn; lia)) as (h' & p & R & C & _). exists h', p. split; [exact R|]. split; [exact C|]. split.
  - rewrite (C44_write h' p _ 4%nat [] C) by (cbn; lia). vm_compute. reflexivity.
  - destruct (C44_find h' p _ SIP_HDR_SUBJECT 4%nat C ltac:(cbn; lia)) as (x & b & E & H1 & H2). rewrite E. destruct b.
    + destruct (H1 eq_refl) as (l1 & y & l2 & El & Ey & Hl). destruct l1 as [|z1 [|z2 [|z3 l1]]]; cbn [app] in El.
      * assert (y = exDate) by congruence. subst y. vm_compute in Ey. discriminate.
      * assert (x = 24) by congruence. subst x. reflexivity.
      * assert (z2 = (24, exSubject)) by congruence. subst z2. exfalso. apply (Hl (24, exSubject)); [right; now left|reflexivity].
      * exfalso. apply (f_equal (@List.length _)) in El. cbn [List.length] in El. rewrite app_length in El. cbn in El. lia.
    + exfalso. destruct (H2 eq_refl) as [_ H3]. apply (H3 (24, exSubject)); [right; now left|reflexivity].
Qed.
Print Assumptions C44_append_to_nothing.
