(** The tables of the contexts: a table is a sheet of settings, which contexts share until they clone it. *)
From Verif Require Import Base BaseLemmas MethodTree HeaderTree RawHeaders Monad Inv Msg MsgRt Config.

(** ** The specification: sheets *)
(** Each context has one sheet of settings; several contexts can have the same one. Sheet 0 is the one of the package. *)
Record sheetWorld := mksw { sheets : list (nat -> bool); whose : list nat }.
Definition described (i : nat) : bool := Nat.ltb i headerTypes && match infoOf (N.of_nat i) with Some _ => true | None => false end.
Definition update (f : nat -> bool) (i : nat) (b : bool) : nat -> bool := fun j => if Nat.eqb j i then b else f j.
Definition sstep (w : sheetWorld) (o : op) : option sheetWorld :=
  match o with
  | NewCtx => Some (mksw (sheets w) (whose w ++ [O]))
  | SetNeed c i b =>
      match nth_error (whose w) c with
      | Some s => if described i then Some (mksw (setNth (sheets w) s (update (nth s (sheets w) (fun _ => false)) i b)) (whose w)) else None
      | None => None
      end
  | CloneFrom c d =>
      match nth_error (whose w) c, nth_error (whose w) d with
      | Some _, Some s => Some (mksw (sheets w ++ [nth s (sheets w) (fun _ => false)]) (setNth (whose w) c (List.length (sheets w))))
      | _, _ => None
      end
  | CopyFrom c d =>
      match nth_error (whose w) c, nth_error (whose w) d with
      | Some _, Some s => Some (mksw (sheets w) (setNth (whose w) c s))
      | _, _ => None
      end
  end.
Fixpoint srun (w : sheetWorld) (os : list op) : option sheetWorld :=
  match os with
  | [] => Some w
  | o :: os' => match sstep w o with Some w' => srun w' os' | None => None end
  end.
Definition parsedByDefault (i : nat) : bool := match infoOf (N.of_nat i) with Some x => match hiKind x with Some _ => true | None => false end | None => false end.
Definition sstart : sheetWorld := mksw [parsedByDefault] [].
Definition setting (w : sheetWorld) (c i : nat) : option bool :=
  match nth_error (whose w) c with
  | Some s => if described i then Some (nth s (sheets w) (fun _ => false) i) else None
  | None => None
  end.

(** ** Lists *)
Lemma nth_error_setNth {A} (l : list A) i x j : nth_error (setNth l i x) j = if Nat.eqb j i then (if Nat.ltb i (List.length l) then Some x else None) else nth_error l j.
Proof.
  revert i j. induction l as [|y l IH]; intros i j; [destruct i, j; cbn; try reflexivity; now destruct (Nat.eqb j i)|]. destruct i as [|i]; [now destruct j|]. destruct j as [|j]; [reflexivity|]. cbn [setNth nth_error]. rewrite IH. reflexivity.
Qed.
Lemma setNth_length {A} (l : list A) i x : List.length (setNth l i x) = List.length l.
Proof. revert i. induction l as [|y l IH]; intros [|i]; cbn; auto. Qed.
Lemma nth_error_snoc {A} (l : list A) x j : nth_error (l ++ [x]) j = if Nat.eqb j (List.length l) then Some x else nth_error l j.
Proof.
  destruct (Nat.eqb_spec j (List.length l)) as [->|N0]; [rewrite nth_error_app2, Nat.sub_diag by lia; reflexivity|]. destruct (Nat.lt_ge_cases j (List.length l)) as [H|H]; [now apply nth_error_app1|].
  rewrite nth_error_app2 by lia. rewrite (proj2 (nth_error_None l j)) by lia. apply nth_error_None. cbn. lia.
Qed.
Lemma nth_of {A} (l : list A) i x d : nth_error l i = Some x -> nth i l d = x. Proof. revert i. induction l as [|y l IH]; intros [|i] E; cbn in *; try discriminate; [now injection E|auto]. Qed.
Lemma error_bound {A} (l : list A) i x : nth_error l i = Some x -> (i < List.length l)%nat. Proof. intros E. apply nth_error_Some. congruence. Qed.
Definition entry (t : table) (i : nat) : option nat := match nth_error t i with Some (Some p) => Some p | _ => None end.

(** ** Cloning *)
Lemma clone_ok : forall t h u h', (forall i p, entry t i = Some p -> (p < List.length h)%nat) -> cloneTable h t = (u, h') ->
  (exists ext, h' = h ++ ext) /\
  (forall i, entry u i = None <-> entry t i = None) /\
  (forall i p, entry u i = Some p -> (List.length h <= p < List.length h')%nat /\ exists q, entry t i = Some q /\ nth_error h' p = nth_error h q) /\
  (forall i j p, entry u i = Some p -> entry u j = Some p -> i = j).
Proof.
  induction t as [|[p|] t IH]; intros h u h' Hb E; cbn [cloneTable] in E.
  - injection E as <- <-. split; [exists []; now rewrite app_nil_r|]. split; [reflexivity|]. split; intros [|i]; discriminate.
  - destruct (cloneTable (h ++ [nth p h false]) t) as [u1 h1] eqn:E1. injection E as <- <-. assert (Hp : (p < List.length h)%nat) by exact (Hb O p eq_refl).
    assert (Hb1 : forall i q, entry t i = Some q -> (q < List.length (h ++ [nth p h false]))%nat) by (intros i q Q; pose proof (Hb (S i) q Q); rewrite app_length; cbn; lia).
    destruct (IH _ _ _ Hb1 E1) as ((ext & ->) & I1 & I2 & I3).
    split; [eexists; rewrite <- app_assoc; reflexivity|]. split; [intros [|i]; [cbn; split; discriminate|apply I1]|]. split.
    + intros [|i] q Q.
      * cbn in Q. injection Q as <-. split; [rewrite !app_length; cbn; lia|]. exists p. split; [reflexivity|]. rewrite <- app_assoc, nth_error_app2, Nat.sub_diag by lia. cbn. symmetry. apply nth_error_nth'. exact Hp.
      * destruct (I2 i q Q) as (B & q' & Q1 & Q2). rewrite !app_length in B. cbn in B. split; [rewrite !app_length; cbn; lia|]. exists q'. split; [exact Q1|]. rewrite Q2. apply nth_error_app1. exact (Hb (S i) q' Q1).
    + intros [|i] [|j] q Qi Qj; [reflexivity| | |f_equal; exact (I3 i j q Qi Qj)]; exfalso.
      * cbn in Qi. injection Qi as <-. destruct (I2 j _ Qj) as (B & _). repeat rewrite app_length in B. cbn [List.length] in B. lia.
      * cbn in Qj. injection Qj as <-. destruct (I2 i _ Qi) as (B & _). repeat rewrite app_length in B. cbn [List.length] in B. lia.
  - destruct (cloneTable h t) as [u1 h1] eqn:E1. injection E as <- <-. destruct (IH _ _ _ (fun i q Q => Hb (S i) q Q) E1) as (Ex & I1 & I2 & I3). split; [exact Ex|]. split; [intros [|i]; [split; reflexivity|apply I1]|]. split.
    + intros [|i] q Q; [discriminate|]. exact (I2 i q Q).
    + intros [|i] [|j] q Qi Qj; try discriminate. f_equal. exact (I3 i j q Qi Qj).
Qed.

(** ** The heap holds the sheets *)
Record holds (w : world) (v : sheetWorld) (ts : list table) : Prop := mkholds {
  h_len : List.length ts = List.length (sheets v);
  h_global : nth_error ts 0 = Some (wGlobal w);
  h_ctxs : wCtxs w = map (fun s => nth s ts []) (whose v);
  h_whose : forall c s, nth_error (whose v) c = Some s -> (s < List.length ts)%nat;
  h_nil : forall s t i, nth_error ts s = Some t -> (entry t i = None <-> described i = false);
  h_val : forall s t i p, nth_error ts s = Some t -> entry t i = Some p -> nth_error (wHeap w) p = Some (nth s (sheets v) (fun _ => false) i);
  h_inj : forall s s' t t' i j p, nth_error ts s = Some t -> nth_error ts s' = Some t' -> entry t i = Some p -> entry t' j = Some p -> s = s' /\ i = j }.
Lemma holds_ctx w v ts c : holds w v ts -> nth_error (wCtxs w) c = match nth_error (whose v) c with Some s => nth_error ts s | None => None end.
Proof.
  intros H. rewrite (h_ctxs _ _ _ H), nth_error_map. destruct (nth_error (whose v) c) as [s|] eqn:E; [|reflexivity]. cbn. symmetry. apply nth_error_nth'. exact (h_whose _ _ _ H c s E).
Qed.
Lemma holds_setting w v ts : holds w v ts -> forall c i, needAt w c i = setting v c i.
Proof.
  intros H c i. unfold needAt, setting. rewrite (holds_ctx _ _ _ c H). destruct (nth_error (whose v) c) as [s|] eqn:Ec; [|reflexivity]. destruct (nth_error ts s) as [t|] eqn:Et; [|apply nth_error_None in Et; pose proof (h_whose _ _ _ H c s Ec); lia].
  change (match nth_error t i with Some (Some p) => nth_error (wHeap w) p | _ => None end = if described i then Some (nth s (sheets v) (fun _ => false) i) else None).
  pose proof (h_nil _ _ _ H s t i Et) as Hn. pose proof (fun p => h_val _ _ _ H s t i p Et) as Hv. unfold entry in Hn, Hv. destruct (nth_error t i) as [[p|]|].
  - rewrite (Hv p eq_refl). destruct (described i); [reflexivity|]. destruct Hn as [_ Hn]. discriminate (Hn eq_refl).
  - now rewrite (proj1 Hn eq_refl).
  - now rewrite (proj1 Hn eq_refl).
Qed.
Lemma holds_step w v ts o : holds w v ts -> match step w o, sstep v o with Some w', Some v' => exists ts', holds w' v' ts' | None, None => True | _, _ => False end.
Proof.
  intros H. destruct o as [|c i b|c d|c d]; cbn [step sstep].
  - exists ts. destruct H as [L G C W Nl V J]. constructor; cbn [wHeap wGlobal wCtxs sheets whose]; auto.
    + rewrite C, map_app. cbn. f_equal. f_equal. symmetry. now apply nth_of.
    + intros k s E. rewrite nth_error_snoc in E. destruct (Nat.eqb k _); [injection E as <-; exact (error_bound _ _ _ G)|exact (W _ _ E)].
  - rewrite (holds_ctx _ _ _ c H). destruct (nth_error (whose v) c) as [s|] eqn:Ec; [|exact Logic.I]. destruct (nth_error ts s) as [t|] eqn:Et; [|apply nth_error_None in Et; pose proof (h_whose _ _ _ H c s Ec); lia].
    pose proof (h_nil _ _ _ H s t i Et) as Hn. pose proof (fun p => h_val _ _ _ H s t i p Et) as Hv. unfold entry in Hn, Hv. destruct (nth_error t i) as [[p|]|] eqn:Ei.
    2,3: rewrite (proj1 Hn eq_refl); exact Logic.I.
    destruct (described i) eqn:Hd; [|destruct Hn as [_ Hn]; discriminate (Hn eq_refl)]. assert (Hp := Hv p eq_refl). assert (Ep : entry t i = Some p) by (unfold entry; now rewrite Ei).
    exists ts. destruct H as [L G C W Nl V J]. constructor; cbn [wHeap wGlobal wCtxs sheets whose]; auto.
    + now rewrite setNth_length.
    + intros s' t' j q Es Eq. rewrite nth_error_setNth. destruct (Nat.eqb_spec q p) as [->|Nq].
      * destruct (J _ _ _ _ _ _ _ Es Et Eq Ep) as [-> ->]. rewrite (proj2 (Nat.ltb_lt _ _) (error_bound _ _ _ Hp)). rewrite setNth_nth by (rewrite <- L; exact (error_bound _ _ _ Et)). unfold update. now rewrite Nat.eqb_refl.
      * rewrite (V _ _ _ _ Es Eq). f_equal. destruct (Nat.eq_dec s' s) as [->|Ns].
        -- rewrite setNth_nth by (rewrite <- L; exact (error_bound _ _ _ Et)). unfold update. destruct (Nat.eqb_spec j i) as [->|]; [|reflexivity]. exfalso. apply Nq. rewrite Et in Es. injection Es as <-. congruence.
        -- now rewrite setNth_nth_ne by congruence.
  - rewrite !(holds_ctx _ _ _ _ H). destruct (nth_error (whose v) c) as [s0|] eqn:Ec; [|exact Logic.I]. destruct (nth_error ts s0) as [t0|] eqn:Et0; [|apply nth_error_None in Et0; pose proof (h_whose _ _ _ H c s0 Ec); lia].
    destruct (nth_error (whose v) d) as [s|] eqn:Ed; [|exact Logic.I]. destruct (nth_error ts s) as [t|] eqn:Et; [|apply nth_error_None in Et; pose proof (h_whose _ _ _ H d s Ed); lia].
    destruct (cloneTable (wHeap w) t) as [u h'] eqn:Eu. destruct H as [L G C W Nl V J].
    assert (Hb : forall s1 t1 i p, nth_error ts s1 = Some t1 -> entry t1 i = Some p -> (p < List.length (wHeap w))%nat) by (intros s1 t1 i p E1 E2; exact (error_bound _ _ _ (V _ _ _ _ E1 E2))).
    destruct (clone_ok _ _ _ _ (fun i p => Hb s t i p Et) Eu) as ((ext & Eh) & I1 & I2 & I3). exists (ts ++ [u]). constructor; cbn [wHeap wGlobal wCtxs sheets whose].
    + rewrite !app_length. cbn. congruence.
    + rewrite nth_error_app1 by exact (error_bound _ _ _ G). exact G.
    + rewrite C. apply (nth_ext _ _ [] []).
      { now rewrite setNth_length, !map_length, setNth_length. }
      intros k Hk. rewrite setNth_length, map_length in Hk. apply nth_error_nth' with (d := O) in Hk as Hk'. 
      assert (Q1 : nth_error (setNth (map (fun s1 => nth s1 ts []) (whose v)) c u) k = Some (if Nat.eqb k c then u else nth (nth k (whose v) O) ts [])).
      { rewrite nth_error_setNth, map_length. destruct (Nat.eqb_spec k c) as [->|]; [now rewrite (proj2 (Nat.ltb_lt _ _) Hk)|]. now rewrite nth_error_map, Hk'. }
      rewrite (nth_of _ _ _ [] Q1). symmetry. apply nth_of. rewrite nth_error_map, nth_error_setNth. destruct (Nat.eqb_spec k c) as [->|].
      * rewrite (proj2 (Nat.ltb_lt _ _) Hk). cbn. rewrite <- L. f_equal. apply nth_of. rewrite nth_error_snoc, Nat.eqb_refl. reflexivity.
      * rewrite Hk'. cbn. f_equal. rewrite app_nth1; [reflexivity|]. exact (W _ _ Hk').
    + intros k s1 E. rewrite app_length. cbn. rewrite nth_error_setNth in E. destruct (Nat.eqb k c); [destruct (Nat.ltb _ _); [injection E as <-; lia|discriminate]|]. pose proof (W _ _ E). lia.
    + intros s1 t1 i E. rewrite nth_error_snoc in E. destruct (Nat.eqb s1 _); [|exact (Nl _ _ _ E)]. injection E as <-. rewrite I1. exact (Nl _ _ _ Et).
    + intros s1 t1 i p E Ep. rewrite nth_error_snoc in E. destruct (Nat.eqb_spec s1 (List.length ts)) as [->|Ns].
      * injection E as <-. destruct (I2 _ _ Ep) as (_ & q & Eq & ->). rewrite (V _ _ _ _ Et Eq). f_equal. rewrite L, app_nth2, Nat.sub_diag by lia. reflexivity.
      * rewrite Eh, nth_error_app1 by exact (Hb _ _ _ _ E Ep). rewrite (V _ _ _ _ E Ep). f_equal. rewrite app_nth1; [reflexivity|]. rewrite <- L. exact (error_bound _ _ _ E).
    + intros s1 s2 t1 t2 i j p E1 E2 P1 P2. rewrite nth_error_snoc in E1, E2. destruct (Nat.eqb_spec s1 (List.length ts)) as [->|N1], (Nat.eqb_spec s2 (List.length ts)) as [->|N2].
      * injection E1 as <-. injection E2 as <-. split; [reflexivity|]. exact (I3 _ _ _ P1 P2).
      * injection E1 as <-. exfalso. pose proof (proj1 (I2 _ _ P1)). pose proof (Hb _ _ _ _ E2 P2). lia.
      * injection E2 as <-. exfalso. pose proof (proj1 (I2 _ _ P2)). pose proof (Hb _ _ _ _ E1 P1). lia.
      * exact (J _ _ _ _ _ _ _ E1 E2 P1 P2).
  - rewrite !(holds_ctx _ _ _ _ H). destruct (nth_error (whose v) c) as [s0|] eqn:Ec; [|exact Logic.I]. destruct (nth_error ts s0) as [t0|] eqn:Et0; [|apply nth_error_None in Et0; pose proof (h_whose _ _ _ H c s0 Ec); lia].
    destruct (nth_error (whose v) d) as [s|] eqn:Ed; [|exact Logic.I]. destruct (nth_error ts s) as [t|] eqn:Et; [|apply nth_error_None in Et; pose proof (h_whose _ _ _ H d s Ed); lia].
    exists ts. destruct H as [L G C W Nl V J]. constructor; cbn [wHeap wGlobal wCtxs sheets whose]; auto.
    + rewrite C. apply (nth_ext _ _ [] []).
      { now rewrite setNth_length, !map_length, setNth_length. }
      intros k Hk. rewrite setNth_length, map_length in Hk. apply nth_error_nth' with (d := O) in Hk as Hk'.
      assert (Q1 : nth_error (setNth (map (fun s1 => nth s1 ts []) (whose v)) c t) k = Some (if Nat.eqb k c then t else nth (nth k (whose v) O) ts [])).
      { rewrite nth_error_setNth, map_length. destruct (Nat.eqb_spec k c) as [->|]; [now rewrite (proj2 (Nat.ltb_lt _ _) Hk)|]. now rewrite nth_error_map, Hk'. }
      rewrite (nth_of _ _ _ [] Q1). symmetry. apply nth_of. rewrite nth_error_map, nth_error_setNth. destruct (Nat.eqb_spec k c) as [->|].
      * rewrite (proj2 (Nat.ltb_lt _ _) Hk). cbn. f_equal. now apply nth_of.
      * rewrite Hk'. reflexivity.
    + intros k s1 E. rewrite nth_error_setNth in E. destruct (Nat.eqb k c); [destruct (Nat.ltb _ _); [injection E as <-; exact (W _ _ Ed)|discriminate]|]. exact (W _ _ E).
Qed.
Lemma init_ok : forall n i h t h', initTable n i h = (t, h') ->
  (exists ext, h' = h ++ ext) /\
  (forall j, entry t j = None <-> (Nat.ltb j n && match infoOf (i + N.of_nat j) with Some _ => true | None => false end)%bool = false) /\
  (forall j p, entry t j = Some p -> (List.length h <= p < List.length h')%nat /\ nth_error h' p = Some (match infoOf (i + N.of_nat j) with Some x => match hiKind x with Some _ => true | None => false end | None => false end)) /\
  (forall j k p, entry t j = Some p -> entry t k = Some p -> j = k).
Proof.
  assert (Sh : forall i j, i + N.of_nat (S j) = i + 1 + N.of_nat j) by (intros; lia).
  induction n as [|n IH]; intros i h t h' E; cbn [initTable] in E.
  - injection E as <- <-. split; [exists []; now rewrite app_nil_r|]. split; [intros j; destruct j; split; reflexivity|]. split; intros [|j]; discriminate.
  - destruct (infoOf i) as [x|] eqn:Ei.
    + destruct (initTable n (i + 1) (h ++ [_])) as [u1 h1] eqn:E1. injection E as <- <-. destruct (IH _ _ _ _ E1) as ((ext & ->) & I1 & I2 & I3).
      split; [eexists; rewrite <- app_assoc; reflexivity|]. split; [|split].
      * intros [|j]; [unfold entry; cbn [nth_error]; change (N.of_nat 0) with 0; rewrite N.add_0_r, Ei; cbn; split; discriminate|]. rewrite Sh. apply I1.
      * intros [|j] p Q; [|rewrite Sh; destruct (I2 j p Q) as (B & Q2); split; [repeat rewrite app_length in B; repeat rewrite app_length; cbn [List.length] in *; lia|exact Q2]]. cbn in Q. injection Q as <-. change (N.of_nat 0) with 0. rewrite N.add_0_r, Ei. split; [rewrite !app_length; cbn; lia|]. rewrite <- app_assoc, nth_error_app2, Nat.sub_diag by lia. reflexivity.
      * intros [|j] [|k] p Qj Qk; [reflexivity| | |f_equal; exact (I3 j k p Qj Qk)]; exfalso.
        -- cbn in Qj. injection Qj as <-. destruct (I2 k _ Qk) as (B & _). repeat rewrite app_length in B. cbn [List.length] in B. lia.
        -- cbn in Qk. injection Qk as <-. destruct (I2 j _ Qj) as (B & _). repeat rewrite app_length in B. cbn [List.length] in B. lia.
    + destruct (initTable n (i + 1) h) as [u1 h1] eqn:E1. injection E as <- <-. destruct (IH _ _ _ _ E1) as (Ex & I1 & I2 & I3). split; [exact Ex|]. split; [|split].
      * intros [|j]; [unfold entry; cbn [nth_error]; change (N.of_nat 0) with 0; rewrite N.add_0_r, Ei; cbn; split; reflexivity|]. rewrite Sh. apply I1.
      * intros [|j] p Q; [discriminate|]. rewrite Sh. exact (I2 j p Q).
      * intros [|j] [|k] p Qj Qk; try discriminate. f_equal. exact (I3 j k p Qj Qk).
Qed.
Lemma holds_start : exists ts, holds start sstart ts.
Proof.
  unfold start. destruct (initTable headerTypes 0 []) as [t h] eqn:E. destruct (init_ok _ _ _ _ _ E) as (_ & I1 & I2 & I3). exists [t].
  assert (One : forall s t', nth_error [t] s = Some t' -> s = O /\ t' = t) by (intros [|[|s]] t' Es; try discriminate; injection Es as <-; auto).
  constructor; cbn [wHeap wGlobal wCtxs sheets whose sstart]; try reflexivity.
  - intros [|c] s Es; discriminate.
  - intros s t' i Es. apply One in Es as [-> ->]. rewrite I1. reflexivity.
  - intros s t' i p Es Ep. apply One in Es as [-> ->]. destruct (I2 _ _ Ep) as (_ & ->). reflexivity.
  - intros s s' t1 t2 i j p E1 E2 P1 P2. apply One in E1 as [-> ->]. apply One in E2 as [-> ->]. split; [reflexivity|]. exact (I3 _ _ _ P1 P2).
Qed.
Lemma holds_run os : forall w v ts, holds w v ts -> match run w os, srun v os with Some w', Some v' => exists ts', holds w' v' ts' | None, None => True | _, _ => False end.
Proof.
  induction os as [|o os IH]; intros w v ts H; cbn [run srun]; [exists ts; exact H|]. pose proof (holds_step _ _ _ o H) as Hs. destruct (step w o) as [w1|], (sstep v o) as [v1|]; try contradiction; [|exact Logic.I]. destruct Hs as (ts1 & H1). exact (IH _ _ _ H1).
Qed.
Lemma run_sheets os w : run start os = Some w -> exists v ts, srun sstart os = Some v /\ holds w v ts.
Proof. intros E. destruct holds_start as (ts & H). pose proof (holds_run os _ _ _ H) as R. rewrite E in R. destruct (srun sstart os) as [v|]; [|contradiction]. destruct R as (ts' & R). eauto. Qed.

(** ** Histories of sheets *)
(** Context [c] alone has its sheet. *)
Definition owns (v : sheetWorld) (c : nat) : Prop := exists s, nth_error (whose v) c = Some s /\ (0 < s < List.length (sheets v))%nat /\ forall c', nth_error (whose v) c' = Some s -> c' = c.
(** A step that neither changes the settings or the table of context [c] nor hands them on. *)
Definition leavesAlone (c : nat) (o : op) : Prop :=
  match o with NewCtx => True | SetNeed c' _ _ => c' <> c | CloneFrom c' d => c' <> c /\ d <> c | CopyFrom c' d => c' <> c /\ d <> c end.
Definition bounded (v : sheetWorld) : Prop := (0 < List.length (sheets v))%nat /\ forall c s, nth_error (whose v) c = Some s -> (s < List.length (sheets v))%nat.
Lemma holds_bounded w v ts : holds w v ts -> bounded v.
Proof. intros H. split; [rewrite <- (h_len _ _ _ H); exact (error_bound _ _ _ (h_global _ _ _ H))|]. intros c s E. rewrite <- (h_len _ _ _ H). exact (h_whose _ _ _ H c s E). Qed.
Lemma clone_owns v c d v' : bounded v -> sstep v (CloneFrom c d) = Some v' -> owns v' c.
Proof.
  intros (B0 & B) E. cbn in E. destruct (nth_error (whose v) c) as [s0|] eqn:Ec; [|discriminate]. destruct (nth_error (whose v) d) as [s|] eqn:Ed; [|discriminate]. injection E as <-. exists (List.length (sheets v)). cbn [sheets whose].
  split; [now rewrite nth_error_setNth, Nat.eqb_refl, (proj2 (Nat.ltb_lt _ _) (error_bound _ _ _ Ec))|]. split; [rewrite app_length; cbn; lia|]. intros c' E. rewrite nth_error_setNth in E. destruct (Nat.eqb_spec c' c) as [Eq|]; [exact Eq|].
  pose proof (B _ _ E). lia.
Qed.
Lemma clone_setting v c d v' : bounded v -> sstep v (CloneFrom c d) = Some v' -> (forall i, setting v' c i = setting v d i) /\ forall c' i, c' <> c -> setting v' c' i = setting v c' i.
Proof.
  intros (B0 & B) E. cbn in E. destruct (nth_error (whose v) c) as [s0|] eqn:Ec; [|discriminate]. destruct (nth_error (whose v) d) as [s|] eqn:Ed; [|discriminate]. injection E as <-. split.
  - intros i. unfold setting. cbn [sheets whose]. rewrite nth_error_setNth, Nat.eqb_refl, (proj2 (Nat.ltb_lt _ _) (error_bound _ _ _ Ec)), Ed. now rewrite app_nth2, Nat.sub_diag by lia.
  - intros c' i Hc. unfold setting. cbn [sheets whose]. rewrite nth_error_setNth. destruct (Nat.eqb_spec c' c) as [|_]; [contradiction|]. destruct (nth_error (whose v) c') as [s'|] eqn:E'; [|reflexivity]. now rewrite app_nth1 by exact (B _ _ E').
Qed.
Lemma sstep_bounded v o v' : bounded v -> sstep v o = Some v' -> bounded v'.
Proof.
  intros (B0 & B) E. destruct o as [|c i b|c d|c d]; cbn in E.
  - injection E as <-. split; [exact B0|]. cbn. intros c s Es. rewrite nth_error_snoc in Es. destruct (Nat.eqb _ _); [injection Es as <-; exact B0|exact (B _ _ Es)].
  - destruct (nth_error (whose v) c); [|discriminate]. destruct (described i); [|discriminate]. injection E as <-. unfold bounded. cbn. now rewrite setNth_length.
  - destruct (nth_error (whose v) c) as [s0|]; [|discriminate]. destruct (nth_error (whose v) d) as [s|] eqn:Ed; [|discriminate]. injection E as <-. unfold bounded. cbn. rewrite app_length. cbn. split; [lia|].
    intros c' s' Es. rewrite nth_error_setNth in Es. destruct (Nat.eqb c' c); [destruct (Nat.ltb _ _); [injection Es as <-; lia|discriminate]|]. pose proof (B _ _ Es). lia.
  - destruct (nth_error (whose v) c) as [s0|]; [|discriminate]. destruct (nth_error (whose v) d) as [s|] eqn:Ed; [|discriminate]. injection E as <-. unfold bounded. cbn. split; [exact B0|].
    intros c' s' Es. rewrite nth_error_setNth in Es. destruct (Nat.eqb c' c); [destruct (Nat.ltb _ _); [injection Es as <-; exact (B _ _ Ed)|discriminate]|]. exact (B _ _ Es).
Qed.
Lemma alone_step v o v' c : bounded v -> owns v c -> leavesAlone c o -> sstep v o = Some v' -> owns v' c /\ forall i, setting v' c i = setting v c i.
Proof.
  intros (B0 & B) (s & Es & Hs & Hu) L E. destruct o as [|c0 i b|c0 d|c0 d]; cbn in E, L.
  - injection E as <-. assert (Q : nth_error (whose v ++ [O]) c = Some s) by (rewrite nth_error_snoc; destruct (Nat.eqb_spec c (List.length (whose v))) as [Eq|_]; [pose proof (error_bound _ _ _ Es); lia|exact Es]).
    split; [|intros i; unfold setting; cbn [sheets whose]; now rewrite Q, Es]. exists s. cbn [sheets whose]. split; [exact Q|]. split; [exact Hs|]. intros c' E'. rewrite nth_error_snoc in E'. destruct (Nat.eqb _ _); [injection E' as <-; lia|exact (Hu _ E')].
  - destruct (nth_error (whose v) c0) as [s0|] eqn:E0; [|discriminate]. destruct (described i); [|discriminate]. injection E as <-. assert (N0 : s0 <> s) by (intros ->; exact (L (Hu _ E0))).
    split; [exists s; cbn [sheets whose]; rewrite setNth_length; auto|]. intros j. unfold setting. cbn [sheets whose]. rewrite Es. destruct (described j); [|reflexivity]. now rewrite setNth_nth_ne by exact N0.
  - destruct L as [Lc Ld]. destruct (nth_error (whose v) c0) as [s0|] eqn:E0; [|discriminate]. destruct (nth_error (whose v) d) as [s1|] eqn:Ed; [|discriminate]. injection E as <-.
    assert (Q : nth_error (setNth (whose v) c0 (List.length (sheets v))) c = Some s) by (rewrite nth_error_setNth; destruct (Nat.eqb_spec c c0) as [Eq|_]; [congruence|exact Es]). split.
    + exists s. cbn [sheets whose]. split; [exact Q|]. rewrite app_length. cbn. split; [lia|]. intros c' E'. rewrite nth_error_setNth in E'. destruct (Nat.eqb c' c0); [destruct (Nat.ltb _ _); [injection E' as <-; lia|discriminate]|exact (Hu _ E')].
    + intros i. unfold setting. cbn [sheets whose]. rewrite Q, Es, app_nth1 by lia. reflexivity.
  - destruct L as [Lc Ld]. destruct (nth_error (whose v) c0) as [s0|] eqn:E0; [|discriminate]. destruct (nth_error (whose v) d) as [s1|] eqn:Ed; [|discriminate]. injection E as <-.
    assert (Q : nth_error (setNth (whose v) c0 s1) c = Some s) by (rewrite nth_error_setNth; destruct (Nat.eqb_spec c c0) as [Eq|_]; [congruence|exact Es]). split.
    + exists s. cbn [sheets whose]. split; [exact Q|]. split; [exact Hs|]. intros c' E'. rewrite nth_error_setNth in E'. destruct (Nat.eqb c' c0); [destruct (Nat.ltb _ _); [injection E' as <-|discriminate]|exact (Hu _ E')]. exfalso. exact (Ld (Hu _ Ed)).
    + intros i. unfold setting. cbn [sheets whose]. now rewrite Q, Es.
Qed.
Lemma alone_run os : forall v v' c, bounded v -> owns v c -> Forall (leavesAlone c) os -> srun v os = Some v' -> forall i, setting v' c i = setting v c i.
Proof.
  induction os as [|o os IH]; intros v v' c B Ow L E i; cbn [srun] in E; [now injection E as <-|]. inversion L as [|? ? L1 L2]; subst. destruct (sstep v o) as [v1|] eqn:E1; [|discriminate]. destruct (alone_step _ _ _ _ B Ow L1 E1) as (O1 & S1).
  rewrite (IH _ _ _ (sstep_bounded _ _ _ B E1) O1 L2 E i). apply S1.
Qed.
(** Two histories of which one has additional settings made through [c]: they have the same sheets but that of [c]. *)
Definition own (c : nat) (o : op) : bool := match o with SetNeed c' _ _ => Nat.eqb c' c | _ => false end.
Record but (c : nat) (v v' : sheetWorld) : Prop := mkbut {
  b_whose : whose v' = whose v;
  b_len : List.length (sheets v') = List.length (sheets v);
  b_sheet : forall s, nth_error (whose v) c <> Some s -> nth s (sheets v') (fun _ => false) = nth s (sheets v) (fun _ => false) }.
Lemma but_step c o v v' : bounded v -> owns v c -> leavesAlone c o -> but c v v' -> match sstep v o, sstep v' o with Some w, Some w' => but c w w' | None, None => True | _, _ => False end.
Proof.
  intros (B0 & B) (s & Es & Hs & Hu) L [W Ln Sh]. destruct o as [|c0 i b|c0 d|c0 d]; cbn [sstep] in *; cbn in L; rewrite ?W.
  - constructor; cbn [sheets whose]; auto. intros t Ht. apply Sh. intros Q. apply Ht. rewrite nth_error_snoc. destruct (Nat.eqb_spec c (List.length (whose v))) as [Eq|_]; [pose proof (error_bound _ _ _ Es); lia|exact Q].
  - destruct (nth_error (whose v) c0) as [s0|] eqn:E0; [|exact Logic.I]. destruct (described i); [|exact Logic.I]. assert (N0 : s0 <> s) by (intros ->; exact (L (Hu _ E0))). constructor; cbn [sheets whose]; [reflexivity|now rewrite !setNth_length|].
    intros t Ht. destruct (Nat.eq_dec s0 t) as [<-|Nt]; [|rewrite !setNth_nth_ne by exact Nt; now apply Sh]. rewrite !setNth_nth by (rewrite ?Ln; exact (B _ _ E0)). now rewrite Sh.
  - destruct L as [Lc Ld]. destruct (nth_error (whose v) c0) as [s0|] eqn:E0; [|exact Logic.I]. destruct (nth_error (whose v) d) as [s1|] eqn:Ed; [|exact Logic.I]. constructor; cbn [sheets whose]; [now rewrite Ln|rewrite !app_length; cbn; lia|].
    intros t Ht. assert (Q : nth_error (whose v) c <> Some t). { intros Q. apply Ht. rewrite nth_error_setNth. destruct (Nat.eqb_spec c c0) as [Eq|_]; [congruence|exact Q]. }
    assert (N1 : nth_error (whose v) c <> Some s1) by (intros Q1; rewrite Es in Q1; injection Q1 as <-; exact (Ld (Hu _ Ed))).
    destruct (Nat.lt_ge_cases t (List.length (sheets v))) as [Hl|Hl]; [rewrite !app_nth1 by lia; now apply Sh|]. rewrite !app_nth2 by lia. rewrite Ln, (Sh _ N1). reflexivity.
  - destruct L as [Lc Ld]. destruct (nth_error (whose v) c0) as [s0|] eqn:E0; [|exact Logic.I]. destruct (nth_error (whose v) d) as [s1|] eqn:Ed; [|exact Logic.I]. constructor; cbn [sheets whose]; [reflexivity|exact Ln|].
    intros t Ht. apply Sh. intros Q. apply Ht. rewrite nth_error_setNth. destruct (Nat.eqb_spec c c0) as [Eq|_]; [congruence|exact Q].
Qed.
Lemma own_step c o v v' w : bounded v -> owns v c -> own c o = true -> but c v v' -> sstep v o = Some w -> but c w v' /\ owns w c.
Proof.
  intros (B0 & B) (s & Es & Hs & Hu) L [W Ln Sh] E. destruct o as [|c0 i b|c0 d|c0 d]; try discriminate. cbn in L. apply Nat.eqb_eq in L. subst c0. cbn in E. rewrite Es in E. destruct (described i); [|discriminate]. injection E as <-. split.
  - constructor; cbn [sheets whose]; [exact W|now rewrite setNth_length|]. intros t Ht. rewrite (Sh t Ht). symmetry. apply setNth_nth_ne. intros ->. contradiction.
  - exists s. cbn [sheets whose]. rewrite setNth_length. auto.
Qed.
Lemma but_run os c : forall v v' w, bounded v -> owns v c -> Forall (fun o => own c o = true \/ leavesAlone c o) os -> but c v v' -> srun v os = Some w ->
  exists w', srun v' (filter (fun o => negb (own c o)) os) = Some w' /\ but c w w' /\ owns w c.
Proof.
  induction os as [|o os IH]; intros v v' w B Ow L H E; cbn [srun] in E.
  - injection E as <-. exists v'. split; [reflexivity|]. split; [exact H|exact Ow].
  - inversion L as [|? ? L1 L2]; subst. destruct (sstep v o) as [v1|] eqn:E1; [|discriminate]. cbn [filter]. destruct (own c o) eqn:Eo; cbn [negb].
    + destruct (own_step _ _ _ _ _ B Ow Eo H E1) as (H1 & O1). exact (IH _ _ _ (sstep_bounded _ _ _ B E1) O1 L2 H1 E).
    + destruct L1 as [L1|L1]; [congruence|]. pose proof (but_step c o v v' B Ow L1 H) as Hs. rewrite E1 in Hs. cbn [srun]. destruct (sstep v' o) as [v1'|]; [|contradiction]. exact (IH _ _ _ (sstep_bounded _ _ _ B E1) (proj1 (alone_step _ _ _ _ B Ow L1 E1)) L2 Hs E).
Qed.
Lemma but_setting c v v' c' i : owns v c -> but c v v' -> c' <> c -> setting v' c' i = setting v c' i.
Proof.
  intros (s & Es & Hs & Hu) [W Ln Sh] Hc. unfold setting. rewrite W. destruct (nth_error (whose v) c') as [s'|] eqn:E'; [|reflexivity]. destruct (described i); [|reflexivity]. rewrite Sh; [reflexivity|]. intros Q. rewrite Es in Q. injection Q as <-. exact (Hc (Hu _ E')).
Qed.
(** Without cloning or copying everything is on sheet 0. *)
Lemma plain_run os : forall v w, Forall (fun s => s = O) (whose v) -> Forall (fun o => match o with NewCtx | SetNeed _ _ _ => True | _ => False end) os -> srun v os = Some w -> Forall (fun s => s = O) (whose w).
Proof.
  induction os as [|o os IH]; intros v w H L E; cbn [srun] in E; [now injection E as <-|]. inversion L as [|? ? L1 L2]; subst. destruct (sstep v o) as [v1|] eqn:E1; [|discriminate]. apply (IH v1); auto.
  destruct o as [|c i b|c d|c d]; cbn in E1; try contradiction.
  - injection E1 as <-. apply Forall_app. split; [exact H|]. constructor; [reflexivity|constructor].
  - destruct (nth_error (whose v) c); [|discriminate]. destruct (described i); [|discriminate]. injection E1 as <-. exact H.
Qed.
