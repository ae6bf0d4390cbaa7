(** Exact header-name lookup, including the places where a carriage return is taken for a dash. *)
From Verif Require Import Base Charset CharsetSpec BaseLemmas Str StrSpec StrProofs IndexTree IndexProofs MethodTree HeaderTree NameSpec NameProofs.

Definition dash (t : ctest) : bool := match t with TL c => c =? 45 | _ => false end.
Fixpoint crSplit (c : list ctest) : option (list ctest * list ctest) :=
  match c with
  | [] => None
  | t :: c' => if dash t then Some ([], c') else match crSplit c' with Some (a, b) => Some (t :: a, b) | None => None end
  end.
Lemma crSplit_spec c a b : crSplit c = Some (a, b) -> exists t, c = a ++ t :: b /\ dash t = true.
Proof.
  revert a b. induction c as [|t c IH]; intros a b; cbn; [discriminate|]. destruct (dash t) eqn:D.
  - intros [= <- <-]. exists t. auto.
  - destruct (crSplit c) as [[a' b']|]; [|discriminate]. intros [= <- <-]. destruct (IH a' b' eq_refl) as (t' & -> & D'). exists t'. auto.
Qed.
Definition strictOk (t : ctest) : bool := (testNameOk t && negb (dash t))%bool.
Lemma strict_lower t x : strictOk t = true -> tmatch t x = true -> asciiLower x = testByte t.
Proof.
  unfold strictOk. intros H M. apply andb_prop in H as [H D]. pose proof (testNameOk_lower t x H M) as E. unfold crDash in E.
  destruct (N.eqb_spec x 13) as [->|]; [|exact E]. exfalso. destruct t as [c|c|]; cbn in *; [|subst; discriminate|discriminate]. apply N.eqb_eq in M. subst c. discriminate.
Qed.
Lemma matches_strict c p : forallb strictOk c = true -> matches c p -> map asciiLower p = map testByte c.
Proof.
  intros O M. induction M as [|t x c p Ht M IH]; [reflexivity|]. cbn in O |- *. apply andb_prop in O as [O1 O2]. rewrite (strict_lower t x O1 Ht), IH; [reflexivity|exact O2].
Qed.
Lemma dash_inv t x : testNameOk t = true -> dash t = true -> tmatch t x = true -> testByte t = 45 /\ (x = 45 \/ x = 13).
Proof.
  destruct t as [c|c|]; try discriminate. cbn. intros O D M. apply N.eqb_eq in D. subst c. split; [reflexivity|]. apply N.eqb_eq in M.
  assert (L : x < 256) by (apply (TL_byte 45); [reflexivity|cbn; now apply N.eqb_eq]).
  pose proof (sweep (fun x => implb (N.lor x 32 =? 45) ((x =? 45) || (x =? 13))) ltac:(vm_compute; reflexivity) x L) as S. cbv beta in S. rewrite M in S.
  change (45 =? 45) with true in S. cbn [implb] in S. apply orb_prop in S as [S|S]; apply N.eqb_eq in S; auto.
Qed.
(** What a list of tests matches: the name, or the name with its first [|0x20]-tested dash replaced by CR. *)
Definition pathForm (c : list ctest) : bool :=
  match crSplit c with
  | None => forallb strictOk c
  | Some (a, b) => (forallb strictOk a && forallb strictOk b && existsb (beq (map testByte a)) crDashAfter && forallb (fun t => if dash t then testNameOk t else true) c)%bool
  end.
Lemma path_inv c p : pathForm c = true -> matches c p ->
  map asciiLower p = map testByte c \/ exists a b, p = a ++ 13 :: b /\ In (map asciiLower a) crDashAfter /\ map asciiLower (a ++ 45 :: b) = map testByte c.
Proof.
  unfold pathForm. destruct (crSplit c) as [[a b]|] eqn:E; intros H M; [|left; now apply matches_strict]. apply andb_prop in H as [H H4]. apply andb_prop in H as [H H3]. apply andb_prop in H as [H1 H2].
  apply crSplit_spec in E as (t & -> & D). unfold matches in M. apply Forall2_app_inv_l in M as (pa & pb & Ma & Mb & ->). apply Forall2_cons_iff in Mb || (inversion Mb; subst).
  match goal with HT : tmatch t ?x = true, HB : Forall2 _ b ?q |- _ => pose proof (matches_strict a pa H1 Ma) as Ea; pose proof (matches_strict b q H2 HB) as Eb;
    assert (Ot : testNameOk t = true) by (rewrite forallb_forall in H4; specialize (H4 t ltac:(apply in_or_app; right; left; reflexivity)); rewrite D in H4; exact H4);
    destruct (dash_inv t x Ot D HT) as [Et [->| ->]] end.
  - left. rewrite !map_app. cbn [map]. rewrite Ea, Eb, Et. reflexivity.
  - right. eexists. eexists. split; [reflexivity|]. split; [rewrite Ea; apply existsb_exists in H3 as (w & I & Q); apply beq_eq in Q; rewrite Q; exact I|].
    rewrite !map_app. cbn [map]. rewrite Ea, Eb, Et. reflexivity.
Qed.
Lemma allForms : forallb (fun p : path => pathForm (fst (fst p))) (foundPaths headerTree ++ panicPaths headerTree) = true.
Proof. vm_compute. reflexivity. Qed.

(** The CR variant of a lower-case name, if it has one. *)
Definition crVariants (q : bytes) : list bytes :=
  flat_map (fun a => if beq (firstn (S (List.length a)) q) (a ++ [45]) then [a ++ 13 :: skipn (S (List.length a)) q] else []) crDashAfter.
Lemma crVariants_in a b q : In (map asciiLower a) crDashAfter -> map asciiLower (a ++ 45 :: b) = q -> In (map asciiLower (a ++ 13 :: b)) (crVariants q).
Proof.
  intros I <-. unfold crVariants. apply in_flat_map. exists (map asciiLower a). split; [exact I|].
  rewrite !map_app. cbn [map]. change (asciiLower 45) with 45. change (asciiLower 13) with 13.
  assert (F : firstn (S (List.length (map asciiLower a))) (map asciiLower a ++ 45 :: map asciiLower b) = map asciiLower a ++ [45]).
  { generalize (map asciiLower a) (map asciiLower b). intros x y. induction x as [|z x IH]; [reflexivity|]. cbn [List.length firstn app] in *. now rewrite IH. }
  assert (G : skipn (S (List.length (map asciiLower a))) (map asciiLower a ++ 45 :: map asciiLower b) = map asciiLower b).
  { generalize (map asciiLower a) (map asciiLower b). intros x y. induction x as [|z x IH]; [reflexivity|]. cbn [List.length skipn app] in *. exact IH. }
  rewrite F, G. replace (beq _ _) with true by (symmetry; now apply beq_eq). left. reflexivity.
Qed.
Lemma variantSym : forallb (fun q => forallb (fun v => match symB headerTree v with SRet i [] => i =? snd q | _ => false end) (crVariants (map asciiLower (fst q)))) recognisedNames = true.
Proof. vm_compute. reflexivity. Qed.
Lemma header_found q i p r' : symB headerTree q = SRet i [] -> map asciiLower p = q -> nameEnds r' -> GetSipHeaderIndex (p ++ r') = Some (i, r').
Proof.
  intros S SN T. pose proof (proj1 (sym_sound (map asciiLower r') (nameEnds_lower _ T)) headerTree q) as X. rewrite S in X. cbn [symOk app] in X.
  rewrite <- SN, <- map_app in X. rewrite (proj1 (exec_map asciiLower asciiLower_token) headerTree (p ++ r') headerTests) in X.
  assert (Q : exists r2, GetSipHeaderIndex (p ++ r') = Some (i, r2) /\ map asciiLower r2 = map asciiLower r').
  { unfold GetSipHeaderIndex, runTree. destruct (execB headerTree (p ++ r')) as [j r2|r2|]; cbn [mapOut] in X; try discriminate.
    injection X as -> X. exists r2. split; [reflexivity|exact X]. }
  destruct Q as (r2 & Q & E). destruct (runTree_suffix _ _ _ _ header_inc Q) as (c & k & res & p2 & _ & E2 & _).
  assert (L : List.length r2 = List.length r') by (rewrite <- (map_length asciiLower r2), E; apply map_length).
  assert (r2 = r').
  { apply (f_equal (skipn (List.length p2))) in E2 as E3. rewrite (skipn_app _ p2 r2), skipn_all, Nat.sub_diag in E3. cbn in E3.
    assert (L2 : List.length p2 = List.length p). { apply (f_equal (@List.length N)) in E2. rewrite !app_length in E2. lia. }
    rewrite L2, skipn_app, skipn_all, Nat.sub_diag in E3. cbn in E3. congruence. }
  subst r2. exact Q.
Qed.
Lemma header_exact r i r' : (GetSipHeaderIndex r = Some (i, r') /\ i <> SIP_HDR_UNKNOWN) <->
  exists name p, In (name, i) recognisedNames /\ r = p ++ r' /\ spells p name /\ nameEnds r'.
Proof.
  split.
  - intros [R Hi]. destruct (runTree_sound _ _ _ _ header_inc R Hi) as (c & k & res & p & H & E & M & D).
    pose proof headerPaths_ok as O. rewrite forallb_forall in O. specialize (O _ H). cbv beta iota in O.
    destruct res; try discriminate. destruct D as [[D T]|D]; [|discriminate]. injection D as ->.
    apply andb_prop in O as [O1 _]. apply existsb_exists in O1 as ((name & j) & I & Q). cbn [fst snd] in Q. apply andb_prop in Q as [Q1 Q2].
    apply beq_eq in Q1. apply N.eqb_eq in Q2. subst j. exists name, p. split; [exact I|]. split; [exact E|]. split; [|exact T].
    pose proof allForms as F. rewrite forallb_forall in F. specialize (F _ (in_or_app _ _ _ (or_introl H))). cbn [fst] in F.
    unfold spells, sameNoCase. destruct (path_inv c p F M) as [X|(a & b & -> & Ia & X)]; [left; congruence|right]. exists a, b. split; [reflexivity|]. split; [exact Ia|congruence].
  - intros (name & p & I & -> & S & T). split; [|exact (recognised_nz _ _ I)]. destruct S as [S|(a & b & -> & Ia & S)]; [exact (header_complete _ _ _ _ I S T)|].
    pose proof variantSym as V. rewrite forallb_forall in V. specialize (V _ I). cbn [fst snd] in V. rewrite forallb_forall in V. specialize (V _ (crVariants_in a b _ Ia S)).
    destruct (symB headerTree (map asciiLower (a ++ 13 :: b))) as [j [|]| |] eqn:Y; try discriminate. apply N.eqb_eq in V. subst j. now apply (header_found _ _ _ _ Y eq_refl).
Qed.
Lemma header_panic_exact r : GetSipHeaderIndex r = None <-> exists name, In name headerPanics /\ spells r name.
Proof.
  assert (LP : forallb (fun n => beq (map asciiLower n) n) headerPanics = true) by (vm_compute; reflexivity).
  assert (PF : forall q, GetSipHeaderIndex (map asciiLower q) = None <-> GetSipHeaderIndex q = None).
  { intros q. unfold GetSipHeaderIndex, runTree. rewrite (proj1 (exec_map asciiLower asciiLower_token) headerTree q headerTests). destruct (execB headerTree q); cbn [mapOut]; split; congruence. }
  split.
  - intros R. destruct (runTree_panic_sound _ _ header_inc R) as (c & k & H & M).
    pose proof allForms as F. rewrite forallb_forall in F. specialize (F _ (in_or_app _ _ _ (or_intror H))). cbn [fst] in F.
    assert (G : forallb (fun p : path => (match GetSipHeaderIndex (map testByte (fst (fst p))) with Some _ => false | None => existsb (beq (map testByte (fst (fst p)))) headerPanics end
       || match crVariants (map testByte (fst (fst p))) with [] => match GetSipHeaderIndex (map testByte (fst (fst p))) with Some _ => true | None => false end | v => forallb (fun q => match GetSipHeaderIndex q with Some _ => true | None => false end) v
            && match GetSipHeaderIndex (map testByte (fst (fst p))) with Some _ => true | None => false end end)%bool) (panicPaths headerTree) = true) by (vm_compute; reflexivity).
    rewrite forallb_forall in G. specialize (G _ H). cbn [fst] in G.
    assert (Z : In (map testByte c) headerPanics \/ GetSipHeaderIndex (map testByte c) <> None /\ Forall (fun q => GetSipHeaderIndex q <> None) (crVariants (map testByte c))).
    { apply orb_prop in G as [G|G].
      - left. destruct (GetSipHeaderIndex (map testByte c)); [discriminate|]. apply existsb_exists in G as (x & I & Q). apply beq_eq in Q. now rewrite Q.
      - right. destruct (crVariants (map testByte c)) as [|v vs]; [destruct (GetSipHeaderIndex (map testByte c)); [split; [discriminate|constructor]|discriminate]|].
        apply andb_prop in G as [G1 G2]. split; [destruct (GetSipHeaderIndex (map testByte c)); discriminate|]. rewrite forallb_forall in G1. apply Forall_forall. intros q I. specialize (G1 q I).
        destruct (GetSipHeaderIndex q); discriminate. }
    destruct (path_inv c r F M) as [X|(a & b & -> & Ia & X)].
    + exists (map testByte c). destruct Z as [Z|[Z _]]; [|exfalso; apply Z; rewrite <- X; now apply PF]. split; [exact Z|left]. unfold sameNoCase. rewrite forallb_forall in LP. specialize (LP _ Z). apply beq_eq in LP. congruence.
    + exists (map testByte c). destruct Z as [Z|[_ Z]].
      * split; [exact Z|right]. exists a, b. split; [reflexivity|]. split; [exact Ia|]. unfold sameNoCase. rewrite forallb_forall in LP. specialize (LP _ Z). apply beq_eq in LP. congruence.
      * exfalso. rewrite Forall_forall in Z. apply (Z _ (crVariants_in a b _ Ia X)). now apply PF.
  - intros (name & I & S). apply PF.
    assert (V : forallb (fun n => (match GetSipHeaderIndex n with None => true | _ => false end && forallb (fun v => match GetSipHeaderIndex v with None => true | _ => false end) (crVariants n))%bool) headerPanics = true) by (vm_compute; reflexivity).
    rewrite forallb_forall in V, LP. specialize (V _ I). specialize (LP _ I). apply beq_eq in LP. apply andb_prop in V as [V1 V2].
    destruct S as [S|(a & b & -> & Ia & S)].
    + unfold sameNoCase in S. rewrite S, LP. destruct (GetSipHeaderIndex name); [discriminate|reflexivity].
    + rewrite forallb_forall in V2. unfold sameNoCase in S. rewrite LP in S. specialize (V2 _ (crVariants_in a b _ Ia S)). destruct (GetSipHeaderIndex (map asciiLower (a ++ 13 :: b))); [discriminate|reflexivity].
Qed.
