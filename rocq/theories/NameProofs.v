(** The two generated lookup functions, on top of the generic tree analysis. *)
From Verif Require Import Base Charset CharsetSpec BaseLemmas Str StrSpec StrProofs IndexTree IndexProofs MethodTree HeaderTree NameSpec.
From Verif Require Export Lookup.

(** ** Generic consequences *)
Definition foundPaths (b : block) : list path :=
  filter (fun p : path => match snd p with PTerm i | PRet i => negb (i =? 0) | _ => false end) (pathsB b []).
Definition panicPaths (b : block) : list path :=
  filter (fun p : path => match snd p with PPanic => true | _ => false end) (pathsB b []).

Lemma runTree_sound b r i r' : okIncB b 0 (fun _ => true) = true -> runTree b r = Some (i, r') -> i <> 0 ->
  exists c k res p, In (c, k, res) (foundPaths b) /\ r = p ++ r' /\ matches c p /\ (res = PTerm i /\ terminated r' \/ res = PRet i).
Proof.
  intros O R Hi. destruct (proj1 paths_sound b [] r 0%nat (fun _ => true) (prefixMatches_nil r) (Nat.le_0_l _) O) as [P1 _].
  unfold runTree in R. destruct (execB b r) as [i0 r0|r0|]; [|injection R; intros; congruence|discriminate].
  injection R as -> ->. destruct P1 as (c & k & res & p & H & E & M & D). exists c, k, res, p. repeat split; auto.
  apply filter_In. split; [exact H|]. cbn [snd]. destruct D as [[-> _]| ->]; apply negb_true_iff, N.eqb_neq, Hi.
Qed.

Lemma runTree_suffix b r i r' : okIncB b 0 (fun _ => true) = true -> runTree b r = Some (i, r') ->
  exists c k res p, In (c, k, res) (pathsB b []) /\ r = p ++ r' /\ matches c p.
Proof.
  intros O R. destruct (proj1 paths_sound b [] r 0%nat (fun _ => true) (prefixMatches_nil r) (Nat.le_0_l _) O) as [P1 _].
  unfold runTree in R. destruct (execB b r) as [i0 r0|r0|]; [| |discriminate]; injection R; intros; subst.
  - destruct P1 as (c & k & res & p & H & E & M & D). exists c, k, res, p. auto.
  - destruct P1 as (c & k & p & H & E & M & D). exists c, k, PNext, p. auto.
Qed.

Lemma runTree_panic_sound b r : okIncB b 0 (fun _ => true) = true -> runTree b r = None ->
  exists c k, In (c, k, PPanic) (panicPaths b) /\ matches c r.
Proof.
  intros O R. destruct (proj1 paths_sound b [] r 0%nat (fun _ => true) (prefixMatches_nil r) (Nat.le_0_l _) O) as [P1 _].
  unfold runTree in R. destruct (execB b r) as [i0 r0|r0|]; try discriminate.
  destruct P1 as (c & k & H & M). exists c, k. split; [apply filter_In; split; [exact H|reflexivity]|exact M].
Qed.

Lemma matches_all (f : N -> bool) c p : (forall t x, In t c -> tmatch t x = true -> f x = true) -> matches c p -> forallb f p = true.
Proof.
  intros H M. induction M as [|t x c p Ht M IH]; [reflexivity|]. cbn. rewrite (H t x (or_introl eq_refl) Ht).
  apply IH. intros t' x' I. apply H. right. exact I.
Qed.

(** ** Lower-casing *)
Lemma asciiLower_token x : IsSipToken (asciiLower x) = IsSipToken x.
Proof.
  destruct (N.ltb_spec x 256) as [L|L].
  - apply eqb_prop. revert x L. apply (sweep (fun x => Bool.eqb (IsSipToken (asciiLower x)) (IsSipToken x))). vm_compute. reflexivity.
  - unfold asciiLower. destruct (N.leb_spec x 90); [lia|]. rewrite andb_false_r. reflexivity.
Qed.
Lemma lor32_big x : 256 <= x -> 256 <= N.lor x 32.
Proof.
  intros H. apply N.le_trans with x; [exact H|].
  apply N.ldiff_le. apply N.bits_inj. intros n. rewrite N.ldiff_spec, N.lor_spec, N.bits_0. destruct (N.testbit x n); reflexivity.
Qed.
Lemma TL_byte c x : c < 256 -> tmatch (TL c) x = true -> x < 256.
Proof.
  intros Hc H. apply N.eqb_eq in H. destruct (N.ltb_spec x 256) as [|L]; [assumption|]. pose proof (lor32_big x L). lia.
Qed.
Lemma TL_inv c : testsInv asciiLower (TL c).
Proof.
  intros x. cbn. f_equal. destruct (N.ltb_spec x 256) as [L|L].
  - apply N.eqb_eq. revert x L. apply (sweep (fun x => N.lor x 32 =? N.lor (asciiLower x) 32)). vm_compute. reflexivity.
  - unfold asciiLower. destruct (N.leb_spec x 90); [lia|]. rewrite andb_false_r. reflexivity.
Qed.
Lemma TX_inv c : c < 65 \/ 122 < c -> testsInv asciiLower (TX c).
Proof.
  intros Hc x. cbn. unfold asciiLower. destruct (65 <=? x) eqn:A, (x <=? 90) eqn:B; cbn [andb]; try reflexivity.
  apply N.leb_le in A. apply N.leb_le in B. destruct (N.eqb_spec x c), (N.eqb_spec (x + 32) c); try reflexivity; lia.
Qed.
Definition testLowerOk (t : ctest) : bool := match t with TL _ => true | TX c => (c <? 65) || (122 <? c) | TAny => true end.
Lemma testLowerOk_inv t : testLowerOk t = true -> testsInv asciiLower t.
Proof.
  destruct t as [c|c|]; cbn [testLowerOk]; intros H; [apply TL_inv| |intros x; reflexivity].
  apply TX_inv. apply orb_prop in H as [H|H]; apply N.ltb_lt in H; auto.
Qed.

(** The lower-case byte a test stands for, if the test accepts only bytes with that lower case (and, for "-" read with [|0x20], CR). *)
Definition testByte (t : ctest) : N := match t with TL c => c | TX c => c | TAny => 0 end.
Definition isLowerName (c : N) : bool := ((97 <=? c) && (c <=? 122)) || (c =? 45).
Definition testNameOk (t : ctest) : bool :=
  match t with TL c => isLowerName c | TX c => c =? 45 | TAny => false end.
(** Lower case, with CR read as "-". *)
Definition crDash (x : N) : N := if x =? 13 then 45 else asciiLower x.
Lemma testNameOk_lower t x : testNameOk t = true -> tmatch t x = true -> crDash x = testByte t.
Proof.
  intros O M. destruct t as [c|c|]; cbn in O; [| |discriminate].
  - assert (Hc : c < 256).
    { unfold isLowerName in O. destruct (N.eqb_spec c 45); [lia|]. destruct (N.leb_spec c 122); [lia|]. rewrite andb_false_r in O. discriminate. }
    pose proof (TL_byte c x Hc M) as Lx. cbn [testByte tmatch] in *. apply N.eqb_eq in M. subst c.
    assert (S : forall x, x < 256 -> implb (isLowerName (N.lor x 32)) (crDash x =? N.lor x 32) = true).
    { apply (sweep (fun x => implb (isLowerName (N.lor x 32)) (crDash x =? N.lor x 32))). vm_compute. reflexivity. }
    specialize (S x Lx). rewrite O in S. cbn in S. apply N.eqb_eq in S. exact S.
  - cbn in *. apply N.eqb_eq in M. apply N.eqb_eq in O. subst. reflexivity.
Qed.
Lemma matches_lower c p : forallb testNameOk c = true -> matches c p -> map crDash p = map testByte c.
Proof.
  intros O M. induction M as [|t x c p Ht M IH]; [reflexivity|]. cbn in O |- *. apply andb_prop in O as [O1 O2].
  rewrite (testNameOk_lower t x O1 Ht), IH; [reflexivity|exact O2].
Qed.
Lemma crDash_lower p : ~ In 13 p -> map crDash p = map asciiLower p.
Proof.
  induction p as [|x p IH]; intros NI; [reflexivity|]. cbn. rewrite IH by (intros I; apply NI; right; exact I). f_equal.
  unfold crDash. destruct (N.eqb_spec x 13); [subst; exfalso; apply NI; left; reflexivity|reflexivity].
Qed.

(** ** Methods *)
Definition methodPathsOk : bool :=
  forallb (fun p : path => match p with (c, _, PTerm i) => existsb (fun q => beq (map testByte c) (fst q) && (i =? snd q)) methodNames
                                        && forallb (fun t => match t with TX _ => true | _ => false end) c
                                 | _ => false end) (foundPaths methodTree).
Lemma methodPaths_ok : methodPathsOk = true. Proof. vm_compute. reflexivity. Qed.
Lemma method_inc : okIncB methodTree 0 (fun _ => true) = true. Proof. vm_compute. reflexivity. Qed.

Lemma matches_exact c p : forallb (fun t => match t with TX _ => true | _ => false end) c = true -> matches c p -> p = map testByte c.
Proof.
  intros O M. induction M as [|t x c p Ht M IH]; [reflexivity|]. cbn in O |- *. apply andb_prop in O as [O1 O2].
  destruct t; try discriminate. cbn in *. apply N.eqb_eq in Ht. subst. f_equal. apply IH, O2.
Qed.

Lemma method_sound r i r' : GetSipMethodIndex r = Some (i, r') -> i <> 0 ->
  exists name, In (name, i) methodNames /\ r = name ++ r' /\ nameEnds r'.
Proof.
  intros R Hi. destruct (runTree_sound _ _ _ _ method_inc R Hi) as (c & k & res & p & H & E & M & D).
  pose proof methodPaths_ok as O. unfold methodPathsOk in O. rewrite forallb_forall in O. specialize (O _ H). cbv beta iota in O.
  destruct res; try discriminate. destruct D as [[D T]|D]; [|discriminate]. injection D as ->.
  apply andb_prop in O as [O1 O2]. apply existsb_exists in O1 as ((name & j) & I & Q). cbn in Q. apply andb_prop in Q as [Q1 Q2].
  apply beq_eq in Q1. apply N.eqb_eq in Q2. subst j. exists name. rewrite <- Q1. rewrite <- (matches_exact c p O2 M).
  repeat split; [rewrite (matches_exact c p O2 M), Q1; exact I|exact E|exact T].
Qed.
Lemma methodSym : forallb (fun q => match symB methodTree (fst q) with SRet i [] => i =? snd q | _ => false end) methodNames = true.
Proof. vm_compute. reflexivity. Qed.
Lemma method_complete name i r' : In (name, i) methodNames -> nameEnds r' -> GetSipMethodIndex (name ++ r') = Some (i, r').
Proof.
  intros I T. pose proof methodSym as S. rewrite forallb_forall in S. specialize (S _ I). cbn [fst snd] in S.
  pose proof (proj1 (sym_sound r' T) methodTree name) as X. destruct (symB methodTree name) as [j [|]| |]; try discriminate.
  apply N.eqb_eq in S. subst j. cbn [symOk app] in X. unfold GetSipMethodIndex, runTree. rewrite X. reflexivity.
Qed.
Lemma methodNames_nz name i : In (name, i) methodNames -> i <> 0.
Proof. assert (F : forallb (fun q => negb (snd q =? 0)) methodNames = true) by (vm_compute; reflexivity). rewrite forallb_forall in F.
  intros I. specialize (F _ I). cbn in F. apply negb_true_iff, N.eqb_neq in F. exact F. Qed.
Lemma method_spec r i r' : (GetSipMethodIndex r = Some (i, r') /\ i <> SIP_METHOD_UNKNOWN) <->
  exists name, In (name, i) methodNames /\ r = name ++ r' /\ nameEnds r'.
Proof.
  split; [intros [R Hi]; exact (method_sound r i r' R Hi)|]. intros (name & I & -> & T).
  split; [exact (method_complete _ _ _ I T)|exact (methodNames_nz _ _ I)].
Qed.

Definition methodPanics : list bytes := [s2b "P"; s2b "IN"; s2b "RE"].
Lemma method_panic r : GetSipMethodIndex r = None <-> In r methodPanics.
Proof.
  split.
  - intros R. destruct (runTree_panic_sound _ _ method_inc R) as (c & k & H & M).
    assert (F : forallb (fun p : path => forallb (fun t => match t with TX _ => true | _ => false end) (fst (fst p)) &&
       (beq (map testByte (fst (fst p))) [] || existsb (beq (map testByte (fst (fst p)))) methodPanics)) (panicPaths methodTree) = true) by (vm_compute; reflexivity).
    rewrite forallb_forall in F. specialize (F _ H). cbn [fst] in F. apply andb_prop in F as [F1 F2].
    rewrite <- (matches_exact c r F1 M) in F2. apply orb_prop in F2 as [F2|F2].
    + apply beq_eq in F2. subst r. vm_compute in R. discriminate.
    + apply existsb_exists in F2 as (x & I & Q). apply beq_eq in Q. subst. exact I.
  - cbn. intros [<-|[<-|[<-|[]]]]; vm_compute; reflexivity.
Qed.

Lemma methodTokens : forallb (fun p : path => forallb (fun t => match t with TX c => IsSipToken c | _ => false end) (fst (fst p))) (pathsB methodTree []) = true.
Proof. vm_compute. reflexivity. Qed.
(** What the lookup skipped is made of token bytes, so the text of an unknown method is the whole token. *)
Lemma method_skips r i r' : GetSipMethodIndex r = Some (i, r') -> exists p, r = p ++ r' /\ forallb IsSipToken p = true.
Proof.
  intros R. destruct (runTree_suffix _ _ _ _ method_inc R) as (c & k & res & p & H & E & M). exists p. split; [exact E|].
  pose proof methodTokens as F. rewrite forallb_forall in F. specialize (F _ H). cbn [fst] in F. rewrite forallb_forall in F.
  apply (matches_all IsSipToken c p); [|exact M]. intros t x I T. specialize (F _ I). destruct t; try discriminate.
  cbn in T. apply N.eqb_eq in T. subst. exact F.
Qed.

(** ** Headers *)
Definition recognisedNames : list (bytes * N) := headerNames ++ compactNames ++ misspeltNames.
Lemma header_inc : okIncB headerTree 0 (fun _ => true) = true. Proof. vm_compute. reflexivity. Qed.
Lemma headerPaths_ok :
  forallb (fun p : path => match p with (c, _, PTerm i) => existsb (fun q => beq (map testByte c) (map asciiLower (fst q)) && (i =? snd q)) recognisedNames
                                        && forallb testNameOk c
                                 | _ => false end) (foundPaths headerTree) = true.
Proof. vm_compute. reflexivity. Qed.
Lemma header_sound r i r' : GetSipHeaderIndex r = Some (i, r') -> i <> 0 ->
  exists name p, In (name, i) recognisedNames /\ r = p ++ r' /\ nameEnds r' /\ map crDash p = map asciiLower name.
Proof.
  intros R Hi. destruct (runTree_sound _ _ _ _ header_inc R Hi) as (c & k & res & p & H & E & M & D).
  pose proof headerPaths_ok as O. rewrite forallb_forall in O. specialize (O _ H). cbv beta iota in O.
  destruct res; try discriminate. destruct D as [[D T]|D]; [|discriminate]. injection D as ->.
  apply andb_prop in O as [O1 O2]. apply existsb_exists in O1 as ((name & j) & I & Q). cbn [fst snd] in Q. apply andb_prop in Q as [Q1 Q2].
  apply beq_eq in Q1. apply N.eqb_eq in Q2. subst j. exists name, p. repeat split; [exact I|exact E|exact T|].
  rewrite <- Q1. apply matches_lower; assumption.
Qed.
Lemma headerSym : forallb (fun q => match symB headerTree (map asciiLower (fst q)) with SRet i [] => i =? snd q | _ => false end) recognisedNames = true.
Proof. vm_compute. reflexivity. Qed.
Lemma headerTests : Forall (testsInv asciiLower) (allTestsB headerTree).
Proof.
  assert (F : forallb testLowerOk (allTestsB headerTree) = true) by (vm_compute; reflexivity).
  rewrite forallb_forall in F. apply Forall_forall. intros t I. apply testLowerOk_inv, F, I.
Qed.
Lemma nameEnds_lower r : nameEnds r -> nameEnds (map asciiLower r).
Proof. destruct r as [|x r]; [trivial|]. cbn. rewrite asciiLower_token. trivial. Qed.
Lemma header_complete name i p r' : In (name, i) recognisedNames -> sameNoCase p name -> nameEnds r' -> GetSipHeaderIndex (p ++ r') = Some (i, r').
Proof.
  intros I SN T. pose proof headerSym as S. rewrite forallb_forall in S. specialize (S _ I). cbn [fst snd] in S.
  pose proof (proj1 (sym_sound (map asciiLower r') (nameEnds_lower _ T)) headerTree (map asciiLower name)) as X.
  destruct (symB headerTree (map asciiLower name)) as [j [|]| |]; try discriminate. apply N.eqb_eq in S. subst j. cbn [symOk app] in X.
  rewrite <- SN, <- map_app in X. rewrite (proj1 (exec_map asciiLower asciiLower_token) headerTree (p ++ r') headerTests) in X.
  assert (Q : exists r2, GetSipHeaderIndex (p ++ r') = Some (i, r2) /\ map asciiLower r2 = map asciiLower r').
  { unfold GetSipHeaderIndex, runTree. destruct (execB headerTree (p ++ r')) as [j r2|r2|]; cbn [mapOut] in X; try discriminate.
    injection X as -> X. exists r2. split; [reflexivity|exact X]. }
  destruct Q as (r2 & Q & E). destruct (runTree_suffix _ _ _ _ header_inc Q) as (c & k & res & p2 & _ & E2 & _).
  assert (L : List.length r2 = List.length r') by (rewrite <- (map_length asciiLower r2), E; apply map_length).
  assert (r2 = r').
  { apply (f_equal (skipn (List.length p2))) in E2 as E3. rewrite (skipn_app _ p2 r2), skipn_all, Nat.sub_diag in E3. cbn in E3.
    assert (L2 : List.length p2 = List.length p). { apply (f_equal (@List.length N)) in E2. rewrite !app_length in E2. lia. }
    rewrite L2, skipn_app, skipn_all, Nat.sub_diag in E3. cbn in E3. congruence. }
  subst r2. exact Q.
Qed.
Lemma recognised_nz name i : In (name, i) recognisedNames -> i <> 0.
Proof. assert (F : forallb (fun q => negb (snd q =? 0)) recognisedNames = true) by (vm_compute; reflexivity). rewrite forallb_forall in F.
  intros I. specialize (F _ I). cbn in F. apply negb_true_iff, N.eqb_neq in F. exact F. Qed.
Lemma header_spec r i r' : ~ In 13 r -> ((GetSipHeaderIndex r = Some (i, r') /\ i <> SIP_HDR_UNKNOWN) <->
  exists name p, In (name, i) recognisedNames /\ r = p ++ r' /\ sameNoCase p name /\ nameEnds r').
Proof.
  intros NI. split.
  - intros [R Hi]. destruct (header_sound r i r' R Hi) as (name & p & I & E & T & S). exists name, p. repeat split; auto.
    unfold sameNoCase. rewrite <- S. symmetry. apply crDash_lower. intros I2. apply NI. rewrite E. apply in_or_app. left. exact I2.
  - intros (name & p & I & -> & S & T). split; [exact (header_complete _ _ _ _ I S T)|exact (recognised_nz _ _ I)].
Qed.
Lemma header_safe r : In 58 r -> GetSipHeaderIndex r <> None.
Proof.
  intros I. assert (S : safeB headerTree [] 0 (fun _ _ => true) 58 = true) by (vm_compute; reflexivity).
  pose proof (proj1 (safe_sound 58) headerTree [] 0%nat _ r S (prefixMatches_nil r) (Nat.le_0_l _) I) as X.
  unfold GetSipHeaderIndex, runTree. destruct (execB headerTree r); [discriminate|discriminate|destruct X].
Qed.

Lemma header_panic r : ~ In 13 r -> (GetSipHeaderIndex r = None <-> In (map asciiLower r) headerPanics).
Proof.
  intros NI. split.
  - intros R. destruct (runTree_panic_sound _ _ header_inc R) as (c & k & H & M).
    assert (F : forallb (fun p : path => forallb testNameOk (fst (fst p)) &&
       (match GetSipHeaderIndex (map testByte (fst (fst p))) with Some _ => true | None => existsb (beq (map testByte (fst (fst p)))) headerPanics end)) (panicPaths headerTree) = true) by (vm_compute; reflexivity).
    rewrite forallb_forall in F. specialize (F _ H). cbn [fst] in F. apply andb_prop in F as [F1 F2].
    pose proof (matches_lower c r F1 M) as E. rewrite (crDash_lower r NI) in E. rewrite <- E in F2.
    assert (G : GetSipHeaderIndex (map asciiLower r) = None).
    { unfold GetSipHeaderIndex, runTree in *. rewrite (proj1 (exec_map asciiLower asciiLower_token) headerTree r headerTests).
      destruct (execB headerTree r); [discriminate|discriminate|reflexivity]. }
    rewrite G in F2. apply existsb_exists in F2 as (x & I & Q). apply beq_eq in Q. subst. exact I.
  - intros I. assert (F : forallb (fun n => match GetSipHeaderIndex n with None => true | _ => false end) headerPanics = true) by (vm_compute; reflexivity).
    rewrite forallb_forall in F. specialize (F _ I). unfold GetSipHeaderIndex, runTree in *.
    rewrite (proj1 (exec_map asciiLower asciiLower_token) headerTree r headerTests) in F.
    destruct (execB headerTree r); [discriminate F|discriminate F|reflexivity].
Qed.
Lemma headerTokens : forallb testNameOk (flat_map (fun p : path => fst (fst p)) (pathsB headerTree [])) = true.
Proof. vm_compute. reflexivity. Qed.
Definition tokenOrCR (x : N) : bool := IsSipToken x || (x =? 13).
Lemma testNameOk_token t x : testNameOk t = true -> tmatch t x = true -> tokenOrCR x = true.
Proof.
  intros O M. pose proof (testNameOk_lower t x O M) as E. unfold crDash in E. unfold tokenOrCR. destruct (N.eqb_spec x 13); [apply orb_true_r|].
  rewrite orb_false_r. rewrite <- asciiLower_token, E.
  assert (B : testByte t < 256 /\ isLowerName (testByte t) = true).
  { destruct t as [c|c|]; cbn in *; [| |discriminate].
    - split; [|exact O]. unfold isLowerName in O. destruct (N.eqb_spec c 45); [lia|]. destruct (N.leb_spec c 122); [lia|]. rewrite andb_false_r in O. discriminate.
    - apply N.eqb_eq in O. subst. split; reflexivity. }
  destruct B as [B1 B2]. pose proof (sweep (fun c => implb (isLowerName c) (IsSipToken c)) ltac:(vm_compute; reflexivity) _ B1) as S.
  cbv beta in S. rewrite B2 in S. exact S.
Qed.
(** What the lookup skipped is made of token bytes (or a CR standing for a dash). *)
Lemma header_skips r i r' : GetSipHeaderIndex r = Some (i, r') -> exists p, r = p ++ r' /\ forallb tokenOrCR p = true.
Proof.
  intros R. destruct (runTree_suffix _ _ _ _ header_inc R) as (c & k & res & p & H & E & M). exists p. split; [exact E|].
  pose proof headerTokens as F. rewrite forallb_forall in F.
  apply (matches_all tokenOrCR c p); [|exact M]. intros t x I T. apply (testNameOk_token t); [|exact T]. apply F. apply in_flat_map. exists (c, k, res). split; [exact H|exact I].
Qed.
