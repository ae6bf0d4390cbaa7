(** Generic analysis of IndexTree programs: which inputs lead to which result (soundness by path
    enumeration, completeness by symbolic execution), and absence of index panics. *)
From Verif Require Import Base Charset BaseLemmas IndexTree.

Scheme block_mut := Induction for block Sort Prop
  with stmt_mut := Induction for stmt Sort Prop
  with cases_mut := Induction for cases Sort Prop.
Combined Scheme tree_ind from block_mut, stmt_mut, cases_mut.

Definition terminated (r : bytes) : Prop := match r with [] => True | x :: _ => IsSipToken x = false end.

(** [matches ts p]: [p] has exactly the length of [ts] and passes each test. *)
Definition matches (ts : list ctest) (p : bytes) : Prop := Forall2 (fun t x => tmatch t x = true) ts p.
Definition prefixMatches (ts : list ctest) (r : bytes) : Prop := exists p q, r = p ++ q /\ matches ts p.

Inductive pres := PTerm (i : N) | PRet (i : N) | PNext | PPanic.
Definition path := (list ctest * list ctest * pres)%type.

Definition thenPaths (ps : list path) (f : list ctest -> list path) : list path :=
  flat_map (fun '(c, k, r) => match r with
                              | PNext => map (fun '(c', k', r') => (c ++ c', k', r')) (f k)
                              | _ => [(c, k, r)]
                              end) ps.

Fixpoint pathsB (b : block) (known : list ctest) {struct b} : list path :=
  match b with
  | Bnil => [([], known, PNext)]
  | Bcons s b' => thenPaths (pathsS s known) (fun k => pathsB b' k)
  end
with pathsS (s : stmt) (known : list ctest) {struct s} : list path :=
  match s with
  | Inc k => [(firstn k (known ++ repeat TAny (k - List.length known)), skipn k known, PNext)]
  | Ret i => [([], known, PRet i)]
  | IfEnd k i => [([], known, PRet i); ([], known, PNext)]
  | IfTerm i => [([], known, PTerm i); ([], known, PNext)]
  | IfNext t b => ([], known, PNext) :: pathsB b (t :: tl known)
  | IfAll ts b => ([], known, PNext) :: pathsB b (ts ++ skipn (List.length ts) known)
  | Switch low cs => ([], known, PPanic) :: pathsC cs low known
  end
with pathsC (cs : cases) (low : bool) (known : list ctest) {struct cs} : list path :=
  match cs with
  | Cnil => [([], known, PNext)]
  | Case c b cs' => pathsB b ((if low then TL c else TX c) :: tl known) ++ pathsC cs' low known
  end.

Lemma Forall2_len {A B} (R : A -> B -> Prop) l1 l2 : Forall2 R l1 l2 -> List.length l1 = List.length l2.
Proof. induction 1; cbn; congruence. Qed.

Lemma prefixMatches_nil r : prefixMatches [] r.
Proof. exists [], r. split; [reflexivity|constructor]. Qed.

Lemma prefixMatches_tl known x r : prefixMatches known (x :: r) -> prefixMatches (tl known) r.
Proof.
  intros (p & q & E & M). destruct known as [|t known]; [apply prefixMatches_nil|].
  destruct p as [|y p]; [inversion M|]. inversion M; subst. inversion E; subst. exists p, q. split; [reflexivity|assumption].
Qed.
Lemma prefixMatches_cons t known x r : tmatch t x = true -> prefixMatches known r -> prefixMatches (t :: known) (x :: r).
Proof. intros H (p & q & -> & M). exists (x :: p), q. split; [reflexivity|]. constructor; assumption. Qed.
Lemma prefixMatches_skip k : forall known r, prefixMatches known r -> prefixMatches (skipn k known) (skipn k r).
Proof.
  induction k as [|k IH]; intros known r H; [exact H|].
  destruct known as [|t known]; [apply prefixMatches_nil|].
  destruct r as [|x r]; [destruct H as (p & q & E & M); destruct p; [inversion M|discriminate E]|].
  apply IH. exact (prefixMatches_tl _ _ _ H).
Qed.

(** What a program's outcome on [r] must look like, given its paths. *)
Definition pathOk (ps : list path) (r : bytes) (o : iout) : Prop :=
  match o with
  | IPanic => exists c k, In (c, k, PPanic) ps /\ matches c r
  | IRet i r' => exists c k res p, In (c, k, res) ps /\ r = p ++ r' /\ matches c p /\
                   (res = PTerm i /\ terminated r' \/ res = PRet i)
  | INext r' => exists c k p, In (c, k, PNext) ps /\ r = p ++ r' /\ matches c p /\ prefixMatches k r'
  end.

Lemma pathOk_incl ps ps' r o : incl ps ps' -> pathOk ps r o -> pathOk ps' r o.
Proof.
  intros I. destruct o; cbn.
  - intros (c & k & res & p & H & R). exists c, k, res, p. split; [apply I, H|exact R].
  - intros (c & k & p & H & R). exists c, k, p. split; [apply I, H|exact R].
  - intros (c & k & H & M). exists c, k. split; [apply I, H|exact M].
Qed.

Lemma pathOk_stay ps known r : In ([], known, PNext) ps -> prefixMatches known r -> pathOk ps r (INext r).
Proof. intros H M. exists [], known, []. repeat split; [exact H|constructor|exact M]. Qed.

Lemma matchAll_prefix ts : forall r, matchAll ts r = Some true -> exists p q, r = p ++ q /\ matches ts p.
Proof.
  induction ts as [|t ts IH]; intros r H; [exists [], r; split; [reflexivity|constructor]|].
  destruct r as [|x r]; [discriminate|]. cbn in H. destruct (tmatch t x) eqn:E; [|discriminate].
  destruct (IH _ H) as (p & q & -> & M). exists (x :: p), q. split; [reflexivity|constructor; assumption].
Qed.
Lemma matchAll_known ts known r : matchAll ts r = Some true -> prefixMatches known r -> prefixMatches (ts ++ skipn (List.length ts) known) r.
Proof.
  intros H K. destruct (matchAll_prefix _ _ H) as (p & q & -> & M).
  assert (L : List.length ts = List.length p) by (exact (Forall2_len _ _ _ M)).
  pose proof (prefixMatches_skip (List.length ts) _ _ K) as S. rewrite L in S at 2.
  rewrite skipn_app, skipn_all, Nat.sub_diag in S. cbn in S. destruct S as (p2 & q2 & -> & M2).
  exists (p ++ p2), q2. split; [apply app_assoc|]. apply Forall2_app; assumption.
Qed.


(** [Inc] past the end would leave the position outside the input; paths only speak about runs where
    this does not happen, so [execB] is checked against a guarded version first. *)
Fixpoint okIncB (b : block) (n : nat) (k : nat -> bool) {struct b} : bool :=
  match b with
  | Bnil => k n
  | Bcons s b' => okIncS s n (fun n' => okIncB b' n' k)
  end
with okIncS (s : stmt) (n : nat) (k : nat -> bool) {struct s} : bool :=
  match s with
  | Inc m => Nat.leb m n && k (n - m)%nat
  | Ret _ => true
  | IfEnd m _ => k (Nat.max n (S m))
  | IfTerm _ => k (Nat.max n 1)
  | IfNext _ b => k n && okIncB b (Nat.max n 1) k
  | IfAll ts b => Nat.leb (List.length ts) n && k n && okIncB b (Nat.max n (List.length ts)) k
  | Switch _ cs => okIncC cs (Nat.max n 1) k
  end
with okIncC (cs : cases) (n : nat) (k : nat -> bool) {struct cs} : bool :=
  match cs with
  | Cnil => k n
  | Case _ b cs' => okIncB b n k && okIncC cs' n k
  end.

(** Combined soundness: with at least [n] bytes left and the tests [known] passed, the outcome follows a path,
    and falling through keeps enough bytes for the continuation. *)
Definition nextOk (k : nat -> bool) (o : iout) : Prop :=
  match o with INext r' => exists n', k n' = true /\ (n' <= List.length r')%nat | _ => True end.

Lemma matchAll_len ts : forall r, matchAll ts r = Some true -> (List.length ts <= List.length r)%nat.
Proof.
  induction ts as [|t ts IH]; intros [|x r] H; cbn in *; try lia; try discriminate.
  destruct (tmatch t x); [|discriminate]. apply IH in H. lia.
Qed.

Lemma matchAll_total ts : forall r, (List.length ts <= List.length r)%nat -> matchAll ts r <> None.
Proof.
  induction ts as [|t ts IH]; intros [|x r] L; cbn in *; try discriminate; try lia.
  destruct (tmatch t x); [apply IH; lia|discriminate].
Qed.

Theorem paths_sound :
  (forall b known r n k, prefixMatches known r -> (n <= List.length r)%nat -> okIncB b n k = true ->
     pathOk (pathsB b known) r (execB b r) /\ nextOk k (execB b r)) /\
  (forall s known r n k, prefixMatches known r -> (n <= List.length r)%nat -> okIncS s n k = true ->
     pathOk (pathsS s known) r (execS s r) /\ nextOk k (execS s r)) /\
  (forall cs low known x r n k, prefixMatches known (x :: r) -> (n <= S (List.length r))%nat -> okIncC cs n k = true ->
     pathOk (pathsC cs low known) (x :: r) (execC cs (if low then N.lor x 32 else x) (x :: r)) /\
     nextOk k (execC cs (if low then N.lor x 32 else x) (x :: r))).
Proof.
  apply tree_ind.
  - intros known r n k M L O. cbn in O. cbn [pathsB execB]. split; [|exists n; auto].
    apply pathOk_stay with known; [left; reflexivity|exact M].
  - intros s IHs b IHb known r n k M L O. cbn in O. cbn [pathsB execB].
    destruct (IHs known r n _ M L O) as [P1 N1]. destruct (execS s r) as [i r'|r'|] eqn:E.
    + split; [|exact I]. destruct P1 as (c & kk & res & p & H & R & Mc & D). exists c, kk, res, p. split; [|split; [exact R|split; [exact Mc|exact D]]].
      apply in_flat_map. exists (c, kk, res). split; [exact H|]. destruct res; try (left; reflexivity). destruct D as [[? _]|?]; discriminate.
    + destruct N1 as (n' & O' & L'). destruct P1 as (c & kk & p & H & R & Mc & K).
      destruct (IHb kk r' n' k K L' O') as [P2 N2]. split; [|exact N2].
      destruct (execB b r') as [i r''|r''|]; cbn [pathOk] in *.
      * destruct P2 as (c2 & k2 & res & p2 & H2 & R2 & M2 & D2). exists (c ++ c2), k2, res, (p ++ p2).
        split; [|split; [rewrite <- app_assoc, <- R2; exact R|split; [apply Forall2_app; assumption|exact D2]]].
        apply in_flat_map. exists (c, kk, PNext). split; [exact H|]. apply in_map_iff. exists (c2, k2, res). split; [reflexivity|exact H2].
      * destruct P2 as (c2 & k2 & p2 & H2 & R2 & M2 & D2). exists (c ++ c2), k2, (p ++ p2).
        split; [|split; [rewrite <- app_assoc, <- R2; exact R|split; [apply Forall2_app; assumption|exact D2]]].
        apply in_flat_map. exists (c, kk, PNext). split; [exact H|]. apply in_map_iff. exists (c2, k2, PNext). split; [reflexivity|exact H2].
      * destruct P2 as (c2 & k2 & H2 & M2). exists (c ++ c2), k2. split; [|rewrite R; apply Forall2_app; assumption].
        apply in_flat_map. exists (c, kk, PNext). split; [exact H|]. apply in_map_iff. exists (c2, k2, PPanic). split; [reflexivity|exact H2].
    + split; [|exact I]. destruct P1 as (c & kk & H & Mc). exists c, kk. split; [|exact Mc].
      apply in_flat_map. exists (c, kk, PPanic). split; [exact H|left; reflexivity].
  - (* Inc *) intros k0 known r n k M L O. cbn in O. apply andb_prop in O as [O1 O2]. apply Nat.leb_le in O1.
    cbn [pathsS execS]. split.
    + exists (firstn k0 (known ++ repeat TAny (k0 - List.length known))), (skipn k0 known), (firstn k0 r).
      split; [left; reflexivity|]. split; [symmetry; apply firstn_skipn|]. split; [|apply prefixMatches_skip, M].
      assert (L' : (k0 <= List.length r)%nat) by lia. clear O1 O2 L. rename L' into L. revert known r M L.
      induction k0 as [|k0 IH]; intros known r M L; [constructor|].
      destruct r as [|x r]; [cbn in L; lia|]. cbn in L. destruct known as [|t known].
      * cbn. constructor; [reflexivity|]. specialize (IH [] r (prefixMatches_nil _) ltac:(lia)). cbn in IH. rewrite Nat.sub_0_r in IH. exact IH.
      * destruct M as (p & q & E & M). destruct p as [|y p]; [inversion M|]. inversion M; subst. inversion E; subst.
        cbn. constructor; [assumption|]. apply IH; [exists p, q; auto|lia].
    + exists (n - k0)%nat. split; [exact O2|]. rewrite skipn_length. lia.
  - (* Ret *) intros i known r n k M L O. cbn [pathsS execS]. split; [|exact I].
    exists [], known, (PRet i), []. repeat split; [left; reflexivity|constructor|right; reflexivity].
  - (* IfEnd *) intros k0 i known r n k M L O. cbn in O. cbn [pathsS execS].
    destruct (Nat.leb (List.length r) k0) eqn:E.
    + split; [|exact I]. exists [], known, (PRet i), []. repeat split; [left; reflexivity|constructor|right; reflexivity].
    + apply Nat.leb_gt in E. split; [apply pathOk_stay with known; [right; left; reflexivity|exact M]|].
      exists (Nat.max n (S k0)). split; [exact O|lia].
  - (* IfTerm *) intros i known r n k M L O. cbn in O. cbn [pathsS execS]. destruct r as [|x r].
    + split; [|exact I]. exists [], known, (PTerm i), []. repeat split; [left; reflexivity|constructor|left; repeat split].
    + destruct (IsSipToken x) eqn:E; cbn [negb].
      * split; [apply pathOk_stay with known; [right; left; reflexivity|exact M]|]. exists (Nat.max n 1). split; [exact O|cbn [List.length] in *; lia].
      * split; [|exact I]. exists [], known, (PTerm i), []. repeat split; [left; reflexivity|constructor|left; split; [reflexivity|exact E]].
  - (* IfNext *) intros t b IHb known r n k M L O. cbn in O. apply andb_prop in O as [O1 O2]. cbn [pathsS execS].
    assert (Stay : pathOk (([], known, PNext) :: pathsB b (t :: tl known)) r (INext r) /\ nextOk k (INext r)).
    { split; [apply pathOk_stay with known; [left; reflexivity|exact M]|exists n; auto]. }
    destruct r as [|x r]; [exact Stay|]. destruct (tmatch t x) eqn:E; [|exact Stay].
    destruct (IHb (t :: tl known) (x :: r) (Nat.max n 1) k) as [P1 N1]; [| cbn [List.length] in *; lia|exact O2|].
    { apply prefixMatches_cons; [exact E|]. exact (prefixMatches_tl _ _ _ M). }
    split; [|exact N1]. eapply pathOk_incl; [|exact P1]. intros z Hz. right. exact Hz.
  - (* IfAll *) intros ts b IHb known r n k M L O. cbn in O. apply andb_prop in O as [O1 O2]. apply andb_prop in O1 as [O0 O1]. apply Nat.leb_le in O0. cbn [pathsS execS].
    destruct (matchAll ts r) as [[]|] eqn:E; [| |exfalso; apply (matchAll_total ts r); [lia|exact E]].
    + destruct (IHb (ts ++ skipn (List.length ts) known) r (Nat.max n (List.length ts)) k) as [P1 N1]; [| |exact O2|].
      * apply matchAll_known; assumption.
      * apply matchAll_len in E. lia.
      * split; [|exact N1]. eapply pathOk_incl; [|exact P1]. intros z Hz. right. exact Hz.
    + split; [apply pathOk_stay with known; [left; reflexivity|exact M]|exists n; auto].
  - (* Switch *) intros low cs IHc known r n k M L O. cbn in O. cbn [pathsS execS]. destruct r as [|x r].
    { split; [|exact I]. exists [], known. split; [left; reflexivity|constructor]. }
    destruct (IHc low known x r (Nat.max n 1) k M) as [P1 N1]; [cbn [List.length] in *; lia|exact O|].
    split; [|exact N1]. eapply pathOk_incl; [|exact P1]. intros z Hz. right. exact Hz.
  - (* Cnil *) intros low known x r n k M L O. cbn in O. cbn [pathsC execC]. split; [|exists n; auto].
    apply pathOk_stay with known; [left; reflexivity|exact M].
  - (* Case *) intros c b IHb cs IHc low known x r n k M L O. cbn in O. apply andb_prop in O as [O1 O2]. cbn [pathsC execC].
    destruct ((if low then N.lor x 32 else x) =? c) eqn:E.
    + destruct (IHb ((if low then TL c else TX c) :: tl known) (x :: r) n k) as [P1 N1]; [|exact L|exact O1|].
      * apply prefixMatches_cons; [destruct low; exact E|exact (prefixMatches_tl _ _ _ M)].
      * split; [|exact N1]. eapply pathOk_incl; [|exact P1]. intros z Hz. apply in_or_app. left. exact Hz.
    + destruct (IHc low known x r n k M L O2) as [P1 N1]. split; [|exact N1].
      eapply pathOk_incl; [|exact P1]. intros z Hz. apply in_or_app. right. exact Hz.
Qed.

(** Completeness: symbolic execution on a known prefix [n] followed by an unknown terminated tail. *)
Inductive sout := SRet (i : N) (n : bytes) | SNext (n : bytes) | SUnk.
Fixpoint symB (b : block) (n : bytes) {struct b} : sout :=
  match b with
  | Bnil => SNext n
  | Bcons s b' => match symS s n with SNext n' => symB b' n' | o => o end
  end
with symS (s : stmt) (n : bytes) {struct s} : sout :=
  match s with
  | Inc k => if Nat.leb k (List.length n) then SNext (skipn k n) else SUnk
  | Ret i => SRet i n
  | IfEnd k i => if Nat.ltb k (List.length n) then SNext n else SUnk
  | IfTerm i => match n with [] => SRet i n | x :: _ => if negb (IsSipToken x) then SRet i n else SNext n end
  | IfNext t b => match n with [] => SUnk | x :: _ => if tmatch t x then symB b n else SNext n end
  | IfAll ts b => if Nat.leb (List.length ts) (List.length n) then
                    match matchAll ts n with Some true => symB b n | Some false => SNext n | None => SUnk end
                  else SUnk
  | Switch low cs => match n with [] => SUnk | x :: _ => symC cs (if low then N.lor x 32 else x) n end
  end
with symC (cs : cases) (v : N) (n : bytes) {struct cs} : sout :=
  match cs with
  | Cnil => SNext n
  | Case c b cs' => if v =? c then symB b n else symC cs' v n
  end.

Definition symOk (o : sout) (tail : bytes) (x : iout) : Prop :=
  match o with SRet i n => x = IRet i (n ++ tail) | SNext n => x = INext (n ++ tail) | SUnk => True end.

Lemma matchAll_app ts : forall n tail, (List.length ts <= List.length n)%nat -> matchAll ts (n ++ tail) = matchAll ts n.
Proof.
  induction ts as [|t ts IH]; intros [|x n] tail L; cbn in *; try reflexivity; try lia.
  rewrite IH by lia. reflexivity.
Qed.

Theorem sym_sound tail : terminated tail ->
  (forall b n, symOk (symB b n) tail (execB b (n ++ tail))) /\
  (forall s n, symOk (symS s n) tail (execS s (n ++ tail))) /\
  (forall cs v n, symOk (symC cs v n) tail (execC cs v (n ++ tail))).
Proof.
  intros T. apply tree_ind; cbn [symB symS symC execB execS execC].
  - reflexivity.
  - intros s IHs b IHb n. specialize (IHs n). destruct (symS s n) as [i n'|n'|]; cbn [symOk] in *; [rewrite IHs; reflexivity|rewrite IHs; apply IHb|exact I].
  - intros k n. destruct (Nat.leb k (List.length n)) eqn:E; [|exact I]. apply Nat.leb_le in E. cbn [symOk].
    rewrite skipn_app. replace (k - List.length n)%nat with O by lia. reflexivity.
  - reflexivity.
  - intros k i n. destruct (Nat.ltb k (List.length n)) eqn:E; [|exact I]. apply Nat.ltb_lt in E. cbn [symOk].
    destruct (Nat.leb (List.length (n ++ tail)) k) eqn:E2; [|reflexivity]. apply Nat.leb_le in E2. rewrite app_length in E2. lia.
  - intros i [|x n]; cbn [app].
    + destruct tail as [|y tail]; [reflexivity|]. cbn in T. rewrite T. reflexivity.
    + destruct (negb (IsSipToken x)); reflexivity.
  - intros t b IHb [|x n]; [exact I|]. cbn [app]. destruct (tmatch t x); [apply IHb|reflexivity].
  - intros ts b IHb n. destruct (Nat.leb (List.length ts) (List.length n)) eqn:E; [|exact I]. apply Nat.leb_le in E.
    rewrite matchAll_app by exact E. destruct (matchAll ts n) as [[]|]; [apply IHb|reflexivity|exact I].
  - intros low cs IHc [|x n]; [exact I|]. cbn [app]. apply IHc.
  - reflexivity.
  - intros c b IHb cs IHc v n. destruct (v =? c); [apply IHb|apply IHc].
Qed.

(** Invariance under a byte normalisation that no test can see. *)
Definition testsInv (f : N -> N) (t : ctest) : Prop := forall x, tmatch t x = tmatch t (f x).
Fixpoint allTestsB (b : block) : list ctest :=
  match b with Bnil => [] | Bcons s b' => allTestsS s ++ allTestsB b' end
with allTestsS (s : stmt) : list ctest :=
  match s with
  | IfNext t b => t :: allTestsB b
  | IfAll ts b => ts ++ allTestsB b
  | Switch low cs => allTestsC low cs
  | _ => []
  end
with allTestsC (low : bool) (cs : cases) : list ctest :=
  match cs with Cnil => [] | Case c b cs' => (if low then TL c else TX c) :: allTestsB b ++ allTestsC low cs' end.

Definition mapOut (f : N -> N) (o : iout) : iout :=
  match o with IRet i r => IRet i (map f r) | INext r => INext (map f r) | IPanic => IPanic end.
Lemma matchAll_map f ts : Forall (testsInv f) ts -> forall r, matchAll ts (map f r) = matchAll ts r.
Proof.
  intros H. induction H as [|t ts Ht _ IH]; intros [|x r]; cbn; try reflexivity.
  rewrite <- Ht, IH. reflexivity.
Qed.
Theorem exec_map f : (forall x, IsSipToken (f x) = IsSipToken x) ->
  (forall b r, Forall (testsInv f) (allTestsB b) -> execB b (map f r) = mapOut f (execB b r)) /\
  (forall s r, Forall (testsInv f) (allTestsS s) -> execS s (map f r) = mapOut f (execS s r)) /\
  (forall cs low x r, Forall (testsInv f) (allTestsC low cs) ->
     execC cs (if low then N.lor (f x) 32 else f x) (map f r) = mapOut f (execC cs (if low then N.lor x 32 else x) r)).
Proof.
  intros Tok. apply tree_ind; cbn [allTestsB allTestsS allTestsC execB execS execC].
  - reflexivity.
  - intros s IHs b IHb r H. apply Forall_app in H as [H1 H2]. rewrite IHs by exact H1.
    destruct (execS s r); cbn [mapOut]; try reflexivity. apply IHb, H2.
  - intros k r _. cbn [mapOut]. rewrite skipn_map. reflexivity.
  - reflexivity.
  - intros k i r _. rewrite map_length. destruct (Nat.leb _ _); reflexivity.
  - intros i [|x r] _; cbn [map]; [reflexivity|]. rewrite Tok. destruct (negb _); reflexivity.
  - intros t b IHb [|x r] H; cbn [map]; [reflexivity|]. inversion H; subst. rewrite <- H2. change (f x :: map f r) with (map f (x :: r)).
    destruct (tmatch t x); [apply IHb; assumption|reflexivity].
  - intros ts b IHb r H. apply Forall_app in H as [H1 H2]. rewrite matchAll_map by exact H1.
    destruct (matchAll ts r) as [[]|]; [apply IHb; assumption|reflexivity|reflexivity].
  - intros low cs IHc [|x r] H; cbn [map]; [reflexivity|]. apply (IHc low x (x :: r) H).
  - reflexivity.
  - intros c b IHb cs IHc low x r H. inversion H; subst. apply Forall_app in H3 as [H3 H4].
    assert (E : ((if low then N.lor (f x) 32 else f x) =? c) = ((if low then N.lor x 32 else x) =? c)).
    { destruct low; cbn [tmatch] in H2; symmetry; apply (H2 x). }
    rewrite E. destruct ((if low then N.lor x 32 else x) =? c); [apply IHb; assumption|apply IHc; assumption].
Qed.

(** No panic while a byte [stop] that no test accepts is ahead. *)
Fixpoint safeB (b : block) (known : list ctest) (n : nat) (k : list ctest -> nat -> bool) (stop : N) {struct b} : bool :=
  match b with
  | Bnil => k known n
  | Bcons s b' => safeS s known n (fun kn m => safeB b' kn m k stop) stop
  end
with safeS (s : stmt) (known : list ctest) (n : nat) (k : list ctest -> nat -> bool) (stop : N) {struct s} : bool :=
  match s with
  | Inc m => Nat.leb m (List.length known) && forallb (fun t => negb (tmatch t stop)) (firstn m known) && k (skipn m known) (n - m)%nat
  | Ret _ => true
  | IfEnd m _ => k known (Nat.max n (S m))
  | IfTerm _ => k known n
  | IfNext t b => k known n && safeB b (t :: tl known) (Nat.max n 1) k stop
  | IfAll ts b => Nat.leb (List.length ts) n && k known n && safeB b (ts ++ skipn (List.length ts) known) n k stop
  | Switch low cs => safeC cs low known n k stop
  end
with safeC (cs : cases) (low : bool) (known : list ctest) (n : nat) (k : list ctest -> nat -> bool) (stop : N) {struct cs} : bool :=
  match cs with
  | Cnil => k known n
  | Case c b cs' => safeB b ((if low then TL c else TX c) :: tl known) n k stop && safeC cs' low known n k stop
  end.

Definition safeOut (k : list ctest -> nat -> bool) (stop : N) (o : iout) : Prop :=
  match o with
  | IPanic => False
  | IRet _ _ => True
  | INext r' => exists kn m, k kn m = true /\ prefixMatches kn r' /\ (m <= List.length r')%nat /\ In stop r'
  end.

Lemma stop_ahead stop m : forall known r, prefixMatches known r -> (m <= List.length known)%nat ->
  forallb (fun t => negb (tmatch t stop)) (firstn m known) = true -> In stop r -> In stop (skipn m r).
Proof.
  induction m as [|m IH]; intros known r M L F I; [exact I|].
  destruct known as [|t known]; [cbn in L; lia|]. cbn in F. apply andb_prop in F as [F1 F2].
  destruct r as [|x r]; [destruct I|]. pose proof (prefixMatches_tl _ _ _ M) as M'. cbn in M', L.
  apply (IH known r M'); [lia|exact F2|]. destruct I as [->|I]; [|exact I].
  destruct M as (p & q & E & M). destruct p as [|y p]; [inversion M|]. inversion M; subst. inversion E; subst.
  rewrite H2 in F1. discriminate.
Qed.

Theorem safe_sound stop :
  (forall b known n k r, safeB b known n k stop = true -> prefixMatches known r -> (n <= List.length r)%nat -> In stop r ->
     safeOut k stop (execB b r)) /\
  (forall s known n k r, safeS s known n k stop = true -> prefixMatches known r -> (n <= List.length r)%nat -> In stop r ->
     safeOut k stop (execS s r)) /\
  (forall cs low known n k x r, safeC cs low known n k stop = true -> prefixMatches known (x :: r) -> (n <= S (List.length r))%nat -> In stop (x :: r) ->
     safeOut k stop (execC cs (if low then N.lor x 32 else x) (x :: r))).
Proof.
  apply tree_ind; cbn [safeB safeS safeC execB execS execC].
  - intros known n k r S M L I. exists known, n. auto.
  - intros s IHs b IHb known n k r S M L I. specialize (IHs _ _ _ _ S M L I). destruct (execS s r); cbn [safeOut] in *; try exact IHs.
    destruct IHs as (kn & m & S2 & M2 & L2 & I2). exact (IHb _ _ _ _ S2 M2 L2 I2).
  - intros m known n k r S M L I. apply andb_prop in S as [S S3]. apply andb_prop in S as [S1 S2]. apply Nat.leb_le in S1.
    exists (skipn m known), (n - m)%nat. repeat split; [exact S3|apply prefixMatches_skip, M|rewrite skipn_length; lia|].
    eapply stop_ahead; eassumption.
  - intros; exact Logic.I.
  - intros m i known n k r S M L I. destruct (Nat.leb (List.length r) m) eqn:E; [exact Logic.I|]. apply Nat.leb_gt in E.
    exists known, (Nat.max n (Datatypes.S m)). repeat split; auto. lia.
  - intros i known n k r S M L I. destruct r as [|x r]; [destruct I|]. destruct (negb (IsSipToken x)); [exact Logic.I|]. exists known, n. auto.
  - intros t b IHb known n k r S M L I. apply andb_prop in S as [S1 S2]. destruct r as [|x r]; [destruct I|].
    destruct (tmatch t x) eqn:E; [|exists known, n; auto]. refine (IHb _ _ _ _ S2 _ _ I).
    + apply prefixMatches_cons; [exact E|exact (prefixMatches_tl _ _ _ M)].
    + cbn [List.length] in *. lia.
  - intros ts b IHb known n k r S M L I. apply andb_prop in S as [S S3]. apply andb_prop in S as [S1 S2]. apply Nat.leb_le in S1.
    assert (L2 : (List.length ts <= List.length r)%nat) by lia. pose proof (matchAll_total ts r L2) as Tt. destruct (matchAll ts r) as [[]|] eqn:E; [| |contradiction].
    + refine (IHb _ _ _ _ S3 _ L I). apply matchAll_known; assumption.
    + exists known, n. auto.
  - intros low cs IHc known n k r S M L I. destruct r as [|x r]; [destruct I|]. exact (IHc low known n k x r S M L I).
  - intros low known n k x r S M L I. exists known, n. auto.
  - intros c b IHb cs IHc low known n k x r S M L I. apply andb_prop in S as [S1 S2].
    destruct ((if low then N.lor x 32 else x) =? c) eqn:E; [|exact (IHc low known n k x r S2 M L I)].
    refine (IHb _ _ _ (x :: r) S1 _ L I). apply prefixMatches_cons; [destruct low; exact E|exact (prefixMatches_tl _ _ _ M)].
Qed.
