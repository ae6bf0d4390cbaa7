(** Property C26: generic header parameters. *)
From Verif Require Import Base Charset CharsetSpec BaseLemmas Lws LwsSpec Str StrSpec StrProofs Monad Good Rt Seq Room Inv Uri UriSpec UriProofs GenParam GenParamSpec GenParamProofs.

(** Distinct names, ignoring case. *)
Definition distinctNames (names : list bytes) : Prop := NoDup (map (map asciiLower) names) /\ ~ In [] names.
Lemma distinct_find names : distinctNames names -> forall i, (i < List.length names)%nat -> findName names (nth i names []) 0 = Some i.
Proof.
  intros [ND NE]. assert (G : forall names j i, NoDup (map (map asciiLower) names) -> ~ In [] names -> (i < List.length names)%nat -> findName names (nth i names []) j = Some (j + i)%nat).
  { clear. induction names as [|x names IH]; intros j i ND NE Hi; [cbn in Hi; lia|]. cbn [map] in ND. inversion ND as [|? ? Nx ND']; subst.
    assert (Hx : x <> []) by (intros ->; apply NE; left; reflexivity). cbn [findName]. destruct i as [|i]; cbn [nth].
    - rewrite equalNoCase_refl by exact Hx. f_equal. lia.
    - cbn [List.length] in Hi. destruct (equalNoCase (nth i names []) x) eqn:E.
      + exfalso. apply equalNoCase_spec in E; [|exact Hx]. apply Nx. unfold sameNoCase in E. rewrite <- E. apply in_map, nth_In. lia.
      + rewrite IH; [f_equal; lia|exact ND'|intros X; apply NE; right; exact X|lia]. }
  intros i Hi. rewrite G; auto.
Qed.
Lemma distinct_good names : distinctNames names -> goodNames names = true.
Proof.
  intros H. unfold goodNames. apply andb_true_iff. split; apply forallb_forall.
  - intros i Hi. apply in_seq in Hi. rewrite distinct_find; [apply Nat.eqb_refl|exact H|lia].
  - intros n Hn. destruct n; [destruct H as [_ H]; contradiction|reflexivity].
Qed.

(** A list of parameters, any separator that is not a token character, "=" or white space. *)
Theorem C26_params_round_trip : forall e sep ps k u,
  rfcToken sep = false -> rfcLWSchar sep = false -> sep <> 61 ->
  Forall wfGenParam ps -> gpEnds sep k -> roomFor e (u + 14 + 15 * len (encGenParams sep [] None ps ++ k)) ->
  exists u', parseGenParams sep noKnown [] e (mkst (encGenParams sep [] None ps ++ k) u) = Ok (None, ps) (mkst k u').
Proof.
  intros e sep ps k u S1 S2 S3 W F R.
  destruct (rt_genParamsList (withMem None e) sep noKnown [] ps k u (None, []) eq_refl (conj S1 (conj S2 S3)) W F) as [u' E].
  exists u'. rewrite (room_eq _ _ _ _ _ (gd_genParams 15 sep noKnown [] e _ (fun _ _ => eq_refl) ltac:(reflexivity || discriminate))); [|exact R].
  rewrite <- (fold_plain false [] gpName ps ltac:(constructor) ltac:(discriminate) None []) at 1. exact E.
Qed.
Print Assumptions C26_params_round_trip.
(** The same with a table of recognised names (From, To, Via, Contact, ...), kept apart from the other parameters. *)
Theorem C26_known_params_round_trip : forall e (on : env -> bool) names t ps k u,
  (forall m, on (withMem m e) = on e) -> distinctNames names -> wfGenParams (on e) names t ps -> gpEnds 59 k ->
  roomFor e (u + (14 + 2 * N.of_nat (List.length names)) + (15 + 2 * N.of_nat (List.length names)) * len (encGenParams 59 names t ps ++ k)) ->
  exists u', parseGenParams 59 on names e (mkst (encGenParams 59 names t ps ++ k) u) = Ok (t, ps) (mkst k u').
Proof.
  intros e on0 names t ps k u Hon D W F R. set (on := fun _ : env => on0 e).
  assert (Eq : forall m s, parseGenParams 59 on0 names (withMem m e) s = parseGenParams 59 on names (withMem m e) s).
  { intros m s. unfold parseGenParams, loopP. generalize (S (List.length (rest s))) as f. intros f. revert s. generalize (@None (list (option gparam)), @nil gparam) as a. induction f as [|f IH]; intros a s; [reflexivity|].
    cbn [iterP]. unfold bind. assert (B : gpBody 59 (fun a p => withEnv (fun e0 => addParam (on0 e0) names gpName a p)) a (withMem m e) s = gpBody 59 (fun a p => withEnv (fun e0 => addParam (on e0) names gpName a p)) a (withMem m e) s).
    { unfold gpBody, onRest. destruct (rest s); [reflexivity|]. destruct (IsOnlyCRLF _); [reflexivity|]. destruct (_ && _)%bool; [reflexivity|]. destruct (ParseSWSMarkCanOmmit _ _) as [[r' []] []]; try reflexivity.
      unfold bind. destruct (goto _ _ _) as [? s1|? | |]; try reflexivity. destruct (allocStruct _ _ _) as [? s2|? | |]; try reflexivity. destruct (parseGenParam _ _) as [p s3|? | |]; try reflexivity.
      unfold withEnv, on. now rewrite Hon. }
    rewrite B. clear B. match goal with |- match ?x with _ => _ end = _ => destruct x as [[a'|b] s'|s'| |] end; try reflexivity. apply IH. }
  destruct (rt_genParams (withMem None e) on names t ps k u eq_refl (distinct_good _ D) W F) as [u' E]. exists u'.
  pose proof (Eq (memend e) (mkst (encGenParams 59 names t ps ++ k) u)) as Eq1. rewrite withMem_self in Eq1. rewrite Eq1.
  assert (G : goodAt (15 + 2 * N.of_nat (List.length names)) (14 + 2 * N.of_nat (List.length names)) (parseGenParams 59 on names) e (mkst (encGenParams 59 names t ps ++ k) u)).
  { apply gd_genParams; [intros ? ?; reflexivity|unfold gpCost; lia]. }
  rewrite (room_eq _ _ _ _ _ G R). exact E.
Qed.
Print Assumptions C26_known_params_round_trip.
Definition exParams : list gparam :=
  [mkgp (s2b "a") None; mkgp (s2b "b%z") (Some (GToken (s2b "x.1"))); mkgp (s2b "Q") (Some (GQuoted (s2b "say \""hi\"" ;,"))); mkgp (s2b "ip") (Some (GBracket (s2b "[::1]")))].
Lemma exParams_wf : Forall wfGenParam exParams.
Proof.
  unfold exParams. repeat (apply Forall_cons || apply Forall_nil); (split; [split; [discriminate|vm_compute; reflexivity]|]); cbn [gpValue]; try exact I.
  - split; [discriminate|vm_compute; reflexivity].
  - repeat first [apply QBNil | apply QBPair | apply QBText; [vm_compute; reflexivity|] | apply QBWs; [vm_compute; reflexivity|]].
  - exists (s2b "::1"). split; [reflexivity|]. vm_compute. intuition discriminate.
Qed.
Example C26_case : let e := textNet (fun _ => false) (Some 2000) in
  Forall wfGenParam exParams /\ gpEnds 59 (CRLF ++ s2b "To: x") /\ roomFor e (8 + 14 + 15 * len (encGenParams 59 [] None exParams ++ CRLF ++ s2b "To: x")) /\
  encGenParams 59 [] None exParams = s2b ";a;b%z=x.1;Q=""say \""hi\"" ;,"";ip=[::1]" /\
  distinctNames [s2b "tag"] /\ wfGenParams true [s2b "tag"] (Some [Some (mkgp (s2b "tag") (Some (GToken (s2b "88"))))]) exParams.
Proof.
  cbv zeta. split; [apply exParams_wf|]. split; [left; right; exists (s2b "To: x"); split; [reflexivity|intros (x & t & [= <- _] & [X|X]); discriminate]|].
  split; [vm_compute; discriminate|]. split; [vm_compute; reflexivity|]. split; [split; [repeat constructor; vm_compute; intuition discriminate|vm_compute; intuition discriminate]|].
  split; [|apply exParams_wf]. split.
  - intros _ p n Hp [<-|[]] Q. cbn in Hp. decompose [or] Hp; subst; try contradiction; vm_compute in Q; discriminate.
  - split; [reflexivity|]. split; [discriminate|]. repeat constructor; discriminate.
Qed.
(** Outside this domain: a folded quoted value is accepted, is written differently, and reading what was written never ends. *)
Theorem C26_folded_quoted_refuted : exists p s',
  parseGenParam (defaultEnv None) (mkst (s2b "a=""x" ++ CRLF ++ s2b " y""") 8) = Ok p s' /\
  encGenParam p = s2b "a=""x" ++ [13; 13] ++ s2b " y""" /\
  parseGenParam (defaultEnv None) (mkst (encGenParam p) 8) = Loop.
Proof. eexists. eexists. split; [vm_compute; reflexivity|]. split; vm_compute; reflexivity. Qed.
Print Assumptions C26_folded_quoted_refuted.
