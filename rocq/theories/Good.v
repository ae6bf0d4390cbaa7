(** The compositional well-behavedness predicate of parsers: position discipline, linear memory, no dependence on the arena size
    once it is large enough, and the only causes of panics and non-termination. *)
From Verif Require Import Base Charset BaseLemmas Num NumSpec NumProofs Lws LwsSpec LwsProofs Str StrSpec StrProofs Monad.

(** Inputs on which a quoted string may loop for ever: somewhere after a double quote there is an LF that does not follow a CR, a CR
    that is not followed by LF, or a backslash followed by CR. *)
Definition loneBreak (b : bytes) : Prop :=
  (exists p q, b = p ++ 10 :: q /\ ~ (exists p', p = p' ++ [13])) \/
  (exists p q, b = p ++ 13 :: q /\ ~ (exists q', q = 10 :: q')) \/
  (exists p q, b = p ++ 92 :: 13 :: q).
Definition loopy (r : bytes) : Prop := exists a b, r = a ++ 34 :: b /\ loneBreak b.

(** Inputs on which a parser may panic: the input is cut off before the end of a line, or it contains a "phone-context" parameter
    name (possibly with escapes) that is not followed by "=". *)
Definition cutOff (r : bytes) : Prop := exists p x, r = p ++ [x] /\ x <> 10.
Definition bareContext (r : bytes) : Prop := exists a run b tok,
  r = a ++ run ++ b /\ Decodes (inset SIP_PNAME) run tok /\ sameNoCase tok (s2b "phone-context") /\ ~ (exists b', b = 61 :: b').
Definition crashy (r : bytes) : Prop := cutOff r \/ bareContext r.

Lemma loopy_suffix a b : suffix a b -> loopy a -> loopy b.
Proof. intros [p ->] (x & y & -> & H). exists (p ++ x), y. split; [apply app_assoc|exact H]. Qed.
Lemma crashy_suffix a b : suffix a b -> crashy a -> crashy b.
Proof.
  intros [p ->] [(q & x & -> & H)|(x & run & y & tok & -> & H)]; [left|right].
  - exists (p ++ q), x. split; [apply app_assoc|exact H].
  - exists (p ++ x), run, y, tok. split; [apply app_assoc|exact H].
Qed.

Definition unlimited (e : env) : env := withMem None e.

Record goodAt {A} (K C : N) (p : P A) (e : env) (s : st) : Prop := mkgood {
  good_any : forall m, match p (withMem m e) s with
                       | Ok _ s' | Fail s' => suffix (rest s') (rest s) /\ used s <= used s'
                       | Panic => True
                       | Loop => loopy (rest s)
                       end;
  good_mem : match p (withMem None e) s with
             | Ok _ s' => used s' + K * len (rest s') <= used s + C + K * len (rest s)
             | Fail s' => used s' <= used s + C + K * len (rest s)
             | Panic => crashy (rest s)
             | Loop => True
             end;
  good_enough : forall m, used s + C + K * len (rest s) <= m -> p (withMem (Some m) e) s = p (withMem None e) s
}.
Definition good {A} (K C : N) (p : P A) : Prop := forall e s, goodAt K C p e s.

Lemma goodAt_weaken {A} K C K' C' (p : P A) e s : K' <= K -> C' <= C -> goodAt K' C' p e s -> goodAt K C p e s.
Proof.
  intros HK HC [G1 G2 G3].
  assert (M : forall x y : bytes, len x <= len y -> K' * len y + K * len x <= K * len y + K' * len x).
  { intros x y L. nia. }
  split; [exact G1| |].
  - specialize (G1 None). destruct (p (withMem None e) s) as [a s'|s'| |]; [| |assumption|assumption].
    + destruct G1 as [Su _]. apply suffix_len in Su. specialize (M _ _ Su). lia.
    + nia.
  - intros m Hm. apply G3. nia.
Qed.

Lemma goodAt_ret {A} K C (a : A) e s : goodAt K C (ret a) e s.
Proof. split; cbn; intros; [split; [apply suffix_refl|lia]|lia|reflexivity]. Qed.
Lemma goodAt_pfail {A} K C e s : goodAt K C (@pfail A) e s.
Proof. split; cbn; intros; [split; [apply suffix_refl|lia]|lia|reflexivity]. Qed.
Lemma goodAt_goto K C r e s : suffix r (rest s) -> goodAt K C (goto r) e s.
Proof.
  intros H. pose proof (suffix_len _ _ H). split; cbn; intros; [split; [exact H|lia]|nia|reflexivity].
Qed.
Lemma goodAt_onRest {A} K C (f : bytes -> P A) e s : goodAt K C (f (rest s)) e s -> goodAt K C (onRest f) e s.
Proof. intros [G1 G2 G3]. split; assumption. Qed.
Lemma goodAt_panic {A} K C e s : crashy (rest s) -> goodAt K C (@panic A) e s.
Proof. intros H. split; cbn; intros; auto. Qed.

(** Flags, not the memory size, may influence a parser through [withEnv]. *)
Lemma goodAt_withEnv {A} K C (f : env -> P A) e s : (forall m, f (withMem m e) = f e) -> goodAt K C (f e) e s -> goodAt K C (withEnv f) e s.
Proof.
  intros H [G1 G2 G3]. unfold withEnv. split; intros; cbv beta; rewrite ?H; auto. apply G1.
Qed.

Lemma goodAt_bind {A B} K C C1 (p : P A) (q : A -> P B) e s :
  goodAt K C1 p e s -> C1 <= C -> (forall a s' m, p (withMem m e) s = Ok a s' -> goodAt K (C - C1) (q a) e s') ->
  goodAt K C (bind p q) e s.
Proof.
  intros [G1 G2 G3] HC Q. unfold bind. split.
  - intros m. specialize (G1 m). destruct (p (withMem m e) s) as [a s'|s'| |] eqn:E; [|exact G1|exact I|exact G1].
    destruct (Q a s' m E) as [Q1 _ _]. specialize (Q1 m). destruct G1 as [S1 U1].
    destruct (q a (withMem m e) s') as [b s2|s2| |]; [| |exact I|].
    + destruct Q1 as [S2 U2]. split; [exact (suffix_trans _ _ _ S2 S1)|lia].
    + destruct Q1 as [S2 U2]. split; [exact (suffix_trans _ _ _ S2 S1)|lia].
    + exact (loopy_suffix _ _ S1 Q1).
  - specialize (G1 None). destruct (p (withMem None e) s) as [a s'|s'| |] eqn:E; [| |exact G2|exact I].
    + destruct (Q a s' None E) as [_ Q2 _]. destruct G1 as [S1 U1].
      destruct (q a (withMem None e) s') as [b s2|s2| |]; [lia|lia| |exact I]. exact (crashy_suffix _ _ S1 Q2).
    + lia.
  - intros m Hm. rewrite (G3 m) by lia. destruct (p (withMem None e) s) as [a s'|s'| |] eqn:E; try reflexivity.
    destruct (Q a s' None E) as [_ _ Q3]. apply Q3. lia.
Qed.

Lemma goodAt_attempt {A} K C (p : P A) e s : goodAt K C p e s ->
  (forall s' m, p (withMem m e) s = Fail s' -> used s' = used s) -> goodAt K C (attempt p) e s.
Proof.
  intros [G1 G2 G3] F. unfold attempt. split.
  - intros m. specialize (G1 m). destruct (p (withMem m e) s); exact G1.
  - specialize (G1 None). destruct (p (withMem None e) s) as [a s'|s'| |] eqn:E; try exact G2. rewrite (F _ _ E).
    destruct G1 as [S1 _]. apply suffix_len in S1. nia.
  - intros m Hm. rewrite (G3 m Hm). reflexivity.
Qed.
(** Restoring the position after a failure that allocated nothing. *)
Lemma goodAt_orRestore {A} K C (p q : P A) e s : goodAt K C p e s -> goodAt K C q e s ->
  (forall s' m, p (withMem m e) s = Fail s' -> used s' = used s) -> goodAt K C (orRestore p q) e s.
Proof.
  intros [G1 G2 G3] [H1 H2 H3] F. unfold orRestore.
  assert (E0 : mkst (rest s) (used s) = s) by (destruct s; reflexivity). split.
  - intros m. specialize (G1 m). destruct (p (withMem m e) s) as [a s'|s'| |] eqn:E; try exact G1.
    rewrite (F _ _ E), E0. apply H1.
  - destruct (p (withMem None e) s) as [a s'|s'| |] eqn:E; try exact G2. rewrite (F _ _ E), E0. exact H2.
  - intros m Hm. rewrite (G3 m Hm). destruct (p (withMem None e) s) as [a s'|s'| |] eqn:E; try reflexivity.
    rewrite (F _ _ E), E0. apply H3, Hm.
Qed.

(** ** Loops *)
Definition progresses {A B} (body : A -> P (A + B)) : Prop :=
  forall a e s a' s', body a e s = Ok (inl a') s' -> (List.length (rest s') < List.length (rest s))%nat.

Lemma iterP_fuel {A B} (body : A -> P (A + B)) : progresses body ->
  forall f g a e s, (List.length (rest s) < f)%nat -> (List.length (rest s) < g)%nat -> iterP f body a e s = iterP g body a e s.
Proof.
  intros Pr. induction f as [|f IH]; intros g a e s Hf Hg; [lia|]. destruct g as [|g]; [lia|]. cbn [iterP]. unfold bind.
  destruct (body a e s) as [[a'|b] s'|s'| |] eqn:E; try reflexivity. apply Pr in E. apply IH; lia.
Qed.
Lemma loopP_unfold {A B} (body : A -> P (A + B)) a e s : progresses body ->
  loopP body a e s = match body a e s with
                     | Ok (inl a') s' => loopP body a' e s'
                     | Ok (inr b) s' => Ok b s'
                     | Fail s' => Fail s' | Panic => Panic | Loop => Loop
                     end.
Proof.
  intros Pr. unfold loopP at 1. cbn [iterP]. unfold bind. destruct (body a e s) as [[a'|b] s'|s'| |] eqn:E; try reflexivity.
  unfold loopP. apply Pr in E. apply iterP_fuel; [exact Pr|lia|lia].
Qed.

Lemma goodAt_iterP {A B} Kb Cb K (body : A -> P (A + B)) e : progresses body -> Kb + Cb <= K ->
  (forall a s, goodAt Kb Cb (body a) e s) ->
  forall n f a s, (List.length (rest s) <= n)%nat -> (n < f)%nat -> goodAt K Cb (iterP f body a) e s.
Proof.
  intros Pr HK G. induction n as [n IH] using lt_wf_ind. intros f a s Hn Hf. destruct f as [|f]; [lia|]. cbn [iterP].
  assert (G' : forall a' s', (List.length (rest s') < List.length (rest s))%nat -> goodAt K Cb (iterP f body a') e s').
  { intros a' s' L. apply (IH (List.length (rest s'))); lia. }
  destruct (G a s) as [G1 G2 G3]. unfold bind. split.
  - intros m. specialize (G1 m). destruct (body a (withMem m e) s) as [[a'|b] s'|s'| |] eqn:E; try exact G1.
    apply Pr in E. destruct (G' a' s' E) as [Q1 _ _]. specialize (Q1 m). destruct G1 as [S1 U1].
    destruct (iterP f body a' (withMem m e) s') as [b s2|s2| |]; [| |exact I|].
    + destruct Q1 as [S2 U2]. split; [exact (suffix_trans _ _ _ S2 S1)|lia].
    + destruct Q1 as [S2 U2]. split; [exact (suffix_trans _ _ _ S2 S1)|lia].
    + exact (loopy_suffix _ _ S1 Q1).
  - specialize (G1 None). destruct (body a (withMem None e) s) as [[a'|b] s'|s'| |] eqn:E; [| | |exact G2|exact I].
    + apply Pr in E. destruct (G' a' s' E) as [_ Q2 _]. destruct G1 as [S1 U1]. apply suffix_len in S1 as L1. unfold len in *.
      destruct (iterP f body a' (withMem None e) s') as [b s2|s2| |]; [| | |exact I]; try nia. exact (crashy_suffix _ _ S1 Q2).
    + destruct G1 as [S1 U1]. apply suffix_len in S1 as L1. cbn. nia.
    + nia.
  - intros m Hm. rewrite (G3 m) by nia. specialize (G1 None). destruct (body a (withMem None e) s) as [[a'|b] s'|s'| |] eqn:E; try reflexivity.
    apply Pr in E. destruct (G' a' s' E) as [_ _ Q3]. apply Q3. destruct G1 as [S1 U1]. apply suffix_len in S1. unfold len in *. nia.
Qed.
Lemma goodAt_loopP {A B} Kb Cb K C (body : A -> P (A + B)) a e s : progresses body -> Kb + Cb <= K -> Cb <= C ->
  (forall a s, goodAt Kb Cb (body a) e s) -> goodAt K C (loopP body a) e s.
Proof.
  intros Pr HK HC G. apply (goodAt_weaken K C K Cb); [lia|exact HC|].
  destruct (goodAt_iterP Kb Cb K body e Pr HK G (List.length (rest s)) (S (List.length (rest s))) a s) as [G1 G2 G3]; [lia|lia|].
  split; assumption.
Qed.

(** ** Primitives *)
Lemma goodAt_liftB K C f e s : suffix (fst (f (rest s))) (rest s) -> goodAt K C (liftB f) e s.
Proof.
  intros H. unfold liftB. pose proof (suffix_len _ _ H). destruct (f (rest s)) as [r []] eqn:E; cbn [fst] in *; split; intros; cbv beta; rewrite ?E; cbn;
  try reflexivity; try (split; [exact H|lia]); try nia.
Qed.
Lemma goodAt_pSWS K C e s : goodAt K C pSWS e s.
Proof.
  unfold pSWS. pose proof (ParseSWS_suffix (rest s)) as H. pose proof (suffix_len _ _ H).
  split; cbn; intros; [split; [exact H|lia]|nia|reflexivity].
Qed.
Lemma ParseHcolon_suffix r : suffix (fst (ParseHcolon r)) r.
Proof.
  unfold ParseHcolon. pose proof (skipWsp_suffix r) as H. destruct (skipWsp r) as [|x t]; [apply suffix_nil|].
  destruct (negb (x =? 58)); cbn [fst]; [exact H|]. eapply suffix_trans; [apply ParseSWS_suffix|]. eapply suffix_cons, H.
Qed.
Lemma ParseSWSMark_suffix m r : suffix (fst (ParseSWSMark m r)) r.
Proof.
  unfold ParseSWSMark. pose proof (ParseSWS_suffix r) as H. destruct (ParseSWS_2 r) as [|x t]; [apply suffix_nil|].
  destruct (negb (x =? m)); cbn [fst]; [exact H|]. eapply suffix_trans; [apply ParseSWS_suffix|]. eapply suffix_cons, H.
Qed.
Lemma ParseSWSMarkCanOmmit_suffix m r : suffix (fst (fst (ParseSWSMarkCanOmmit m r))) r.
Proof.
  unfold ParseSWSMarkCanOmmit. pose proof (ParseSWS_suffix r) as H. destruct (ParseSWS_2 r) as [|x t]; [apply suffix_nil|].
  destruct (negb (x =? m)); cbn [fst]; [exact H|]. eapply suffix_trans; [apply ParseSWS_suffix|]. eapply suffix_cons, H.
Qed.
Lemma ParseLeftAngleQuote_suffix r : suffix (fst (ParseLeftAngleQuote r)) r.
Proof.
  unfold ParseLeftAngleQuote. destruct r as [|y r]; [apply suffix_nil|]. pose proof (ParseSWS_suffix (y :: r)) as H. destruct (ParseSWS_2 (y :: r)) as [|x t]; [apply suffix_nil|].
  destruct (negb (x =? 60)); cbn [fst]; [exact H|]. eapply suffix_cons, H.
Qed.
Lemma ParseRightAngleQuote_suffix r : suffix (fst (ParseRightAngleQuote r)) r.
Proof.
  unfold ParseRightAngleQuote. destruct r as [|y r]; [apply suffix_nil|]. destruct (negb (y =? 62)); cbn [fst]; [apply suffix_refl|]. apply suffix_tl, ParseSWS_suffix.
Qed.
Lemma ParseCRLF_suffix r : suffix (fst (ParseCRLF r)) r.
Proof. unfold ParseCRLF. destruct r as [|a [|b r]]; try apply suffix_refl. destruct (_ && _); cbn; auto with suf. Qed.
Lemma goodAt_pLWS K C e s : goodAt K C pLWS e s. Proof. apply goodAt_liftB, ParseLWS_suffix. Qed.
Lemma goodAt_pHcolon K C e s : goodAt K C pHcolon e s. Proof. apply goodAt_liftB, ParseHcolon_suffix. Qed.
Lemma goodAt_pSWSMark K C m e s : goodAt K C (pSWSMark m) e s. Proof. apply goodAt_liftB, ParseSWSMark_suffix. Qed.
Lemma goodAt_pLeftAngleQuote K C e s : goodAt K C pLeftAngleQuote e s. Proof. apply goodAt_liftB, ParseLeftAngleQuote_suffix. Qed.
Lemma goodAt_pRightAngleQuote K C e s : goodAt K C pRightAngleQuote e s. Proof. apply goodAt_liftB, ParseRightAngleQuote_suffix. Qed.
Lemma goodAt_pCRLF K C e s : goodAt K C pCRLF e s. Proof. apply goodAt_liftB, ParseCRLF_suffix. Qed.
Lemma goodAt_pSWSMarkCanOmmit K C m e s : goodAt K C (pSWSMarkCanOmmit m) e s.
Proof.
  unfold pSWSMarkCanOmmit. pose proof (ParseSWSMarkCanOmmit_suffix m (rest s)) as H. pose proof (suffix_len _ _ H).
  destruct (ParseSWSMarkCanOmmit m (rest s)) as [[r mt] []] eqn:E; cbn [fst] in *; split; intros; cbv beta; rewrite ?E; cbn;
  try reflexivity; try (split; [exact H|lia]); try nia.
Qed.
Lemma ParseUInt_suffix r v n r' : ParseUInt r = Some (v, n, r') -> suffix r' r /\ (List.length r' < List.length r)%nat.
Proof.
  intros H. apply ParseUInt_spec in H. destruct H as (ds & H). decompose [and] H. subst. split; [eexists; reflexivity|].
  rewrite app_length. destruct ds; [congruence|cbn; lia].
Qed.
Lemma goodAt_pUInt K C e s : goodAt K C pUInt e s.
Proof.
  apply goodAt_onRest. destruct (ParseUInt (rest s)) as [[[v n] r']|] eqn:E; [|apply goodAt_pfail].
  apply ParseUInt_suffix in E as [E _]. apply (goodAt_bind K C 0); [apply goodAt_goto, E|lia|intros; apply goodAt_ret].
Qed.

Lemma leMem_enough e m n : n <= m -> leMem (withMem (Some m) e) n = true.
Proof. unfold leMem. cbn. intros. now apply N.leb_le. Qed.
Lemma ltMem_enough e m n : n < m -> ltMem (withMem (Some m) e) n = true.
Proof. unfold ltMem. cbn. intros. now apply N.ltb_lt. Qed.

Lemma goodAt_allocStruct K C n e s : n <= C -> goodAt K C (allocStruct n) e s.
Proof.
  intros H. unfold allocStruct. split.
  - intros m. destruct (leMem _ _); cbn; (split; [apply suffix_refl|lia]).
  - cbn. lia.
  - intros m Hm. rewrite leMem_enough by lia. reflexivity.
Qed.
Lemma fits_enough e m u n : u + n <= m -> fits (withMem (Some m) e) u n = true.
Proof. intros. unfold fits. rewrite leMem_enough by lia. apply orb_true_r. Qed.

Ltac goodStart := split; [intros m|..|intros m Hm]; cbv beta zeta.
Lemma goodAt_paCString K C cs e s : 1 <= K -> 3 <= C -> goodAt K C (paCString cs) e s.
Proof.
  intros HK HC. unfold paCString. destruct (span (inset cs) (rest s)) as [tok r] eqn:E.
  pose proof (span_app _ _ _ _ E) as E2. assert (Su : suffix r (rest s)) by (exists tok; exact E2).
  assert (L : len (rest s) = len tok + len r) by (rewrite E2; apply len_app).
  goodStart; rewrite ?E.
  - destruct (ltMem _ _); cbn [negb]; [|cbn; split; [apply suffix_refl|lia]].
    destruct (fits _ _ _); cbn [negb]; [|exact I]. destruct tok as [|x tok]; [split; [apply suffix_refl|lia]|].
    destruct (ltMem _ _); cbn; split; try apply suffix_refl; try exact Su; try lia.
  - unfold ltMem, fits, leMem. cbn. rewrite orb_true_r. cbn. destruct tok; cbn [rest used]; nia.
  - rewrite ltMem_enough by nia. rewrite fits_enough by nia. rewrite (ltMem_enough e m (used s + 2 + len tok)) by nia.
    unfold ltMem, fits, leMem. cbn. rewrite orb_true_r. reflexivity.
Qed.
Lemma goodAt_paCStringEmpty K C cs e s : 1 <= K -> 3 <= C -> goodAt K C (paCStringEmpty cs) e s.
Proof.
  intros HK HC. unfold paCStringEmpty. destruct (span (inset cs) (rest s)) as [tok r] eqn:E.
  pose proof (span_app _ _ _ _ E) as E2. assert (Su : suffix r (rest s)) by (exists tok; exact E2).
  assert (L : len (rest s) = len tok + len r) by (rewrite E2; apply len_app).
  goodStart; rewrite ?E.
  - destruct (ltMem _ _); cbn [negb]; [|cbn; split; [apply suffix_refl|lia]].
    destruct (fits _ _ _); cbn [negb]; [|exact I].
    destruct (ltMem _ _); cbn; split; try apply suffix_refl; try exact Su; try lia.
  - unfold ltMem, fits, leMem. cbn. rewrite orb_true_r. cbn. nia.
  - rewrite ltMem_enough by nia. rewrite fits_enough by nia. rewrite (ltMem_enough e m (used s + 2 + len tok)) by nia.
    unfold ltMem, fits, leMem. cbn. rewrite orb_true_r. reflexivity.
Qed.
Lemma firstn_pre (pre mid : bytes) : firstn (List.length (pre ++ mid) - List.length mid) (pre ++ mid) = pre.
Proof.
  rewrite app_length. replace (List.length pre + List.length mid - List.length mid)%nat with (List.length pre) by lia.
  rewrite firstn_app, Nat.sub_diag, firstn_all. cbn. apply app_nil_r.
Qed.
Lemma goodAt_paCStringFromPos K C mid cs e s : 1 <= K -> 3 <= C -> suffix mid (rest s) -> goodAt K C (paCStringFromPos mid cs) e s.
Proof.
  intros HK HC Su0. pose proof Su0 as [pre E0]. unfold paCStringFromPos.
  assert (Ep : firstn (List.length (rest s) - List.length mid) (rest s) = pre) by (rewrite E0; apply firstn_pre).
  destruct (span (inset cs) mid) as [tok r] eqn:E. pose proof (span_app _ _ _ _ E) as E2.
  assert (Su : suffix r (rest s)) by (exists (pre ++ tok); rewrite E0, E2; apply app_assoc).
  assert (L : len (rest s) = len pre + len tok + len r) by (rewrite E0, E2, !len_app; lia).
  goodStart; rewrite ?Ep, ?E.
  - destruct (negb (beq pre []) && _); [split; [apply suffix_refl|lia]|].
    destruct (ltMem _ _); cbn [negb]; [|split; [exact Su0|cbn; lia]].
    destruct (fits _ _ _); cbn [negb]; [|exact I]. destruct (pre ++ tok); [split; [exact Su|cbn; lia]|].
    destruct (ltMem _ _); cbn; split; try exact Su; lia.
  - unfold ltMem, fits, leMem. cbn. rewrite orb_true_r, andb_false_r. cbn. destruct (pre ++ tok); cbn [rest used]; nia.
  - rewrite ltMem_enough by nia. rewrite fits_enough by nia. rewrite (ltMem_enough e m (used s + 2 + len pre + len tok)) by nia.
    unfold ltMem, fits, leMem. cbn. rewrite orb_true_r. reflexivity.
Qed.
Lemma goodAt_paTelNumber K C cs e s : 1 <= K -> 3 <= C -> goodAt K C (paTelNumber cs) e s.
Proof.
  intros HK HC. unfold paTelNumber.
  set (pr := match rest s with x :: r => if x =? 43 then ([43], r) else ([], rest s) | [] => ([], rest s) end).
  destruct pr as [plus r0] eqn:Epr. 
  assert (E0 : rest s = plus ++ r0).
  { unfold pr in Epr. destruct (rest s) as [|x t]; [injection Epr as <- <-; reflexivity|]. destruct (N.eqb_spec x 43); injection Epr as <- <-; subst; reflexivity. }
  destruct (span (inset cs) r0) as [run r] eqn:E. pose proof (span_app _ _ _ _ E) as E2.
  assert (Su : suffix r (rest s)) by (exists (plus ++ run); rewrite E0, E2; apply app_assoc).
  assert (Lf : len (filter (fun v => negb (IsTelVisualSperator v)) run) <= len run).
  { unfold len. clear. induction run as [|x l IH]; cbn [filter]; [lia|]. destruct (negb _); cbn [List.length]; lia. }
  set (num := filter (fun v => negb (IsTelVisualSperator v)) run) in *.
  assert (L : len (rest s) = len plus + len run + len r) by (rewrite E0, E2, !len_app; lia).
  assert (Lt : len (plus ++ num) = len plus + len num) by apply len_app.
  goodStart; fold pr; rewrite ?Epr, ?E; fold num.
  - destruct (ltMem _ _); cbn [negb]; [|split; [apply suffix_refl|lia]].
    destruct (fits _ _ _); cbn [negb]; [|exact I]. destruct num; [split; [exact Su|cbn; lia]|].
    destruct (ltMem _ _); cbn; split; try exact Su; lia.
  - unfold ltMem, fits, leMem. cbn. rewrite orb_true_r. cbn. destruct num; cbn [rest used]; nia.
  - rewrite ltMem_enough by nia. rewrite fits_enough by nia. rewrite (ltMem_enough e m (used s + 2 + len (plus ++ num))) by nia.
    unfold ltMem, fits, leMem. cbn. rewrite orb_true_r. reflexivity.
Qed.

(** The escapable runs. *)
Lemma escLoop_good cs e : forall n r u, (List.length r <= n)%nat ->
  (forall m, match escLoop cs (withMem m e) u r with
             | EStop tok r' => suffix r' r /\ len tok + len r' <= len r
             | EBad r' => suffix r' r | ENoMem => True | EPanic => m <> None end) /\
  (forall m, u + len r <= m -> escLoop cs (withMem (Some m) e) u r = escLoop cs (withMem None e) u r).
Proof.
  induction n as [|n IH]; intros r u Hn; (destruct r as [|v r1]; [split; [intros m; cbn; split; [apply suffix_refl|lia]|reflexivity]|]).
  { cbn in Hn. lia. }
  cbn [List.length] in Hn. destruct (IH r1 (u + 1) ltac:(lia)) as [I1 I2]. cbn [escLoop]. split.
  - intros m. destruct (inset cs v).
    { destruct (ltMem (withMem m e) u) eqn:Em; [|destruct m; [discriminate|discriminate Em]]. specialize (I1 m). rewrite len_cons.
      destruct (escLoop cs (withMem m e) (u + 1) r1) as [tok r'|r'| |]; cbn [escCons]; auto with suf. destruct I1 as [I1 I3].
      split; [auto with suf|]. rewrite len_cons. lia. }
    destruct (v =? 37); [|split; [apply suffix_refl|cbn; lia]]. destruct r1 as [|v1 [|v2 r2]]; try apply suffix_refl.
    destruct (negb (IsHex v1) || _); [apply suffix_refl|]. destruct (ltMem _ u); [|exact I].
    destruct (IH r2 (u + 1)) as [J1 _]; [cbn in Hn; lia|]. specialize (J1 m). rewrite !len_cons.
    destruct (escLoop cs (withMem m e) (u + 1) r2) as [tok r'|r'| |]; cbn [escCons]; auto with suf. destruct J1 as [J1 J3].
    split; [auto with suf|]. rewrite len_cons. lia.
  - intros m Hm. rewrite len_cons in Hm. rewrite !ltMem_enough by lia. unfold ltMem. cbn [memend withMem]. destruct (inset cs v); [rewrite I2 by lia; reflexivity|].
    destruct (v =? 37); [|reflexivity]. destruct r1 as [|v1 [|v2 r2]]; try reflexivity. destruct (negb (IsHex v1) || _); [reflexivity|].
    rewrite !len_cons in Hm. destruct (IH r2 (u + 1)) as [_ J2]; [cbn in Hn; lia|]. rewrite J2 by lia. reflexivity.
Qed.
Lemma goodAt_paEscapable K C cs e s : 1 <= K -> 3 <= C -> goodAt K C (paEscapable cs) e s.
Proof.
  intros HK HC. unfold paEscapable. destruct (escLoop_good cs e (List.length (rest s)) (rest s) (used s + 2) (le_n _)) as [G1 G2].
  goodStart.
  - destruct (ltMem _ _); cbn [negb]; [|split; [apply suffix_refl|lia]]. specialize (G1 m).
    destruct (escLoop cs (withMem m e) (used s + 2) (rest s)) as [[|x tok] r'|r'| |]; try (split; [apply suffix_refl|lia]); try exact I.
    + destruct G1 as [G1 _]. destruct (ltMem _ _); cbn; split; auto with suf; lia.
    + split; [exact G1|cbn; lia].
  - unfold ltMem. cbn [memend withMem negb]. specialize (G1 None).
    destruct (escLoop cs (withMem None e) (used s + 2) (rest s)) as [[|x tok] r'|r'| |]; cbn [rest used]; try nia. congruence.
  - rewrite ltMem_enough by nia. rewrite G2 by nia. specialize (G1 None).
    destruct (escLoop cs (withMem None e) (used s + 2) (rest s)) as [[|x tok] r'|r'| |]; try reflexivity.
    rewrite ltMem_enough by nia. reflexivity.
Qed.
Lemma goodAt_paEscapableEmpty K C cs e s : 1 <= K -> 3 <= C -> goodAt K C (paEscapableEmpty cs) e s.
Proof.
  intros HK HC. unfold paEscapableEmpty. destruct (escLoop_good cs e (List.length (rest s)) (rest s) (used s + 2) (le_n _)) as [G1 G2].
  goodStart.
  - destruct (ltMem _ _); cbn [negb]; [|split; [apply suffix_refl|lia]]. specialize (G1 m).
    destruct (escLoop cs (withMem m e) (used s + 2) (rest s)) as [tok r'|r'| |]; try (split; [apply suffix_refl|lia]); try exact I.
    + destruct G1 as [G1 _]. destruct (ltMem _ _); cbn; split; auto with suf; lia.
    + split; [exact G1|cbn; lia].
  - unfold ltMem. cbn [memend withMem negb]. specialize (G1 None).
    destruct (escLoop cs (withMem None e) (used s + 2) (rest s)) as [tok r'|r'| |]; cbn [rest used]; try nia. congruence.
  - rewrite ltMem_enough by nia. rewrite G2 by nia. specialize (G1 None).
    destruct (escLoop cs (withMem None e) (used s + 2) (rest s)) as [tok r'|r'| |]; try reflexivity.
    rewrite ltMem_enough by nia. reflexivity.
Qed.
Lemma goodAt_allocCString K C b e s : len b + 2 <= C -> goodAt K C (allocCString b) e s.
Proof.
  intros H. unfold allocCString. split.
  - intros m. destruct (leMem _ _); cbn; (split; [apply suffix_refl|lia]).
  - cbn. lia.
  - intros m Hm. rewrite leMem_enough by lia. reflexivity.
Qed.

(** ** Quoted strings *)
(** copyLWS: what was consumed when it succeeds ends with white space, or nothing was consumed at a lone CR or LF. *)
Lemma copyLWS_ok_shape e u r w r' : copyLWS e u r = Some (w, r', true) ->
  exists p, r = p ++ r' /\ List.length p = List.length w /\
    ((p = [] /\ stops isWsp r = true /\ ~ (exists t, r = 13 :: 10 :: t)) \/ exists p0 x, p = p0 ++ [x] /\ isWsp x = true).
Proof.
  unfold copyLWS. destruct (span isWsp r) as [w1 r1] eqn:E. pose proof (span_app _ _ _ _ E) as E1. pose proof (span_stops _ _ _ _ E) as St.
  pose proof (span_all _ _ _ _ E) as Al.
  destruct (fits e u (len w1)); cbn [negb]; [|discriminate].
  assert (Plain : (~ exists t, r1 = 13 :: 10 :: t) -> exists p, r = p ++ r1 /\ List.length p = List.length w1 /\
     ((p = [] /\ stops isWsp r = true /\ ~ (exists t, r = 13 :: 10 :: t)) \/ exists p0 x, p = p0 ++ [x] /\ isWsp x = true)).
  { intros NC. exists w1. split; [exact E1|]. split; [reflexivity|]. destruct w1 as [|y w1]; [left; cbn in E1; subst; auto|right].
    destruct (@exists_last N (y :: w1)) as (p0 & x & Ex); [discriminate|]. exists p0, x. split; [exact Ex|]. rewrite Ex in Al.
    rewrite forallb_app in Al. apply andb_prop in Al as [_ Al]. cbn in Al. rewrite andb_true_r in Al. exact Al. }
  destruct r1 as [|x [|y r2]].
  - intros [= <- <-]. apply Plain. intros [t X]. discriminate.
  - intros [= <- <-]. apply Plain. intros [t X]. discriminate.
  - destruct ((x =? 13) && (y =? 10))%bool eqn:Exy.
    2:{ intros [= <- <-]. apply Plain. intros [t X]. injection X as -> -> _. discriminate. }
    clear Plain. destruct (fits e (u + len w1) 2); cbn [negb]; [|discriminate]. destruct r2 as [|z r2]; [discriminate|].
    destruct (isWsp z) eqn:Ez; cbn [negb]; [|discriminate]. destruct (span isWsp (z :: r2)) as [w2 r3] eqn:E2. pose proof (span_app _ _ _ _ E2) as E3.
    pose proof (span_all _ _ _ _ E2) as Al2. destruct (fits e _ (len w2)); cbn [negb]; [|discriminate]. intros [= <- <-].
    destruct w2 as [|z2 w2]. { cbn in E2. rewrite Ez in E2. destruct (span isWsp r2). discriminate. }
    exists (w1 ++ x :: y :: z2 :: w2). split; [rewrite E1, E3, <- app_assoc; reflexivity|]. split; [rewrite !app_length; reflexivity|right].
    destruct (@exists_last N (z2 :: w2)) as (p0 & q & Ex); [discriminate|]. exists (w1 ++ x :: y :: p0), q. rewrite Ex. split; [rewrite <- app_assoc; reflexivity|].
    rewrite Ex, forallb_app in Al2. apply andb_prop in Al2 as [_ Al2]. cbn in Al2. rewrite andb_true_r in Al2. exact Al2.
Qed.
Lemma snoc_not13 (p p0 : bytes) x : x <> 13 -> ~ (exists p', p ++ p0 ++ [x] = p' ++ [13]).
Proof. intros H [p' E]. rewrite app_assoc in E. apply app_inj_tail in E as [_ E]. contradiction. Qed.
Lemma qLoop_loops : forall f e u U r p, (List.length r < f)%nat -> ~ (exists p', p = p' ++ [13]) ->
  qLoop f e u U r = QLoop -> loneBreak (p ++ r).
Proof.
  induction f as [|f IH]; intros e u U r p Hf Hp Hq; [lia|]. cbn [qLoop] in Hq. destruct r as [|v r1]; [discriminate|]. cbn [List.length] in Hf.
  destruct (N.eqb_spec v 34) as [|N34]; [discriminate|]. destruct (IsLwsChar v) eqn:El.
  { destruct (copyLWS e u (v :: r1)) as [[[w r2] [|]]|] eqn:C; try discriminate.
    destruct (copyLWS_ok_shape _ _ _ _ _ C) as (q & Eq & Lq & [(-> & St & NC)|(p0 & x & -> & Hx)]).
    - cbn in St. apply negb_true_iff in St. rewrite IsLwsChar_spec, St in El. cbn in El. apply orb_prop in El as [El|El]; apply N.eqb_eq in El; subst v.
      + right. left. exists p, r1. split; [reflexivity|]. intros [q' ->]. apply NC. exists q'. reflexivity.
      + left. exists p, r1. split; [reflexivity|exact Hp].
    - destruct (qLoop f e (u + len w) (u + len w) r2) eqn:Q; try discriminate. rewrite Eq, app_assoc. apply (IH e (u + len w) (u + len w) r2); [|apply snoc_not13|exact Q].
      + apply (f_equal (@List.length N)) in Eq. rewrite !app_length in Eq. cbn in Eq. lia.
      + intros ->. discriminate. }
  destruct (IsSipQuotedText v).
  { destruct (ltMem e u); [|discriminate]. destruct (qLoop f e (u + 1) U r1) eqn:Q; try discriminate.
    replace (p ++ v :: r1) with ((p ++ [] ++ [v]) ++ r1) by (cbn; rewrite <- app_assoc; reflexivity). apply (IH e (u + 1) U r1); [lia|apply snoc_not13|exact Q].
    intros ->. discriminate El. }
  destruct (N.eqb_spec v 92); [|discriminate]. subst v. destruct r1 as [|x r2]; [discriminate|].
  destruct (leMem e (u + 2)); [|discriminate]. destruct (qLoop f e (u + 2) U r2) eqn:Q; try discriminate. cbn [List.length] in Hf.
  destruct (N.eqb_spec x 13) as [->|Nx]; [right; right; exists p, r2; reflexivity|].
  replace (p ++ 92 :: x :: r2) with ((p ++ [92] ++ [x]) ++ r2) by (rewrite <- app_assoc; reflexivity).
  apply (IH e (u + 2) U r2); [lia|apply snoc_not13, Nx|exact Q].
Qed.

Lemma fits_none e u n : fits (withMem None e) u n = true.
Proof. unfold fits, leMem. cbn. apply orb_true_r. Qed.
Lemma copyLWS_enough e m u r : u + len r <= m -> copyLWS (withMem (Some m) e) u r = copyLWS (withMem None e) u r.
Proof.
  intros H. unfold copyLWS. destruct (span isWsp r) as [w1 r1] eqn:E. apply span_app in E. subst r. rewrite len_app in H.
  rewrite ?fits_none. rewrite fits_enough by lia. cbn [negb].
  destruct r1 as [|x [|y r2]]; try reflexivity. destruct ((x =? 13) && (y =? 10))%bool; [|reflexivity]. rewrite !len_cons in H.
  rewrite ?fits_none. rewrite fits_enough by lia. cbn [negb]. destruct r2 as [|z r2]; [reflexivity|]. destruct (isWsp z); cbn [negb]; [|reflexivity].
  destruct (span isWsp (z :: r2)) as [w2 r3] eqn:E2. apply span_app in E2. rewrite E2, len_app in H. rewrite ?fits_none, ?fits_enough by lia. reflexivity.
Qed.
Lemma copyLWS_none e u r : copyLWS (withMem None e) u r <> None.
Proof.
  unfold copyLWS. destruct (span isWsp r) as [w1 r1]. rewrite fits_none. cbn [negb]. destruct r1 as [|x [|y r2]]; try discriminate.
  destruct (_ && _)%bool; [|discriminate]. rewrite fits_none. cbn [negb]. destruct r2 as [|z r2]; [discriminate|]. destruct (negb (isWsp z)); [discriminate|].
  destruct (span isWsp (z :: r2)). rewrite fits_none. discriminate.
Qed.
Lemma qLoop_good e : forall f u U r, U <= u ->
  (forall m, match qLoop f (withMem m e) u U r with
             | QOk tok r' => suffix r' r /\ len tok + len r' + 1 <= len r
             | QFail r' U' => suffix r' r /\ U <= U' /\ U' <= u + len r
             | QPanic => m <> None | QLoop => True end) /\
  (forall m, u + len r <= m -> qLoop f (withMem (Some m) e) u U r = qLoop f (withMem None e) u U r).
Proof.
  induction f as [|f IH]; intros u U r HU; [split; [intros; exact I|reflexivity]|]. cbn [qLoop].
  destruct r as [|v r1]; [split; [intros; cbn; split; [apply suffix_refl|lia]|reflexivity]|].
  destruct (N.eqb_spec v 34) as [|N34]; [split; [intros; split; [auto with suf|rewrite len_cons, len_nil; lia]|reflexivity]|].
  assert (App : forall w r2 u2 U2 m, U2 <= u2 -> U <= U2 -> suffix r2 (v :: r1) -> len w + len r2 <= len (v :: r1) -> u2 + len r2 <= u + len (v :: r1) ->
    match qApp w (qLoop f (withMem m e) u2 U2 r2) with
    | QOk tok r' => suffix r' (v :: r1) /\ len tok + len r' + 1 <= len (v :: r1)
    | QFail r' U' => suffix r' (v :: r1) /\ U <= U' /\ U' <= u + len (v :: r1)
    | QPanic => m <> None | QLoop => True end).
  { intros w r2 u2 U2 m H1 H2 H3 H4 H5. destruct (IH u2 U2 r2 H1) as [I1 _]. specialize (I1 m).
    destruct (qLoop f (withMem m e) u2 U2 r2) as [tok r'|r' U'| |]; cbn [qApp]; try exact I1.
    - destruct I1 as [S1 L1]. split; [exact (suffix_trans _ _ _ S1 H3)|rewrite len_app; lia].
    - destruct I1 as [S1 L1]. split; [exact (suffix_trans _ _ _ S1 H3)|lia]. }
  assert (AppE : forall w r2 u2 U2 m, U2 <= u2 -> u2 + len r2 <= m ->
    qApp w (qLoop f (withMem (Some m) e) u2 U2 r2) = qApp w (qLoop f (withMem None e) u2 U2 r2)).
  { intros w r2 u2 U2 m H1 H2. destruct (IH u2 U2 r2 H1) as [_ I2]. rewrite I2 by exact H2. reflexivity. }
  destruct (IsLwsChar v) eqn:El.
  { split.
    - intros m. destruct (copyLWS (withMem m e) u (v :: r1)) as [[[w r2] ok]|] eqn:C.
      + destruct (copyLWS_app _ _ _ _ _ _ C) as (p & Hp & Lp). assert (Lw : len w + len r2 = len (v :: r1)) by (rewrite Hp, len_app; unfold len; lia).
        assert (Su : suffix r2 (v :: r1)) by (exists p; exact Hp). destruct ok; [apply App; auto; lia|]. split; [exact Su|lia].
      + intros ->. exact (copyLWS_none _ _ _ C).
    - intros m Hm. rewrite copyLWS_enough by exact Hm. destruct (copyLWS (withMem None e) u (v :: r1)) as [[[w r2] ok]|] eqn:C; [|reflexivity].
      destruct (copyLWS_app _ _ _ _ _ _ C) as (p & Hp & Lp). assert (Lw : len w + len r2 = len (v :: r1)) by (rewrite Hp, len_app; unfold len; lia).
      destruct ok; [|reflexivity]. apply AppE; lia. }
  destruct (IsSipQuotedText v).
  { split.
    - intros m. destruct (ltMem (withMem m e) u) eqn:Em; [|intros ->; discriminate Em]. apply App; auto with suf; rewrite ?len_cons, ?len_nil; lia.
    - intros m Hm. rewrite len_cons in Hm. rewrite ltMem_enough by lia. unfold ltMem. cbn [memend withMem]. apply AppE; lia. }
  destruct (v =? 92); [|split; [intros; split; [apply suffix_refl|lia]|reflexivity]]. destruct r1 as [|x r2]; [split; [intros; split; [apply suffix_refl|lia]|reflexivity]|].
  split.
  - intros m. destruct (leMem (withMem m e) (u + 2)) eqn:Em; [|intros ->; discriminate Em]. apply App; auto with suf; rewrite ?len_cons, ?len_nil; lia.
  - intros m Hm. rewrite !len_cons in Hm. rewrite leMem_enough by lia. unfold leMem. cbn [memend withMem]. apply AppE; lia.
Qed.

Lemma lws_all_cut r : ParseSWS_2 r = [] -> r <> [] -> cutOff r.
Proof.
  intros H Hr. destruct (ParseSWS_consumes r) as (w & E & [->|W]); [rewrite H in E; cbn in E; contradiction|]. rewrite H, app_nil_r in E. subst w.
  assert (X : exists p x, r = p ++ [x] /\ wsp x).
  { destruct W as [w Hw F|w1 w2 F1 Hw F2].
    - destruct (@exists_last N w Hw) as (p & x & ->). exists p, x. split; [reflexivity|]. apply Forall_app in F as [_ F]. now inversion F.
    - destruct (@exists_last N w2 Hw) as (p & x & ->). exists (w1 ++ 13 :: 10 :: p), x. split; [rewrite <- app_assoc; reflexivity|]. apply Forall_app in F2 as [_ F]. now inversion F. }
  destruct X as (p & x & -> & [->| ->]); exists p; eexists; split; try reflexivity; discriminate.
Qed.
Lemma goodAt_paQuoted K C e s : 1 <= K -> 3 <= C -> rest s <> [] -> goodAt K C paQuoted e s.
Proof.
  intros HK HC Hr. unfold paQuoted. pose proof (ParseSWS_suffix (rest s)) as Su. pose proof (lws_all_cut (rest s)) as Cut.
  pose proof (suffix_len _ _ Su) as L0.
  destruct (ParseSWS_2 (rest s)) as [|x r1] eqn:E.
  { goodStart; rewrite E; try exact I; try reflexivity. left. apply Cut; [reflexivity|exact Hr]. }
  assert (Lx : len r1 + 1 = len (x :: r1)) by (rewrite len_cons; reflexivity).
  assert (Su1 : suffix r1 (rest s)) by (eapply suffix_cons, Su).
  destruct (qLoop_good e (S (List.length r1)) (used s + 2) (used s) r1 ltac:(lia)) as [G1 G2].
  goodStart; rewrite E; (destruct (N.eqb_spec x 34) as [->|]; cbn [negb]; [|try (split; [exact Su|cbn; lia]); cbn; try lia; try reflexivity]).
  - specialize (G1 m). destruct (qLoop _ (withMem m e) _ _ r1) as [tok r'|r' U'| |] eqn:Q.
    + destruct (leMem _ _); cbn [negb]; [|exact I]. cbn. split; [exact (suffix_trans _ _ _ (proj1 G1) Su1)|lia].
    + cbn. split; [exact (suffix_trans _ _ _ (proj1 G1) Su1)|lia].
    + exact I.
    + destruct Su as [p Ep]. exists p, r1. split; [exact Ep|]. apply (qLoop_loops _ _ _ _ r1 [] (Nat.lt_succ_diag_r _)) in Q; [exact Q|].
      intros [p' X]. destruct p'; discriminate.
  - specialize (G1 None). destruct (qLoop _ (withMem None e) _ _ r1) as [tok r'|r' U'| |] eqn:Q.
    + unfold leMem. cbn. nia.
    + cbn. nia.
    + congruence.
    + exact I.
  - rewrite G2 by nia. rewrite leMem_enough by lia. reflexivity.
Qed.
