(** The logged parsers: same results as the value layer, no error on success, an error on every failure (where so), positions inside the input. *)
From Verif Require Import Base Charset BaseLemmas Num Lws LwsProofs Str StrProofs Monad MethodTree HeaderTree Lookup Host Uri Tel GenParam Addr StartLine Headers RawHeaders Msg
  Good Rt Seq GoodAuto UriGood TelProofs GenParamProofs AddrProofs StartLineProofs HeadersProofs RawProofs MsgProofs Log.

Definition sfx {A} (p : P A) (e : env) (s : st) : Prop :=
  match p e s with Ok _ s' | Fail s' => suffix (rest s') (rest s) | _ => True end.
Lemma sfx_good {A} K C (p : P A) e s : goodAt K C p e s -> sfx p e s.
Proof. intros G. unfold sfx. destruct (p e s) eqn:E; try exact Logic.I; [apply (good_suffix _ _ _ _ _ _ _ G E)|apply (good_suffix_fail _ _ _ _ _ _ G E)]. Qed.

Record lgAt {A} (b : bool) (lp : L A) (p : P A) (e : env) (s : st) : Prop := mklg {
  lg_er : fst (lp e s) = p e s;
  lg_ok : match fst (lp e s) with
          | Ok _ s' => snd (lp e s) = [] /\ suffix (rest s') (rest s)
          | Fail s' => (b = true -> snd (lp e s) <> []) /\ suffix (rest s') (rest s)
          | _ => True
          end;
  lg_in : Forall (fun x => suffix (eAt x) (rest s)) (snd (lp e s)) }.

Lemma lg_silent {A} b (p : P A) e s : sfx p e s -> (b = true -> forall s', p e s <> Fail s') -> lgAt b (silent p) p e s.
Proof.
  intros Sf Nf. unfold sfx in Sf. split; cbn; [reflexivity| |constructor]. destruct (p e s) eqn:E; auto. split; [intros Hb; destruct (Nf Hb _ eq_refl)|exact Sf].
Qed.
Lemma lg_quiet {A} (p : P A) e s : sfx p e s -> lgAt false (silent p) p e s.
Proof. intros H. apply lg_silent; [exact H|discriminate]. Qed.
Lemma lg_ret {A} b (a : A) e s : lgAt b (retL a) (ret a) e s.
Proof. apply lg_silent; [apply suffix_refl|discriminate]. Qed.
Lemma lg_panic {A} b e s : lgAt b (silent (@panic A)) panic e s.
Proof. apply lg_silent; [exact Logic.I|discriminate]. Qed.
Lemma lg_goto b r e s : suffix r (rest s) -> lgAt b (gotoL r) (goto r) e s.
Proof. intros H. apply lg_silent; [exact H|discriminate]. Qed.
Lemma lg_onRest {A} b (f : bytes -> L A) g e s : lgAt b (f (rest s)) (g (rest s)) e s -> lgAt b (onRestL f) (onRest g) e s.
Proof. intros [G1 G2 G3]. split; assumption. Qed.
Lemma lg_withEnv {A} b (f : env -> L A) g e s : lgAt b (f e) (g e) e s -> lgAt b (withEnvL f) (withEnv g) e s.
Proof. intros [G1 G2 G3]. split; assumption. Qed.
Lemma lg_orErr {A} b b' d (lp : L A) p e s : lgAt b' lp p e s -> lgAt b (orErr d lp) p e s.
Proof.
  intros [G1 G2 G3]. unfold orErr. destruct (lp e s) as [r l] eqn:E. cbn [fst snd] in *. split; rewrite ?E; destruct r; cbn [fst snd] in *; auto.
  - split; [intros _ H; destruct l; discriminate|apply G2].
  - apply Forall_app. split; [exact G3|]. constructor; [apply G2|constructor].
Qed.
Lemma lg_errEnd {A} b b' d d' (lp : L A) p e s : lgAt b' lp p e s -> lgAt b (errEnd d d' lp) p e s.
Proof.
  intros [G1 G2 G3]. unfold errEnd. destruct (lp e s) as [r l] eqn:E. cbn [fst snd] in *. split; rewrite ?E; destruct r; cbn [fst snd] in *; auto.
  - split; [intros _ H; destruct l; discriminate|apply G2].
  - apply Forall_app. split; [exact G3|]. constructor; [apply G2|constructor].
Qed.
Lemma lg_fail {A} b d e s : lgAt b (@failL A d) pfail e s.
Proof. unfold failL. apply (lg_orErr b false). apply lg_quiet. apply suffix_refl. Qed.
Lemma lg_pfail {A} e s : lgAt false (silent (@pfail A)) pfail e s.
Proof. apply lg_quiet. apply suffix_refl. Qed.
Lemma lg_weaken {A} b (lp : L A) p e s : lgAt true lp p e s -> lgAt b lp p e s.
Proof. intros [G1 G2 G3]. split; auto. destruct (fst (lp e s)); auto. destruct G2 as [Ga Gb]. split; auto. Qed.

Lemma Forall_suffix (l : list err) a b : suffix a b -> Forall (fun x => suffix (eAt x) a) l -> Forall (fun x => suffix (eAt x) b) l.
Proof. intros S0. apply Forall_impl. intros x H. apply (suffix_trans _ _ _ H S0). Qed.
Lemma lg_bind {A B} b (lp : L A) p (lf : A -> L B) f e s : lgAt b lp p e s -> (forall a s', p e s = Ok a s' -> lgAt b (lf a) (f a) e s') -> lgAt b (bindL lp lf) (bind p f) e s.
Proof.
  intros [G1 G2 G3] Hf. unfold bindL, bind.
  assert (Q : fst (lp e s) = p e s) by exact G1. destruct (lp e s) as [r l] eqn:E. cbn [fst snd] in Q, G2, G3.
  split; rewrite ?E, <- ?Q.
  - destruct r as [a s'|s'| |]; try reflexivity. destruct (Hf a s' (eq_sym Q)) as [F1 F2 F3]. destruct (lf a e s') as [r' l'] eqn:E'. cbn. exact F1.
  - destruct r as [a s'|s'| |]; cbn [fst snd]; auto. destruct (Hf a s' (eq_sym Q)) as [F1 F2 F3]. destruct (lf a e s') as [r' l'] eqn:E'. cbn [fst snd] in *.
    destruct G2 as [-> Su]. cbn [app]. destruct r'; auto; destruct F2; split; auto; eapply suffix_trans; eassumption.
  - destruct r as [a s'|s'| |]; cbn [fst snd]; auto. destruct (Hf a s' (eq_sym Q)) as [F1 F2 F3]. destruct (lf a e s') as [r' l'] eqn:E'. cbn [fst snd] in *.
    destruct G2 as [-> Su]. cbn [app]. apply (Forall_suffix _ _ _ Su F3).
Qed.
Lemma lg_iter {A B} b (lb : A -> L (A + B)) body e : (forall a s, lgAt b (lb a) (body a) e s) -> forall n a s, lgAt b (iterL n lb a) (iterP n body a) e s.
Proof.
  intros H. induction n as [|n IH]; intros a s; cbn [iterL iterP].
  - split; cbn; auto.
  - apply lg_bind; [apply H|]. intros [a'|b'] s' _; [apply IH|apply lg_ret].
Qed.
Lemma lg_loop {A B} b (lb : A -> L (A + B)) body a e s : (forall a s, lgAt b (lb a) (body a) e s) -> lgAt b (loopL lb a) (loopP body a) e s.
Proof. intros H. destruct (lg_iter b lb body e H (S (List.length (rest s))) a s) as [G1 G2 G3]. split; assumption. Qed.
Lemma lg_contIf {A} b c (a : A) e s : lgAt b (contIfL c a) (contIf c a) e s.
Proof.
  apply lg_silent.
  - eapply sfx_good. apply (goodAt_contIf 0 0).
  - intros _ s'. unfold contIf, onRest. destruct (rest s) as [|x r]; [discriminate|]. destruct (x =? c); discriminate.
Qed.
Lemma lg_sepLoop {A} b c (lone : A -> L A) one a e s : (forall a s, lgAt b (lone a) (one a) e s) -> lgAt b (sepLoopL c lone a) (sepLoop c one a) e s.
Proof.
  intros H. apply lg_loop. intros a0 s0. apply lg_onRest. destruct (rest s0) as [|x r]; [apply lg_ret|]. apply lg_bind; [apply H|]. intros. apply lg_contIf.
Qed.

(** ** Strings *)
Ltac lgdone := split; cbn [fst snd eAt rest]; [reflexivity|first [exact Logic.I|split; [first [reflexivity|discriminate|intros _; discriminate]|auto with suf]]|repeat constructor; cbn [eAt]; auto with suf].
Lemma lg_paCString b cs e s : lgAt b (paCStringL cs) (paCString cs) e s.
Proof.
  unfold paCStringL, paCString.
  pose proof (suffix_span (inset cs) (rest s)) as Su. destruct (ltMem e (used s + 2)) eqn:M1; [|split; cbn; rewrite ?M1; cbn; [reflexivity|split; [discriminate|auto with suf]|repeat constructor; cbn; auto with suf]].
  destruct (span (inset cs) (rest s)) as [tok r] eqn:E. cbn [snd] in Su.
  destruct (fits e (used s + 2) (len tok)) eqn:M2; [|split; cbv zeta; rewrite ?M1, ?E, ?M2; cbn; [reflexivity|exact Logic.I|constructor]].
  destruct tok as [|t0 tok]; [split; cbv zeta; rewrite ?M1, ?E, ?M2; cbn; [reflexivity|split; [discriminate|auto with suf]|repeat constructor; exact Su]|].
  destruct (ltMem e (used s + 2 + len (t0 :: tok))) eqn:M3.
  - split; cbv zeta; rewrite ?M1, ?E, ?M2, ?M3; cbn [negb fst snd rest]; [reflexivity|split; [reflexivity|exact Su]|constructor].
  - split; cbv zeta; rewrite ?M1, ?E, ?M2, ?M3; cbn [negb fst snd rest]; [reflexivity|split; [discriminate|auto with suf]|repeat constructor; exact Su].
Qed.
Lemma lg_paFromPos b mid cs e s : suffix mid (rest s) -> lgAt b (paCStringFromPosL mid cs) (paCStringFromPos mid cs) e s.
Proof.
  intros Sm. unfold paCStringFromPosL, paCStringFromPos. set (pre := firstn (List.length (rest s) - List.length mid) (rest s)).
  pose proof (suffix_trans _ _ _ (suffix_span (inset cs) mid) Sm) as Su. destruct (span (inset cs) mid) as [tok r] eqn:E. cbn [snd] in Su.
  destruct (negb (beq pre []) && negb (ltMem e (used s + 2 + len pre))) eqn:M1; [split; cbv zeta; fold pre; rewrite ?M1; cbn; [reflexivity|split; [discriminate|auto with suf]|repeat constructor; cbn; auto with suf]|].
  destruct (ltMem e (used s + 2 + len pre)) eqn:M2; [|split; cbv zeta; fold pre; rewrite ?M1, ?M2; cbn [negb]; rewrite ?andb_true_r in *; rewrite ?M1; cbn; [reflexivity|split; [discriminate|exact Sm]|repeat constructor; exact Sm]].
  destruct (fits e (used s + 2 + len pre) (len tok)) eqn:M3; [|split; cbv zeta; fold pre; rewrite ?M1, ?M2, ?E, ?M3; cbn [negb]; rewrite ?andb_false_r; cbn; [reflexivity|exact Logic.I|constructor]].
  destruct (pre ++ tok) as [|x l] eqn:Ep.
  - split; cbv zeta; fold pre; rewrite ?M1, ?M2, ?E, ?M3, ?Ep; cbn [negb]; rewrite ?andb_false_r; cbn; [reflexivity|split; [discriminate|exact Su]|repeat constructor; exact Su].
  - destruct (ltMem e (used s + 2 + len pre + len tok)) eqn:M4; split; cbv zeta; fold pre; rewrite ?M1, ?M2, ?E, ?M3, ?Ep, ?M4; cbn [negb]; rewrite ?andb_false_r; cbn [fst snd rest];
      first [reflexivity|split; [first [reflexivity|discriminate]|exact Su]|constructor; fail|repeat constructor; exact Su].
Qed.
Lemma lg_paTel b cs e s : lgAt b (paTelNumberL cs) (paTelNumber cs) e s.
Proof.
  unfold paTelNumberL, paTelNumber.
  destruct (ltMem e (used s + 2)) eqn:M1; [|split; cbv zeta; rewrite ?M1; cbn; [reflexivity|split; [discriminate|auto with suf]|repeat constructor; cbn; auto with suf]].
  destruct (match rest s with x :: r => if x =? 43 then ([43], r) else ([], rest s) | [] => ([], rest s) end) as [plus r0] eqn:Ep.
  assert (S0 : suffix r0 (rest s)). { destruct (rest s) as [|x r]; [injection Ep as <- <-; auto with suf|]. destruct (x =? 43); injection Ep as <- <-; auto with suf. }
  pose proof (suffix_trans _ _ _ (suffix_span (inset cs) r0) S0) as Su. destruct (span (inset cs) r0) as [run r] eqn:E. cbn [snd] in Su.
  set (num := filter (fun v => negb (IsTelVisualSperator v)) run).
  destruct (fits e (used s + 2) (len (plus ++ num))) eqn:M2; [|split; cbv zeta; rewrite ?M1, ?Ep, ?E; fold num; rewrite ?M2; cbn; [reflexivity|exact Logic.I|constructor]].
  destruct num as [|x l] eqn:En.
  - split; cbv zeta; rewrite ?M1, ?Ep, ?E; fold num; rewrite ?En, ?M2; cbn; [reflexivity|split; [discriminate|exact Su]|repeat constructor; exact Su].
  - destruct (ltMem e (used s + 2 + len (plus ++ x :: l))) eqn:M4; split; cbv zeta; rewrite ?M1, ?Ep, ?E; fold num; rewrite ?En, ?M2, ?M4; cbn [negb fst snd rest];
      first [reflexivity|split; [first [reflexivity|discriminate]|exact Su]|constructor; fail|repeat constructor; exact Su].
Qed.

Lemma escLoopL_spec cs e : forall n r u, (List.length r < n)%nat ->
  fst (escLoopL cs e u r) = escLoop cs e u r /\
  match escLoop cs e u r with
  | EStop _ r' => snd (escLoopL cs e u r) = [] /\ suffix r' r
  | EBad r' => snd (escLoopL cs e u r) <> [] /\ suffix r' r
  | ENoMem => snd (escLoopL cs e u r) <> []
  | EPanic => True
  end /\ Forall (fun x => suffix (eAt x) r) (snd (escLoopL cs e u r)).
Proof.
  induction n as [|n IH]; intros r u Hn; [lia|]. destruct r as [|v r1]; [cbn; auto using suffix_refl|]. cbn [List.length] in Hn.
  cbn [escLoopL escLoop]. destruct (inset cs v).
  - destruct (ltMem e u); [|cbn; auto]. destruct (IH r1 (u + 1) ltac:(lia)) as (F1 & F2 & F3).
    destruct (escLoopL cs e (u + 1) r1) as [o l] eqn:E. cbn [fst snd] in *. rewrite <- F1 in *.
    assert (F4 : Forall (fun x => suffix (eAt x) (v :: r1)) l) by (apply (Forall_suffix _ r1); auto with suf).
    destruct o; cbn [escCons fst snd]; split; auto; split; auto; destruct F2; auto with suf.
  - destruct (v =? 37); [|cbn; auto using suffix_refl].
    destruct r1 as [|v1 [|v2 r2]]; [cbn; split; [reflexivity|split; [split; [discriminate|apply suffix_refl]|repeat constructor; apply suffix_refl]]..|].
    destruct (negb (IsHex v1) || negb (IsHex v2)); [cbn; split; [reflexivity|split; [split; [discriminate|apply suffix_refl]|repeat constructor; apply suffix_refl]]|].
    destruct (ltMem e u); [|cbn; split; [reflexivity|split; [discriminate|repeat constructor; apply suffix_refl]]].
    cbn [List.length] in Hn. destruct (IH r2 (u + 1) ltac:(lia)) as (F1 & F2 & F3).
    destruct (escLoopL cs e (u + 1) r2) as [o l] eqn:E. cbn [fst snd] in *. rewrite <- F1 in *.
    assert (F4 : Forall (fun x => suffix (eAt x) (v :: v1 :: v2 :: r2)) l) by (apply (Forall_suffix _ r2); auto with suf).
    destruct o; cbn [escCons fst snd]; split; auto; split; auto; destruct F2; auto with suf.
Qed.
Lemma lg_paEscapable b cs e s : lgAt b (paEscapableL cs) (paEscapable cs) e s.
Proof.
  unfold paEscapableL, paEscapable.
  destruct (ltMem e (used s + 2)) eqn:M1; [|split; cbv zeta; rewrite ?M1; cbn; [reflexivity|split; [discriminate|auto with suf]|repeat constructor; cbn; auto with suf]].
  destruct (escLoopL_spec cs e _ (rest s) (used s + 2) (Nat.lt_succ_diag_r _)) as (F1 & F2 & F3).
  destruct (escLoopL cs e (used s + 2) (rest s)) as [o l] eqn:E. cbn [fst snd] in *. rewrite <- F1 in F2.
  destruct o as [tok r|r| |].
  - destruct F2 as [-> Su]. destruct tok as [|t0 tok]; [|destruct (ltMem e (used s + 2 + len (t0 :: tok))) eqn:M2]; split; cbv zeta; rewrite ?M1, ?E, <- ?F1, ?M2; cbn [negb fst snd rest];
      first [reflexivity|split; [first [reflexivity|discriminate]|auto with suf]|constructor; fail|repeat constructor; exact Su].
  - split; cbv zeta; rewrite ?M1, ?E, <- ?F1; cbn [negb fst snd rest]; [reflexivity|split; tauto|exact F3].
  - split; cbv zeta; rewrite ?M1, ?E, <- ?F1; cbn [negb fst snd rest]; [reflexivity|split; [auto|apply suffix_refl]|exact F3].
  - split; cbv zeta; rewrite ?M1, ?E, <- ?F1; cbn [negb fst snd rest]; [reflexivity|exact Logic.I|exact F3].
Qed.
Lemma lg_paEscapableEmpty b cs e s : lgAt b (paEscapableEmptyL cs) (paEscapableEmpty cs) e s.
Proof.
  unfold paEscapableEmptyL, paEscapableEmpty.
  destruct (ltMem e (used s + 2)) eqn:M1; [|split; cbv zeta; rewrite ?M1; cbn; [reflexivity|split; [discriminate|auto with suf]|repeat constructor; cbn; auto with suf]].
  destruct (escLoopL_spec cs e _ (rest s) (used s + 2) (Nat.lt_succ_diag_r _)) as (F1 & F2 & F3).
  destruct (escLoopL cs e (used s + 2) (rest s)) as [o l] eqn:E. cbn [fst snd] in *. rewrite <- F1 in F2.
  destruct o as [tok r|r| |].
  - destruct F2 as [-> Su]. destruct (ltMem e (used s + 2 + len tok)) eqn:M2; split; cbv zeta; rewrite ?M1, ?E, <- ?F1, ?M2; cbn [negb fst snd rest];
      first [reflexivity|split; [first [reflexivity|discriminate]|auto with suf]|constructor; fail|repeat constructor; exact Su].
  - split; cbv zeta; rewrite ?M1, ?E, <- ?F1; cbn [negb fst snd rest]; [reflexivity|split; tauto|exact F3].
  - split; cbv zeta; rewrite ?M1, ?E, <- ?F1; cbn [negb fst snd rest]; [reflexivity|split; [auto|apply suffix_refl]|exact F3].
  - split; cbv zeta; rewrite ?M1, ?E, <- ?F1; cbn [negb fst snd rest]; [reflexivity|exact Logic.I|exact F3].
Qed.

Lemma copyLWS_suffix e u r w r' ok : copyLWS e u r = Some (w, r', ok) -> suffix r' r.
Proof.
  unfold copyLWS. pose proof (suffix_span isWsp r) as S0. destruct (span isWsp r) as [w1 r1] eqn:E. cbn [snd] in S0.
  destruct (negb (fits e u (len w1))); [discriminate|]. destruct r1 as [|a [|b0 r2]]; try (intros [= <- <- <-]; exact S0).
  destruct ((a =? 13) && (b0 =? 10)); [|intros [= <- <- <-]; exact S0].
  destruct (negb (fits e (u + len w1) 2)); [discriminate|]. assert (S2 : suffix r2 r) by (apply suffix_cons, suffix_cons in S0; exact S0).
  destruct r2 as [|x r3]; [intros [= <- <- <-]; auto with suf|]. destruct (negb (isWsp x)); [intros [= <- <- <-]; exact S2|].
  pose proof (suffix_span isWsp (x :: r3)) as S3. destruct (span isWsp (x :: r3)) as [w2 r4] eqn:E2. cbn [snd] in S3.
  destruct (negb (fits e (u + len w1 + 2) (len w2))); [discriminate|]. intros [= <- <- <-]. apply (suffix_trans _ _ _ S3 S2).
Qed.
Lemma qLoopL_spec e : forall n r u U,
  fst (qLoopL n e u U r) = qLoop n e u U r /\
  match qLoop n e u U r with
  | QOk _ r' => snd (qLoopL n e u U r) = [] /\ suffix r' r
  | QFail r' _ => snd (qLoopL n e u U r) <> [] /\ suffix r' r
  | _ => True
  end /\ Forall (fun x => suffix (eAt x) r) (snd (qLoopL n e u U r)).
Proof.
  induction n as [|n IH]; intros r u U; [cbn; auto|]. cbn [qLoopL qLoop].
  destruct r as [|v r1]; [cbn; split; [reflexivity|split; [split; [discriminate|apply suffix_refl]|repeat constructor; apply suffix_refl]]|].
  destruct (v =? 34); [cbn; auto with suf|].
  destruct (IsLwsChar v).
  { destruct (copyLWS e u (v :: r1)) as [[[w r'] [|]]|] eqn:Ec; [| |cbn; auto].
    - apply copyLWS_suffix in Ec. destruct (IH r' (u + len w) (u + len w)) as (F1 & F2 & F3). destruct (qLoopL n e (u + len w) (u + len w) r') as [o l] eqn:E. cbn [fst snd] in *. rewrite <- F1 in *.
      assert (F4 := Forall_suffix _ _ _ Ec F3).
      destruct o; cbn [qApp fst snd]; split; auto; split; auto; destruct F2 as [Fa Fb]; split; auto; eapply suffix_trans; eauto.
    - apply copyLWS_suffix in Ec. cbn. split; [reflexivity|split; [split; [discriminate|exact Ec]|repeat constructor; exact Ec]]. }
  destruct (IsSipQuotedText v).
  { destruct (ltMem e u); [|cbn; auto]. destruct (IH r1 (u + 1) U) as (F1 & F2 & F3). destruct (qLoopL n e (u + 1) U r1) as [o l] eqn:E. cbn [fst snd] in *. rewrite <- F1 in *.
    assert (F4 : Forall (fun x => suffix (eAt x) (v :: r1)) l) by (apply (Forall_suffix _ r1); auto with suf).
    destruct o; cbn [qApp fst snd]; split; auto; split; auto; destruct F2 as [Fa Fb]; auto with suf. }
  destruct (v =? 92); [|cbn; split; [reflexivity|split; [split; [discriminate|apply suffix_refl]|repeat constructor; apply suffix_refl]]].
  destruct r1 as [|x r2]; [cbn; split; [reflexivity|split; [split; [discriminate|apply suffix_refl]|repeat constructor; apply suffix_refl]]|].
  destruct (leMem e (u + 2)); [|cbn; auto]. destruct (IH r2 (u + 2) U) as (F1 & F2 & F3). destruct (qLoopL n e (u + 2) U r2) as [o l] eqn:E. cbn [fst snd] in *. rewrite <- F1 in *.
  assert (F4 : Forall (fun y => suffix (eAt y) (v :: x :: r2)) l) by (apply (Forall_suffix _ r2); auto with suf).
  destruct o; cbn [qApp fst snd]; split; auto; split; auto; destruct F2 as [Fa Fb]; auto with suf.
Qed.
Lemma lg_paQuoted b e s : lgAt b paQuotedL paQuoted e s.
Proof.
  unfold paQuotedL, paQuoted. pose proof (ParseSWS_suffix (rest s)) as S0.
  destruct (ParseSWS_2 (rest s)) as [|x r1] eqn:E0; [split; cbv zeta; rewrite ?E0; cbn; [reflexivity|exact Logic.I|constructor]|].
  destruct (x =? 34) eqn:X; [|split; cbv zeta; rewrite ?E0, ?X; cbn; [reflexivity|split; [discriminate|exact S0]|repeat constructor; exact S0]].
  assert (S1 := suffix_cons _ _ _ S0).
  destruct (qLoopL_spec e (S (List.length r1)) r1 (used s + 2) (used s)) as (F1 & F2 & F3).
  destruct (qLoopL (S (List.length r1)) e (used s + 2) (used s) r1) as [o l] eqn:E. cbn [fst snd] in F1, F2, F3. rewrite <- F1 in F2.
  assert (F4 := Forall_suffix _ _ _ S1 F3).
  destruct o as [tok r|r U| |]; [destruct (leMem e (used s + 2)) eqn:M|..]; split; cbv zeta; rewrite ?E0, ?X; cbn [negb]; rewrite ?E, <- ?F1, ?M; cbn [negb fst snd rest]; auto.
  - destruct F2 as [Fa Fb]. split; [exact Fa|apply (suffix_trans _ _ _ Fb S1)].
  - destruct F2 as [Fa Fb]. split; [auto|apply (suffix_trans _ _ _ Fb S1)].
Qed.
