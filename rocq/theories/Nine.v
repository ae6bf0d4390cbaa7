(** How much memory a parse needs. The potential of a state is what is in use plus nine bytes for every unread byte; no parser raises it by more than a small
    constant, whatever the input and the arena, and in an arena with more room than that every parser does exactly what it does in an unlimited arena. *)
From Verif Require Import Base Charset CharsetSpec CharsetProofs BaseLemmas Num Lws LwsProofs Str Monad Good Thrift MethodTree HeaderTree Lookup Host Uri Tel GenParam Addr StartLine Headers RawHeaders Msg.
From Coq Require Import ZArith.
Local Open Scope Z_scope.

Definition L (r : bytes) : Z := Z.of_N (len r).
Definition phi (s : st) : Z := Z.of_N (used s) + 9 * L (rest s).

(** [nineAt r p D C]: started at the unread input [r], [p] needs at most [D] beyond the potential to be unaffected by the size of the arena, and if it
    succeeds with [a] the potential has grown by at most [C a]. *)
Definition nineAt {A} (r : bytes) (p : P A) (D : Z) (C : A -> Z) : Prop := forall e s, rest s = r ->
  (forall m, memend e = Some m -> phi s + D < Z.of_N m -> p e s = p (withMem None e) s) /\
  (forall a s', p e s = Ok a s' -> phi s' <= phi s + C a).
Definition nine {A} (p : P A) (D : Z) (C : A -> Z) : Prop := forall r, nineAt r p D C.

Lemma L_pos r : 0 <= L r. Proof. unfold L. lia. Qed.
Lemma L_nil : L [] = 0. Proof. reflexivity. Qed.
Lemma L_cons x r : L (x :: r) = L r + 1. Proof. unfold L. rewrite len_cons. lia. Qed.
Lemma L_app a b : L (a ++ b) = L a + L b. Proof. unfold L. rewrite len_app. lia. Qed.
Lemma L_suffix a b : suffix a b -> L a <= L b. Proof. intros H. apply suffix_len in H. unfold L. lia. Qed.
Ltac ln := rewrite ?L_app, ?L_cons, ?L_nil in *.
Ltac pos r := lazymatch goal with _ : 0 <= L r |- _ => fail | _ => pose proof (L_pos r) end.
Ltac zl := cbn [used rest fst snd] in *; ln; repeat match goal with |- context [L ?r] => pos r | _ : context [L ?r] |- _ => pos r end; try lia.

Section Rules.
  Context {A B : Type}.
  Lemma n_ret r (a : A) D C : 0 <= C a -> nineAt r (ret a) D C.
  Proof. intros H e s Hs. split; [reflexivity|]. intros a' s' [= <- <-]. lia. Qed.
  Lemma n_pfail r D C : nineAt r (@pfail A) D C.
  Proof. intros e s Hs. split; [reflexivity|]. discriminate. Qed.
  Lemma n_panic r D C : nineAt r (@panic A) D C.
  Proof. intros e s Hs. split; [reflexivity|]. discriminate. Qed.
  Lemma n_bind r (p : P A) (f : A -> P B) D C D1 C1 : nineAt r p D1 C1 -> D1 <= D -> (forall a r', nineAt r' (f a) (D - C1 a) (fun b => C b - C1 a)) -> nineAt r (bind p f) D C.
  Proof.
    intros Hp Hd Hf e s Hs. destruct (Hp e s Hs) as [S1 K1]. destruct (Hp (withMem None e) s Hs) as [_ K2]. unfold bind. split.
    - intros m Hm Hr. rewrite (S1 m Hm) by lia. destruct (p (withMem None e) s) as [a s1|s1| |] eqn:E; try reflexivity.
      specialize (K2 _ _ eq_refl). destruct (Hf a (rest s1) e s1 eq_refl) as [S2 _]. apply (S2 m Hm). lia.
    - destruct (p e s) as [a s1|s1| |] eqn:E; try discriminate. specialize (K1 _ _ eq_refl). intros b s' H.
      destruct (Hf a (rest s1) e s1 eq_refl) as [_ K3]. specialize (K3 _ _ H). lia.
  Qed.
  Lemma n_weak r (p : P A) D C D1 C1 : nineAt r p D1 C1 -> D1 <= D -> (forall a, C1 a <= C a) -> nineAt r p D C.
  Proof.
    intros Hp Hd Hc e s Hs. destruct (Hp e s Hs) as [S1 K1]. split.
    - intros m Hm Hr. apply (S1 m Hm). lia.
    - intros a s' H. specialize (K1 _ _ H). specialize (Hc a). lia.
  Qed.
  Lemma n_onRest r (f : bytes -> P A) D C : nineAt r (f r) D C -> nineAt r (onRest f) D C.
  Proof. intros Hf e s Hs. unfold onRest. rewrite Hs. exact (Hf e s Hs). Qed.
  Lemma n_withEnv r (f : env -> P A) D C : (forall e m, f (withMem m e) = f e) -> (forall e, nineAt r (f e) D C) -> nineAt r (withEnv f) D C.
  Proof. intros E Hf e s Hs. unfold withEnv. rewrite E. exact (Hf e e s Hs). Qed.
  Lemma n_goto r r' (p : P A) D C : nineAt r' p (D + 9 * (L r - L r')) (fun b => C b + 9 * (L r - L r')) -> nineAt r (goto r' ;;; p) D C.
  Proof.
    intros Hp e s Hs. unfold bind, goto. destruct (Hp e (mkst r' (used s)) eq_refl) as [S1 K1]. unfold phi in *. cbn [rest used] in *. rewrite Hs. split.
    - intros m Hm Hr. apply (S1 m Hm). lia.
    - intros a s' H. specialize (K1 _ _ H). lia.
  Qed.
  Lemma n_alloc r n (p : P A) D C : Z.of_N n <= D + 9 * L r -> nineAt r p (D - Z.of_N n) (fun b => C b - Z.of_N n) -> nineAt r (allocStruct n ;;; p) D C.
  Proof.
    intros Hn Hp e s Hs. unfold bind, allocStruct. destruct (Hp e (mkst (rest s) (used s + n)%N) Hs) as [S1 K1]. unfold phi in *. cbn [rest used] in *. rewrite Hs in *. split.
    - intros m Hm Hr. rewrite leMem_none. replace (leMem e (used s + n)) with true; [apply (S1 m Hm); lia|]. unfold leMem. rewrite Hm. symmetry. apply N.leb_le. lia.
    - destruct (leMem e (used s + n)); [|discriminate]. intros a s' H. specialize (K1 _ _ H). lia.
  Qed.
End Rules.
Lemma n_gotoEnd r r' D C : 9 * (L r' - L r) <= C tt -> nineAt r (goto r') D C.
Proof. intros H e s Hs. split; [reflexivity|]. intros a s' [= <- <-]. unfold phi. cbn [rest used]. rewrite Hs. lia. Qed.
Lemma n_iter {A B} (body : A -> P (A + B)) D C : (forall a, nine (body a) D (fun x => match x with inl _ => 0 | inr b => C b end)) -> forall f a, nine (iterP f body a) D C.
Proof.
  intros Hb. induction f as [|f IH]; intros a r; [intros e s Hs; split; [reflexivity|discriminate]|]. cbn [iterP]. eapply n_bind; [apply Hb|lia|].
  intros [a'|b] r'.
  - eapply n_weak; [apply IH|lia|intros; lia].
  - apply n_ret. lia.
Qed.
Lemma n_loop {A B} (body : A -> P (A + B)) a D C r : (forall a, nine (body a) D (fun x => match x with inl _ => 0 | inr b => C b end)) -> nineAt r (loopP body a) D C.
Proof. intros Hb e s Hs. unfold loopP. exact (n_iter body D C Hb _ a r e s Hs). Qed.
Lemma n_pure {A} r (f : st -> res A) D C : (forall s a s', rest s = r -> f s = Ok a s' -> used s' = used s /\ 9 * (L (rest s') - L r) <= C a) -> nineAt r (fun _ s => f s) D C.
Proof. intros Hf e s Hs. split; [reflexivity|]. intros a s' H. destruct (Hf _ _ _ Hs H) as [U K]. unfold phi. rewrite Hs, U. lia. Qed.

(** ** Primitives *)
Lemma room_lt e m n : memend e = Some m -> Z.of_N n < Z.of_N m -> ltMem e n = true.
Proof. intros H K. unfold ltMem. rewrite H. apply N.ltb_lt. lia. Qed.
Lemma room_le e m n : memend e = Some m -> Z.of_N n <= Z.of_N m -> leMem e n = true.
Proof. intros H K. unfold leMem. rewrite H. apply N.leb_le. lia. Qed.
Lemma room_fits e m u n : memend e = Some m -> Z.of_N u + Z.of_N n <= Z.of_N m -> fits e u n = true.
Proof. intros H K. unfold fits. rewrite (room_le e m) by (auto; lia). apply orb_true_r. Qed.
Ltac room Hm := repeat first [rewrite ltMem_none|rewrite leMem_none|rewrite fits_none|rewrite (room_lt _ _ _ Hm) by (unfold L in *; lia)
  |rewrite (room_le _ _ _ Hm) by (unfold L in *; lia)|rewrite (room_fits _ _ _ _ Hm) by (unfold L in *; lia)]; cbn [negb].

Lemma n_allocCString r b D : L b + 2 <= D + 9 * L r -> nineAt r (allocCString b) D (fun a => 2 + L b).
Proof.
  intros Hb e s Hs. unfold allocCString, phi. rewrite Hs. split.
  - intros m Hm Hr. room Hm. reflexivity.
  - destruct (leMem e _); [|discriminate]. intros a s' [= <- <-]. cbn [rest used]. rewrite ?Hs. unfold L. lia.
Qed.
Lemma span_L f r a b : span f r = (a, b) -> L r = L a + L b.
Proof. intros H. apply span_app in H. subst r. apply L_app. Qed.
Definition tok (t : bytes) : Z := 2 - 8 * Z.max 1 (L t).
Lemma tok_le t : tok t <= -6. Proof. unfold tok. lia. Qed.
Lemma n_cstring cs : nine (paCString cs) 2 tok.
Proof.
  intros r e s Hs. unfold paCString, phi, tok. rewrite Hs. destruct (span (inset cs) r) as [t r1] eqn:Es. pose proof (span_L _ _ _ _ Es) as HL. pose proof (L_pos t). pose proof (L_pos r1). split.
  - intros m Hm Hr. room Hm. reflexivity.
  - destruct (negb _); [discriminate|]. destruct (negb _); [discriminate|]. destruct t as [|x t]; [discriminate|]. destruct (negb _); [discriminate|].
    intros a s' [= <- <-]. cbn [rest used]. rewrite L_cons in *. unfold L in *. rewrite ?len_cons in *. lia.
Qed.
Lemma n_fromPos mid cs r : suffix mid r -> nineAt r (paCStringFromPos mid cs) 2 tok.
Proof.
  intros [pre Hpre] e s Hs. unfold paCStringFromPos, phi, tok. rewrite Hs.
  assert (F : firstn (List.length r - List.length mid) r = pre).
  { subst r. rewrite app_length. replace (List.length pre + List.length mid - List.length mid)%nat with (List.length pre + 0)%nat by lia.
    rewrite firstn_app_2. cbn. apply app_nil_r. }
  rewrite F. destruct (span (inset cs) mid) as [t r1] eqn:Es. pose proof (span_L _ _ _ _ Es) as HL. assert (HL2 : L r = L pre + L mid) by (rewrite Hpre; apply L_app).
  pose proof (L_pos t). pose proof (L_pos r1). pose proof (L_pos pre). split.
  - intros m Hm Hr. room Hm. rewrite !andb_false_r. reflexivity.
  - destruct (_ && _)%bool; [discriminate|]. destruct (negb _); [discriminate|]. destruct (negb _); [discriminate|]. destruct (pre ++ t) as [|x l] eqn:El; [discriminate|].
    destruct (negb _); [discriminate|]. intros a s' [= <- <-]. cbn [rest used].
    assert (HL3 : L (x :: l) = L pre + L t) by (rewrite <- El; apply L_app). rewrite HL3. rewrite L_cons in HL3. pose proof (L_pos l). unfold L in *. lia.
Qed.
Lemma filter_L f (l : bytes) : L (filter f l) <= L l.
Proof. induction l as [|x l IH]; [reflexivity|]. cbn [filter]. destruct (f x); rewrite ?L_cons; lia. Qed.
Lemma n_tel cs : nine (paTelNumber cs) 2 tok.
Proof.
  intros r e s Hs. unfold paTelNumber, phi, tok. rewrite Hs.
  destruct (match r with [] => ([], r) | x :: r0 => if (x =? 43)%N then ([43%N], r0) else ([], r) end) as [plus r0] eqn:Ep.
  assert (HL0 : L r = L plus + L r0).
  { revert Ep. destruct r as [|x r']; [intros [= <- <-]; reflexivity|]. destruct (x =? 43)%N; intros [= <- <-]; ln; lia. }
  destruct (span (inset cs) r0) as [run r1] eqn:Es. pose proof (span_L _ _ _ _ Es) as HL. pose proof (filter_L (fun v => negb (IsTelVisualSperator v)) run) as HF.
  pose proof (L_pos r1). pose proof (L_pos plus). assert (HN := L_pos (filter (fun v => negb (IsTelVisualSperator v)) run)). split.
  - intros m Hm Hr. assert (HA : L (plus ++ filter (fun v => negb (IsTelVisualSperator v)) run) <= L r) by (rewrite L_app; lia). room Hm. reflexivity.
  - destruct (negb _); [discriminate|]. destruct (negb _); [discriminate|]. destruct (filter _ run) as [|x l] eqn:El; [discriminate|].
    destruct (negb _); [discriminate|]. intros a s' [= <- <-]. cbn [rest used]. rewrite L_app in *. rewrite L_cons in *. unfold L in *. rewrite len_app, len_cons. lia.
Qed.

Lemma esc_same cs e m : memend e = Some m -> forall n r u, (List.length r <= n)%nat -> Z.of_N u + L r < Z.of_N m -> escLoop cs e u r = escLoop cs (withMem None e) u r.
Proof.
  intros Hm. induction n as [|n IH]; intros r u Hn Hr; (destruct r as [|v r]; [reflexivity|]); cbn [List.length] in Hn; [lia|].
  pose proof (L_pos r). cbn [escLoop]. rewrite L_cons in Hr. rewrite ltMem_none. rewrite (room_lt _ _ _ Hm) by lia.
  destruct (inset cs v); [rewrite (IH r) by lia; reflexivity|]. destruct (v =? 37)%N; [|reflexivity]. destruct r as [|v1 [|v2 r2]]; try reflexivity.
  cbn [List.length] in Hn. ln. destruct (_ || _)%bool; [reflexivity|]. rewrite (IH r2) by lia. reflexivity.
Qed.
Lemma esc_cost cs e : forall n r u t r', (List.length r <= n)%nat -> escLoop cs e u r = EStop t r' -> L t + L r' <= L r.
Proof.
  induction n as [|n IH]; intros r u t r' Hn H; (destruct r as [|v r]; [cbn in H; injection H as <- <-; reflexivity|]); cbn [List.length] in Hn; [lia|].
  cbn [escLoop] in H. destruct (inset cs v).
  { destruct (ltMem e u); [|discriminate]. destruct (escLoop cs e (u + 1) r) as [t' q|q| |] eqn:E; try discriminate. cbn [escCons] in H. injection H as <- <-.
    pose proof (fun H0 => IH _ _ _ _ H0 E) as K; specialize (K ltac:(lia)). ln. lia. }
  destruct (v =? 37)%N; [|injection H as <- <-; ln; lia]. destruct r as [|v1 [|v2 r2]]; try discriminate. cbn [List.length] in Hn.
  destruct (_ || _)%bool; [discriminate|]. destruct (ltMem e u); [|discriminate]. destruct (escLoop cs e (u + 1) r2) as [t' q|q| |] eqn:E; try discriminate.
  cbn [escCons] in H. injection H as <- <-. pose proof (fun H0 => IH _ _ _ _ H0 E) as K; specialize (K ltac:(lia)). ln. lia.
Qed.
Lemma n_esc cs : nine (paEscapable cs) 2 tok.
Proof.
  intros r e s Hs. unfold paEscapable, phi, tok. rewrite Hs. pose proof (L_pos r). split.
  - intros m Hm Hr. room Hm. rewrite (esc_same cs e m Hm _ _ _ (le_n _)) by lia. destruct (escLoop _ _ _ r) as [t r1|r1| |] eqn:E; try reflexivity.
    destruct t as [|x t]; [reflexivity|]. pose proof (esc_cost _ _ _ _ _ _ _ (le_n _) E) as K. pose proof (L_pos r1). room Hm. reflexivity.
  - destruct (negb _); [discriminate|]. destruct (escLoop _ _ _ r) as [t r1|r1| |] eqn:E; try discriminate.
    destruct t as [|x t]; [discriminate|]. pose proof (esc_cost _ _ _ _ _ _ _ (le_n _) E) as K. destruct (negb _); [discriminate|]. intros a s' [= <- <-]. cbn [rest used].
    rewrite L_cons in *. pose proof (L_pos t). unfold L in *. rewrite ?len_cons in *. lia.
Qed.
Lemma n_escEmpty cs : nine (paEscapableEmpty cs) 2 (fun t => 2 - 8 * L t).
Proof.
  intros r e s Hs. unfold paEscapableEmpty, phi, tok. rewrite Hs. pose proof (L_pos r). split.
  - intros m Hm Hr. room Hm. rewrite (esc_same cs e m Hm _ _ _ (le_n _)) by lia. destruct (escLoop _ _ _ r) as [t r1|r1| |] eqn:E; try reflexivity.
    pose proof (esc_cost _ _ _ _ _ _ _ (le_n _) E) as K. pose proof (L_pos r1). room Hm. reflexivity.
  - destruct (negb _); [discriminate|]. destruct (escLoop _ _ _ r) as [t r1|r1| |] eqn:E; try discriminate.
    pose proof (esc_cost _ _ _ _ _ _ _ (le_n _) E) as K. destruct (negb _); [discriminate|]. intros a s' [= <- <-]. cbn [rest used]. unfold L in *. lia.
Qed.

Lemma copy_same e m u r : memend e = Some m -> Z.of_N u + L r <= Z.of_N m -> copyLWS e u r = copyLWS (withMem None e) u r.
Proof.
  intros Hm Hr. unfold copyLWS. destruct (span isWsp r) as [w1 r1] eqn:E1. pose proof (span_L _ _ _ _ E1). pose proof (L_pos r1). room Hm.
  destruct r1 as [|a [|b r2]]; try reflexivity. ln. pose proof (L_pos r2). destruct (_ && _)%bool; [|reflexivity].
  room Hm. destruct r2 as [|x r2]; [reflexivity|]. destruct (negb _); [reflexivity|]. destruct (span isWsp (x :: r2)) as [w2 r3] eqn:E2. pose proof (span_L _ _ _ _ E2). pose proof (L_pos r3).
  room Hm. reflexivity.
Qed.
Lemma copy_cost e u r w r' ok : copyLWS e u r = Some (w, r', ok) -> L w + L r' = L r.
Proof.
  unfold copyLWS. destruct (span isWsp r) as [w1 r1] eqn:E1. pose proof (span_L _ _ _ _ E1). destruct (negb _); [discriminate|].
  destruct r1 as [|a [|b r2]]; try (intros [= <- <- <-]; lia). destruct (_ && _)%bool; [|intros [= <- <- <-]; lia]. destruct (negb _); [discriminate|].
  destruct r2 as [|x r2]; [intros [= <- <- <-]; ln; lia|]. destruct (negb _); [intros [= <- <- <-]; ln; lia|]. destruct (span isWsp (x :: r2)) as [w2 r3] eqn:E2. pose proof (span_L _ _ _ _ E2).
  destruct (negb _); [discriminate|]. intros [= <- <- <-]. ln. lia.
Qed.
Lemma q_same e m : memend e = Some m -> forall f u U r, Z.of_N u + L r < Z.of_N m -> qLoop f e u U r = qLoop f (withMem None e) u U r.
Proof.
  intros Hm. induction f as [|f IH]; intros u U r Hr; [reflexivity|]. cbn [qLoop]. destruct r as [|v r1]; [reflexivity|]. destruct (v =? 34)%N; [reflexivity|].
  pose proof (L_pos r1). destruct (IsLwsChar v).
  { rewrite (copy_same e m) by (auto; lia). destruct (copyLWS (withMem None e) u (v :: r1)) as [[[w r'] [|]]|] eqn:C; try reflexivity.
    pose proof (copy_cost _ _ _ _ _ _ C). rewrite IH; [reflexivity|]. unfold L in *. lia. }
  ln. destruct (IsSipQuotedText v); [room Hm; rewrite IH by lia; reflexivity|]. destruct (v =? 92)%N; [|reflexivity]. destruct r1 as [|x r2]; [reflexivity|]. ln. room Hm. rewrite IH by lia. reflexivity.
Qed.
Lemma q_cost e : forall f u U r t r', qLoop f e u U r = QOk t r' -> L t + L r' + 1 <= L r.
Proof.
  induction f as [|f IH]; intros u U r t r' H; [discriminate|]. cbn [qLoop] in H. destruct r as [|v r1]; [discriminate|]. destruct (v =? 34)%N; [injection H as <- <-; ln; lia|].
  destruct (IsLwsChar v).
  { destruct (copyLWS e u (v :: r1)) as [[[w r2] [|]]|] eqn:C; try discriminate. pose proof (copy_cost _ _ _ _ _ _ C).
    destruct (qLoop f e (u + len w) (u + len w) r2) as [t' q|q y| |] eqn:E; try discriminate. cbn [qApp] in H. injection H as <- <-. pose proof (IH _ _ _ _ _ E). rewrite L_app. lia. }
  destruct (IsSipQuotedText v).
  { destruct (ltMem e u); [|discriminate]. destruct (qLoop f e (u + 1) U r1) as [t' q|q y| |] eqn:E; try discriminate. cbn [qApp] in H. injection H as <- <-. pose proof (IH _ _ _ _ _ E). ln. lia. }
  destruct (v =? 92)%N; [|discriminate]. destruct r1 as [|x r2]; [discriminate|]. destruct (leMem e (u + 2)); [|discriminate].
  destruct (qLoop f e (u + 2) U r2) as [t' q|q y| |] eqn:E; try discriminate. cbn [qApp] in H. injection H as <- <-. pose proof (IH _ _ _ _ _ E). ln. lia.
Qed.
Lemma SWS_L r : L (ParseSWS_2 r) <= L r. Proof. apply L_suffix, ParseSWS_suffix. Qed.
Lemma n_quoted : nine paQuoted 2 (fun t => - 16 - 8 * L t).
Proof.
  intros r e s Hs. unfold paQuoted, phi. rewrite Hs. pose proof (SWS_L r) as HS. destruct (ParseSWS_2 r) as [|x r1]; [split; [reflexivity|discriminate]|].
  destruct (negb (x =? 34)%N); [split; [reflexivity|discriminate]|]. ln. pose proof (L_pos r1). split.
  - intros m Hm Hr. rewrite (q_same e m Hm) by lia. room Hm. reflexivity.
  - destruct (qLoop _ e _ _ r1) as [t r2|r2 y| |] eqn:E; try discriminate. destruct (negb _); [discriminate|]. intros a s' [= <- <-]. cbn [rest used].
    pose proof (q_cost _ _ _ _ _ _ _ E). unfold L in *. lia.
Qed.
Lemma n_liftB f C : (forall r r', f r = (r', true) -> 9 * (L r' - L r) <= C) -> nine (liftB f) 0 (fun _ => C).
Proof.
  intros Hf r. apply n_pure. intros s a s' Hs. rewrite Hs. destruct (f r) as [r' [|]] eqn:E; [|discriminate]. intros [= <- <-]. cbn [rest used]. split; [reflexivity|]. apply (Hf _ _ E).
Qed.
Lemma n_SWS : nine pSWS 0 (fun _ => 0).
Proof. intros r. apply n_pure. intros s a s' Hs [= <- <-]. cbn [rest used]. split; [reflexivity|]. rewrite Hs. pose proof (SWS_L r). lia. Qed.
Lemma n_LWS : nine pLWS 0 (fun _ => 0).
Proof. apply n_liftB. intros r r' H. pose proof (L_suffix _ _ (ParseLWS_suffix r)) as K. rewrite H in K. cbn [fst] in K. lia. Qed.
Lemma wsp_L r : L (skipWsp r) <= L r.
Proof. induction r as [|x r IH]; [reflexivity|]. cbn [skipWsp]. destruct (isWsp x); rewrite ?L_cons; lia. Qed.
Lemma n_Hcolon : nine pHcolon 0 (fun _ => -9).
Proof.
  apply n_liftB. intros r r' H. unfold ParseHcolon in H. pose proof (wsp_L r) as K. destruct (skipWsp r) as [|x q]; [discriminate|]. destruct (negb _); [discriminate|]. injection H as <-.
  pose proof (SWS_L q). ln. lia.
Qed.
Lemma n_Mark m : nine (pSWSMark m) 0 (fun _ => -9).
Proof.
  apply n_liftB. intros r r' H. unfold ParseSWSMark in H. pose proof (SWS_L r) as K. destruct (ParseSWS_2 r) as [|x q]; [discriminate|]. destruct (negb _); [discriminate|]. injection H as <-.
  pose proof (SWS_L q). ln. lia.
Qed.
Lemma omit_L m r r' mt ok : ParseSWSMarkCanOmmit m r = (r', mt, ok) -> L r' <= L r - (if mt then 1 else 0).
Proof.
  unfold ParseSWSMarkCanOmmit. pose proof (SWS_L r) as K. destruct (ParseSWS_2 r) as [|x q]; [intros [= <- <- <-]; lia|]. destruct (negb _); intros [= <- <- <-]; [lia|].
  pose proof (SWS_L q). ln. lia.
Qed.
Lemma n_Omit m : nine (pSWSMarkCanOmmit m) 0 (fun b => if b then -9 else 0).
Proof.
  intros r. apply n_pure. intros s a s' Hs. rewrite Hs. destruct (ParseSWSMarkCanOmmit m r) as [[r' mt] ok] eqn:E. apply omit_L in E. destruct ok; [|discriminate].
  intros [= <- <-]. cbn [rest used]. split; [reflexivity|]. destruct mt; lia.
Qed.
Lemma n_LAQ : nine pLeftAngleQuote 0 (fun _ => -9).
Proof.
  apply n_liftB. intros r r' H. unfold ParseLeftAngleQuote in H. pose proof (SWS_L r) as K. destruct r as [|y r0]; [discriminate|]. destruct (ParseSWS_2 (y :: r0)) as [|x q]; [discriminate|].
  destruct (negb _); [discriminate|]. injection H as <-. ln. lia.
Qed.
Lemma n_RAQ : nine pRightAngleQuote 0 (fun _ => -9).
Proof.
  apply n_liftB. intros r r' H. unfold ParseRightAngleQuote in H. destruct r as [|x q]; [discriminate|]. destruct (negb _); [discriminate|]. injection H as <-. pose proof (SWS_L q). ln. lia.
Qed.
Lemma n_CRLF : nine pCRLF 0 (fun _ => -18).
Proof. apply n_liftB. intros r r' H. unfold ParseCRLF in H. destruct r as [|a [|b q]]; try discriminate. destruct (_ && _)%bool; [|discriminate]. injection H as <-. ln. lia. Qed.
