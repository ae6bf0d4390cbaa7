(** When the quoted-string parse crashes for lack of memory. *)
From Verif Require Import Base Charset BaseLemmas Lws LwsSpec LwsProofs Str StrSpec StrProofs QuotedSpec QuotedExact.

Notation QS := (QStart plainQd isWsp).
Lemma qs_app p w s : QT p w -> QS s -> QS (p ++ s).
Proof. intros H Hs. induction H; cbn [app]; try (constructor; assumption); assumption. Qed.
Lemma qs_of p w : QT p w -> QS p.
Proof. intros H. rewrite <- (app_nil_r p). eapply qs_app; [exact H|constructor]. Qed.
Lemma qs_cancel p w s : QT p w -> QS (p ++ s) -> QS s.
Proof.
  intros H. induction H as [|x p t Hx H IH|x p t Hx H IH|z p t Hz H IH|x p t H IH]; cbn [app]; intros Q; [exact Q|apply IH..].
  - inversion Q; subst; try assumption; discriminate.
  - inversion Q; subst; try assumption; discriminate.
  - inversion Q; subst; try assumption; try discriminate.
  - inversion Q; subst; try assumption; discriminate.
Qed.
Lemma fits_c e c u n : memend e = Some c -> fits e u n = ((n =? 0) || (u + n <=? c))%bool.
Proof. intros E. unfold fits, leMem. now rewrite E. Qed.
Lemma copyLWS_mem e c u r : memend e = Some c ->
  match copyLWS e u r with
  | None => exists src k, r = src ++ k /\ src <> [] /\ QS src /\ c < u + len src
  | Some (w, r', true) => exists p, r = p ++ r' /\ QT p w /\ List.length p = List.length w /\ (p = [] \/ u + len p <= c) /\
      (p = [] -> stops isWsp r = true /\ ~ (exists t, r = 13 :: 10 :: t))
  | Some (w, r', false) => exists p t, r = p ++ 13 :: 10 :: r' /\ QT p t /\ u + len p + 2 <= c /\ lineEndAt isWsp (13 :: 10 :: r')
  end.
Proof.
  intros He. unfold copyLWS. destruct (span isWsp r) as [w1 r1] eqn:E. pose proof (span_app _ _ _ _ E) as E1. pose proof (span_stops _ _ _ _ E) as St.
  pose proof (span_all _ _ _ _ E) as Al. subst r. rewrite (fits_c _ _ _ _ He).
  destruct ((len w1 =? 0) || (u + len w1 <=? c))%bool eqn:F1; cbn [negb].
  2:{ apply orb_false_iff in F1 as [F0 F1]. exists w1, r1. split; [reflexivity|]. split; [intros ->; discriminate|]. split; [eapply qs_of, qt_ws, Al|]. apply N.leb_gt in F1. exact F1. }
  assert (L1 : w1 = [] \/ u + len w1 <= c). { destruct w1; [left; reflexivity|right]. apply orb_prop in F1 as [F1|F1]; [rewrite len_cons in F1; apply N.eqb_eq in F1; lia|now apply N.leb_le]. }
  assert (Plain : (~ exists t, r1 = 13 :: 10 :: t) -> exists p, w1 ++ r1 = p ++ r1 /\ QT p w1 /\ List.length p = List.length w1 /\ (p = [] \/ u + len p <= c) /\
     (p = [] -> stops isWsp (w1 ++ r1) = true /\ ~ (exists t, w1 ++ r1 = 13 :: 10 :: t))).
  { intros NC. exists w1. split; [reflexivity|]. split; [apply qt_ws, Al|]. split; [reflexivity|]. split; [exact L1|]. intros ->. auto. }
  destruct r1 as [|x [|y r2]]; try (apply Plain; intros [t X]; discriminate).
  destruct ((x =? 13) && (y =? 10))%bool eqn:Exy.
  2:{ apply Plain. intros [t X]. injection X as -> -> _. discriminate. }
  apply andb_prop in Exy as [Ex Ey]. apply N.eqb_eq in Ex, Ey. subst x y. rewrite (fits_c _ _ _ _ He). change (2 =? 0) with false. cbn [orb].
  destruct (N.leb_spec (u + len w1 + 2) c) as [L2|L2]; cbn [negb].
  2:{ exists (w1 ++ [13; 10]), r2. split; [now rewrite <- app_assoc|]. split; [destruct w1; discriminate|]. split; [eapply qs_app; [apply qt_ws, Al|constructor]|]. rewrite len_app. change (len [13; 10]) with 2. lia. }
  destruct r2 as [|z r2].
  { exists w1, w1. split; [reflexivity|]. split; [apply qt_ws, Al|]. split; [exact L2|]. eexists. split; [reflexivity|discriminate]. }
  destruct (isWsp z) eqn:Ez; cbn [negb].
  2:{ exists w1, w1. split; [reflexivity|]. split; [apply qt_ws, Al|]. split; [exact L2|]. eexists. split; [reflexivity|]. intros ? ? [= <- _]. exact Ez. }
  destruct (span isWsp (z :: r2)) as [w2 r3] eqn:E2. pose proof (span_app _ _ _ _ E2) as E3. pose proof (span_all _ _ _ _ E2) as Al2.
  destruct w2 as [|z2 w2]. { cbn in E2. rewrite Ez in E2. destruct (span isWsp r2). discriminate. }
  cbn [app] in E3. injection E3 as -> ->. rewrite (fits_c _ _ _ _ He).
  assert (Qp : QT (w1 ++ 13 :: 10 :: z2 :: w2) (w1 ++ 13 :: 13 :: z2 :: w2)).
  { apply qt_app; [apply qt_ws, Al|]. cbn [app]. cbn in Al2. apply andb_prop in Al2 as [_ Al2]. apply QTFold; [exact Ez|apply qt_ws, Al2]. }
  assert (Lp : len (w1 ++ 13 :: 10 :: z2 :: w2) = len w1 + 2 + len (z2 :: w2)) by (rewrite len_app, !len_cons; lia).
  destruct ((len (z2 :: w2) =? 0) || (u + len w1 + 2 + len (z2 :: w2) <=? c))%bool eqn:F3; cbn [negb].
  - exists (w1 ++ 13 :: 10 :: z2 :: w2). split; [rewrite <- app_assoc; reflexivity|]. split; [exact Qp|]. split; [rewrite !app_length; reflexivity|].
    split; [right; apply orb_prop in F3 as [F3|F3]; [rewrite len_cons in F3; apply N.eqb_eq in F3; lia|apply N.leb_le in F3; lia]|]. intros Hc. destruct w1; discriminate.
  - exists (w1 ++ 13 :: 10 :: z2 :: w2), r3. split; [rewrite <- app_assoc; reflexivity|]. split; [destruct w1; discriminate|]. split; [eapply qs_of, Qp|].
    apply orb_false_iff in F3 as [_ F3]. apply N.leb_gt in F3. lia.
Qed.
Lemma app_split {A} (a b c d : list A) : a ++ b = c ++ d -> (List.length a <= List.length c)%nat -> exists m, c = a ++ m /\ b = m ++ d.
Proof. revert c. induction a as [|x a IH]; intros c E L; [exists c; auto|]. destruct c as [|y c]; [cbn in L; lia|]. cbn in E, L. injection E as -> E. destruct (IH c E ltac:(lia)) as (m & -> & ->). exists m. auto. Qed.
Definition overrun (c u : N) (r : bytes) : Prop := exists src k, r = src ++ k /\ src <> [] /\ QS src /\ c < u + len src.
Lemma overrun_step c u p w r : QT p w -> u + len p <= c -> overrun c u (p ++ r) <-> overrun c (u + len p) r.
Proof.
  intros Q L. split.
  - intros (src & k & E & Ne & H & Lt). destruct (app_split p r src k E) as (m & -> & ->); [unfold len in *; lia|]. apply qs_cancel with (1 := Q) in H. rewrite len_app in Lt. exists m, k.
    split; [reflexivity|]. split; [intros ->; change (len (@nil N)) with 0 in Lt; lia|]. split; [exact H|lia].
  - intros (src & k & -> & Ne & H & Lt). exists (p ++ src), k. split; [now rewrite app_assoc|]. split; [intros X; apply app_eq_nil in X as [_ X]; auto|]. split; [eapply qs_app; eassumption|]. rewrite len_app. lia.
Qed.
Lemma qApp_panic w o : qApp w o = QPanic <-> o = QPanic.
Proof. destruct o; cbn; split; congruence. Qed.
Lemma qLoop_panic e c : memend e = Some c -> forall f r u U, (List.length r < f)%nat -> qLoop f e u U r = QPanic <-> overrun c u r.
Proof.
  intros He. induction f as [|f IH]; intros r u U Hf; [lia|]. cbn [qLoop]. destruct r as [|v r1].
  { split; [discriminate|]. intros (src & k & E & Ne & _). symmetry in E. apply app_eq_nil in E as [-> _]. congruence. }
  cbn [List.length] in Hf. destruct (N.eqb_spec v 34) as [->|N34].
  { split; [discriminate|]. intros (src & k & E & Ne & H & _). destruct src as [|y src]; [congruence|]. injection E as <- _. inversion H; discriminate. }
  destruct (IsLwsChar v) eqn:El.
  { pose proof (copyLWS_mem e c u (v :: r1) He) as C. destruct (copyLWS e u (v :: r1)) as [[[w r2] [|]]|] eqn:Ec.
    - destruct C as (p & E & Hq & Hl & Hm & Hs). destruct p as [|y p].
      + specialize (Hs eq_refl) as [St NC]. cbn in E. subst r2. destruct w; [|discriminate].
        assert (Q : qLoop f e (u + len []) (u + len []) (v :: r1) = QLoop).
        { apply copyLWS_stuck_mem; [|now apply N.eqb_neq|exact El]. cbn [len List.length N.of_nat]. rewrite N.add_0_r. exact Ec. }
        rewrite Q. split; [discriminate|]. intros (src & k & E & Ne & H & _). exfalso. destruct src as [|y src]; [congruence|]. injection E as <- E.
        cbn in St. apply negb_true_iff in St. inversion H; subst; try congruence; try (apply NC; eexists; reflexivity); try discriminate.
        unfold plainQd in *. rewrite El in *. rewrite andb_false_r in *. discriminate.
      + destruct Hm as [Hm|Hm]; [discriminate|]. rewrite qApp_panic, E, (overrun_step c u (y :: p) w r2 Hq Hm). unfold len at 1 3. rewrite <- Hl. apply IH.
        apply (f_equal (@List.length N)) in E. rewrite app_length in E. cbn in E. lia.
    - destruct C as (p & t & E & Hq & Hm & (t2 & Et & Hle)). injection Et as <-. split; [discriminate|]. rewrite E, (overrun_step c u p t _ Hq ltac:(lia)). intros (src & k & E2 & Ne & H & Lt).
      destruct src as [|a [|b src]]; [congruence| |].
      { change (len [a]) with 1 in Lt. lia. }
      cbn [app] in E2. injection E2 as <- <- E2. inversion H; subst; try discriminate.
      { change (len [13; 10]) with 2 in Lt. lia. }
      pose proof (Hle _ _ eq_refl). congruence.
    - split; [intros _; exact C|reflexivity]. }
  rewrite IsLwsChar_spec in El. apply orb_false_iff in El as [El E10]. apply orb_false_iff in El as [Ew E13].
  destruct (IsSipQuotedText v) eqn:Eq.
  { assert (Qv : QT [v] [v]). { apply QTText; [|constructor]. unfold plainQd. rewrite Eq, IsLwsChar_spec, Ew, E13, E10. reflexivity. }
    unfold ltMem. rewrite He. destruct (N.ltb_spec u c) as [L|L].
    - rewrite qApp_panic. change (v :: r1) with ([v] ++ r1). rewrite (overrun_step c u [v] [v] r1 Qv) by (change (len [v]) with 1; lia). apply IH. lia.
    - split; [intros _|reflexivity]. exists [v], r1. split; [reflexivity|]. split; [discriminate|]. split; [eapply qs_of, Qv|]. change (len [v]) with 1. lia. }
  assert (Ep : plainQd v = false) by (unfold plainQd; now rewrite Eq).
  destruct (N.eqb_spec v 92) as [->|N92].
  { destruct r1 as [|x r2].
    - split; [discriminate|]. intros (src & k & E & Ne & H & _). destruct src as [|y [|z src]]; [congruence| |]; injection E as <- E; [|discriminate]. inversion H; discriminate.
    - assert (Qv : QT [92; x] [92; x]) by (apply QTPair; constructor). unfold leMem. rewrite He. destruct (N.leb_spec (u + 2) c) as [L|L].
      + rewrite qApp_panic. change (92 :: x :: r2) with ([92; x] ++ r2). rewrite (overrun_step c u [92; x] _ r2 Qv) by exact L. apply IH. cbn in Hf. lia.
      + split; [intros _|reflexivity]. exists [92; x], r2. split; [reflexivity|]. split; [discriminate|]. split; [eapply qs_of, Qv|]. exact L. }
  split; [discriminate|]. intros (src & k & E & Ne & H & _). destruct src as [|y src]; [congruence|]. injection E as <- E. inversion H; subst; try congruence; discriminate.
Qed.
Lemma paQuoted_panic e c r u : memend e = Some c -> paQuoted e (mkst r u) = Panic <->
  SWS r [] \/ (exists src k, SWS r (34 :: src ++ k) /\ QS src /\ c < u + 2 + len src /\ (src <> [] \/ exists k', k = 34 :: k')).
Proof.
  intros He. unfold paQuoted. cbn [rest used].
  assert (D : forall k, SWS r k <-> ParseSWS_2 r = k) by (intros k; symmetry; apply sws_iff).
  destruct (ParseSWS_2 r) as [|x b] eqn:E.
  { split; [intros _; left; now apply D|reflexivity]. }
  assert (D1 : ~ SWS r []) by (rewrite D; discriminate).
  destruct (N.eqb_spec x 34) as [->|Nx]; cbn [negb].
  2:{ split; [discriminate|]. intros [H|(src & k & H & _)]; [contradiction|]. apply D in H. congruence. }
  pose proof (qLoop_panic e c He (S (List.length b)) b (u + 2) u ltac:(lia)) as Q.
  assert (Body : (exists src k, SWS r (34 :: src ++ k) /\ QS src /\ c < u + 2 + len src /\ (src <> [] \/ exists k', k = 34 :: k')) <-> overrun c (u + 2) b \/ (c < u + 2 /\ exists k, b = 34 :: k)).
  { split.
    - intros (src & k & H & Hq & L & C). apply D in H. injection H as ->. destruct src as [|y src]; [|left; exists (y :: src), k; repeat split; auto; discriminate].
      right. destruct C as [C|[k' ->]]; [congruence|]. change (len (@nil N)) with 0 in L. split; [lia|]. exists k'. reflexivity.
    - intros [(src & k & -> & Ne & Hq & L)|[L [k ->]]].
      + exists src, k. split; [now apply D|]. auto.
      + exists [], (34 :: k). split; [now apply D|]. split; [constructor|]. split; [change (len (@nil N)) with 0; lia|right; eauto]. }
  rewrite Body.
  assert (Ov : b = [] \/ (exists k, b = 34 :: k) -> ~ overrun c (u + 2) b).
  { intros [->|[k ->]] (src & k' & E2 & Ne & H & _); destruct src as [|y src]; try congruence; try discriminate. injection E2 as <- _. inversion H; discriminate. }
  destruct (qLoop (S (List.length b)) e (u + 2) u b) as [tok q|q U'| |] eqn:EQ.
  - unfold leMem. rewrite He. destruct (N.leb_spec (u + 2) c) as [L|L]; cbn [negb].
    + split; [discriminate|]. intros [H|[H|[H _]]]; [contradiction| |lia]. apply Q in H. discriminate.
    + split; [intros _; right; right|reflexivity]. split; [exact L|]. destruct b as [|v b]; [discriminate|]. cbn [qLoop] in EQ. destruct (N.eqb_spec v 34) as [->|N34]; [eauto|]. exfalso.
      destruct (IsLwsChar v) eqn:El.
      * pose proof (copyLWS_mem e c (u + 2) (v :: b) He) as C. destruct (copyLWS e (u + 2) (v :: b)) as [[[w r2] [|]]|] eqn:Ec; [|discriminate|discriminate].
        destruct C as (p & E2 & Hq & Hl & Hm & Hs). destruct Hm as [->|Hm]; [|unfold len in Hm; lia]. specialize (Hs eq_refl) as [St NC]. cbn in E2. subst r2. destruct w; [|discriminate].
        rewrite (copyLWS_stuck_mem e (u + 2 + len []) b v) in EQ; [discriminate| |now apply N.eqb_neq|exact El]. change (len (@nil N)) with 0. rewrite N.add_0_r. exact Ec.
      * destruct (IsSipQuotedText v) eqn:Eqt.
        { unfold ltMem in EQ. rewrite He in EQ. destruct (N.ltb_spec (u + 2) c); [lia|discriminate]. }
        destruct (v =? 92); [|discriminate]. destruct b as [|y b]; [discriminate|]. unfold leMem in EQ. rewrite He in EQ. destruct (N.leb_spec (u + 2 + 2) c); [lia|discriminate].
  - split; [discriminate|]. intros [H|[H|[_ [k ->]]]]; [contradiction|apply Q in H; discriminate|]. cbn in EQ. discriminate.
  - split; [intros _; right; left; now apply Q|reflexivity].
  - split; [discriminate|]. intros [H|[H|[_ [k ->]]]]; [contradiction|apply Q in H; discriminate|]. cbn in EQ. discriminate.
Qed.
