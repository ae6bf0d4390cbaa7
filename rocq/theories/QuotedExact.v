(** The quoted-string parse is exactly [QText]. *)
From Verif Require Import Base Charset BaseLemmas Lws LwsSpec LwsProofs Str StrSpec StrProofs QuotedSpec.

Notation QT := (QText plainQd isWsp).
Definition isStop (k : bytes) : Prop :=
  match k with
  | [] => True
  | x :: r => plainQd x = false /\ isWsp x = false /\ (x = 92 -> r = []) /\ (x = 13 -> forall z t, r = 10 :: z :: t -> isWsp z = false)
  end.
Lemma qt_app s1 t1 s2 t2 : QT s1 t1 -> QT s2 t2 -> QT (s1 ++ s2) (t1 ++ t2).
Proof. intros H H2. induction H; cbn [app]; try (constructor; assumption); auto. Qed.
Lemma qt_ws w : forallb isWsp w = true -> QT w w.
Proof. induction w as [|x w IH]; cbn; [constructor|]. intros H. apply andb_prop in H as [H1 H2]. apply QTWs; auto. Qed.
Lemma qt_det s1 t1 : QT s1 t1 -> forall s2 t2 k1 k2, QT s2 t2 -> s1 ++ k1 = s2 ++ k2 -> isStop k1 -> isStop k2 -> s1 = s2 /\ t1 = t2.
Proof.
  assert (P13 : plainQd 13 = false) by reflexivity. assert (W13 : isWsp 13 = false) by reflexivity.
  assert (P92 : plainQd 92 = false) by reflexivity. assert (W92 : isWsp 92 = false) by reflexivity.
  intros H. induction H as [|x s t Hx H IH|x s t Hx H IH|z s t Hz H IH|x s t H IH]; intros s2 t2 k1 k2 H2 E S1 S2.
  - destruct H2 as [|y s2 t2 Hy H2|y s2 t2 Hy H2|y s2 t2 Hy H2|y s2 t2 H2]; [auto| | | |]; cbn [app] in E; subst k1; cbn in S1; exfalso.
    + destruct S1 as (A & _). congruence.
    + destruct S1 as (_ & A & _). congruence.
    + destruct S1 as (_ & _ & _ & A). specialize (A eq_refl _ _ eq_refl). congruence.
    + destruct S1 as (_ & _ & A & _). specialize (A eq_refl). discriminate.
  - inversion H2; subst; cbn [app] in E.
    + subst k2. cbn in S2. destruct S2; congruence.
    + injection E as -> E. edestruct (fun b h => IH _ b _ _ h E S1 S2) as [-> ->]; [eassumption|auto].
    + injection E as -> E. edestruct (fun b h => IH _ b _ _ h E S1 S2) as [-> ->]; [eassumption|auto].
    + injection E as -> E. congruence.
    + injection E as -> E. congruence.
  - inversion H2; subst; cbn [app] in E.
    + subst k2. cbn in S2. destruct S2 as (_ & A & _); congruence.
    + injection E as -> E. edestruct (fun b h => IH _ b _ _ h E S1 S2) as [-> ->]; [eassumption|auto].
    + injection E as -> E. edestruct (fun b h => IH _ b _ _ h E S1 S2) as [-> ->]; [eassumption|auto].
    + injection E as -> E. congruence.
    + injection E as -> E. congruence.
  - inversion H2; subst; cbn [app] in E.
    + subst k2. cbn in S2. destruct S2 as (_ & _ & _ & A). specialize (A eq_refl _ _ eq_refl). congruence.
    + injection E as <- E. congruence.
    + injection E as <- E. congruence.
    + injection E as -> E. edestruct (fun b h => IH _ b _ _ h E S1 S2) as [-> ->]; [eassumption|auto].
    + discriminate.
  - inversion H2; subst; cbn [app] in E.
    + subst k2. cbn in S2. destruct S2 as (_ & _ & A & _). specialize (A eq_refl). discriminate.
    + injection E as <- E. congruence.
    + injection E as <- E. congruence.
    + discriminate.
    + injection E as -> E. edestruct (fun b h => IH _ b _ _ h E S1 S2) as [-> ->]; [eassumption|auto].
Qed.

(** One white-space step. *)
Lemma copyLWS_exact e u r : roomy e (u + len r) ->
  match copyLWS e u r with
  | None => False
  | Some (w, r', true) => exists p, r = p ++ r' /\ QT p w /\ List.length p = List.length w /\
      (p = [] -> stops isWsp r = true /\ ~ (exists t, r = 13 :: 10 :: t))
  | Some (w, r', false) => exists p t, r = p ++ 13 :: 10 :: r' /\ QT p t /\ lineEndAt isWsp (13 :: 10 :: r')
  end.
Proof.
  intros Hr. unfold copyLWS. destruct (span isWsp r) as [w1 r1] eqn:E. pose proof (span_app _ _ _ _ E) as E1. pose proof (span_stops _ _ _ _ E) as St.
  pose proof (span_all _ _ _ _ E) as Al. subst r. rewrite len_app in Hr.
  rewrite (roomy_fits _ _ _ _ Hr) by lia. cbn [negb].
  assert (Plain : (~ exists t, r1 = 13 :: 10 :: t) -> exists p, w1 ++ r1 = p ++ r1 /\ QT p w1 /\ List.length p = List.length w1 /\
     (p = [] -> stops isWsp (w1 ++ r1) = true /\ ~ (exists t, w1 ++ r1 = 13 :: 10 :: t))).
  { intros NC. exists w1. split; [reflexivity|]. split; [apply qt_ws, Al|]. split; [reflexivity|]. intros ->. auto. }
  destruct r1 as [|x [|y r2]].
  - apply Plain. intros [t X]. discriminate.
  - apply Plain. intros [t X]. discriminate.
  - destruct ((x =? 13) && (y =? 10))%bool eqn:Exy.
    2:{ apply Plain. intros [t X]. injection X as -> -> _. discriminate. }
    apply andb_prop in Exy as [Ex Ey]. apply N.eqb_eq in Ex, Ey. subst x y. rewrite !len_cons in Hr.
    rewrite (roomy_fits _ _ _ _ Hr) by lia. cbn [negb]. destruct r2 as [|z r2].
    { exists w1, w1. split; [reflexivity|]. split; [apply qt_ws, Al|]. eexists. split; [reflexivity|discriminate]. }
    destruct (isWsp z) eqn:Ez; cbn [negb].
    2:{ exists w1, w1. split; [reflexivity|]. split; [apply qt_ws, Al|]. eexists. split; [reflexivity|]. intros ? ? [= <- _]. exact Ez. }
    destruct (span isWsp (z :: r2)) as [w2 r3] eqn:E2. pose proof (span_app _ _ _ _ E2) as E3. pose proof (span_all _ _ _ _ E2) as Al2.
    rewrite E3, len_app in Hr. rewrite (roomy_fits _ _ _ _ Hr) by lia. cbn [negb].
    destruct w2 as [|z2 w2]. { cbn in E2. rewrite Ez in E2. destruct (span isWsp r2). discriminate. }
    cbn [app] in E3. injection E3 as -> ->.
    exists (w1 ++ 13 :: 10 :: z2 :: w2). split; [rewrite <- app_assoc; reflexivity|]. split.
    { apply qt_app; [apply qt_ws, Al|]. cbn [app]. cbn in Al2. apply andb_prop in Al2 as [_ Al2]. apply QTFold; [exact Ez|apply qt_ws, Al2]. }
    split; [rewrite !app_length; reflexivity|]. intros Hc. destruct w1; discriminate.
Qed.

Lemma qLoop_exact e : forall f r u U, (List.length r < f)%nat -> roomy e (u + len r) ->
  match qLoop f e u U r with
  | QOk tok k => exists src, r = src ++ 34 :: k /\ QT src tok
  | QFail k _ => exists src tok k', r = src ++ k' /\ QT src tok /\ (k' = k /\ badByteAt plainQd isWsp k' \/ k' = 13 :: 10 :: k /\ lineEndAt isWsp k')
  | QLoop => exists src tok k, r = src ++ k /\ QT src tok /\ loneBreakAt k
  | QPanic => False
  end.
Proof.
  induction f as [|f IH]; intros r u U Hf Hr; [lia|]. cbn [qLoop]. destruct r as [|v r1].
  { exists [], [], []. split; [reflexivity|]. split; [constructor|]. left. split; [reflexivity|now left]. }
  cbn [List.length] in Hf. destruct (N.eqb_spec v 34) as [->|N34].
  { exists []. split; [reflexivity|constructor]. }
  assert (Step : forall p w r2 o, v :: r1 = p ++ r2 -> QT p w ->
     match o with
     | QOk tok k => exists src, r2 = src ++ 34 :: k /\ QT src tok
     | QFail k _ => exists src tok k', r2 = src ++ k' /\ QT src tok /\ (k' = k /\ badByteAt plainQd isWsp k' \/ k' = 13 :: 10 :: k /\ lineEndAt isWsp k')
     | QLoop => exists src tok k, r2 = src ++ k /\ QT src tok /\ loneBreakAt k
     | QPanic => False
     end ->
     match qApp w o with
     | QOk tok k => exists src, v :: r1 = src ++ 34 :: k /\ QT src tok
     | QFail k _ => exists src tok k', v :: r1 = src ++ k' /\ QT src tok /\ (k' = k /\ badByteAt plainQd isWsp k' \/ k' = 13 :: 10 :: k /\ lineEndAt isWsp k')
     | QLoop => exists src tok k, v :: r1 = src ++ k /\ QT src tok /\ loneBreakAt k
     | QPanic => False
     end).
  { intros p w r2 o E Hq. rewrite E. destruct o as [tok k|k U'| |]; cbn [qApp].
    - intros (src & -> & H). exists (p ++ src). split; [now rewrite app_assoc|now apply qt_app].
    - intros (src & tok & k' & -> & H & H'). exists (p ++ src), (w ++ tok), k'. split; [now rewrite app_assoc|]. split; [now apply qt_app|exact H'].
    - intros [].
    - intros (src & tok & k' & -> & H & H'). exists (p ++ src), (w ++ tok), k'. split; [now rewrite app_assoc|]. split; [now apply qt_app|exact H']. }
  destruct (IsLwsChar v) eqn:El.
  { pose proof (copyLWS_exact e u (v :: r1) Hr) as C. destruct (copyLWS e u (v :: r1)) as [[[w r2] [|]]|] eqn:Ec; [| |contradiction].
    - destruct C as (p & E & Hq & Hl & Hs). destruct p as [|y p].
      + (* no progress: the loop never ends *)
        specialize (Hs eq_refl) as [St NC]. cbn in E. subst r2. destruct w; [|discriminate].
        assert (Q : qLoop f e (u + len []) (u + len []) (v :: r1) = QLoop).
        { apply copyLWS_stuck_mem; [|now apply N.eqb_neq|exact El]. cbn [len List.length N.of_nat]. rewrite N.add_0_r. exact Ec. }
        rewrite Q. cbn [qApp]. exists [], [], (v :: r1). split; [reflexivity|]. split; [constructor|].
        cbn in St. apply negb_true_iff in St. rewrite IsLwsChar_spec, St in El. cbn in El. apply orb_prop in El as [El|El]; apply N.eqb_eq in El; subst v.
        * right. exists r1. split; [reflexivity|]. intros [t' ->]. apply NC. eauto.
        * left. eauto.
      + eapply (Step (y :: p)); [exact E|exact Hq|]. apply IH.
        * apply (f_equal (@List.length N)) in E. rewrite app_length in E. cbn in E. lia.
        * eapply roomy_mono; [exact Hr|]. rewrite E, len_app. unfold len. rewrite Hl. lia.
    - destruct C as (p & t & E & Hq & Hle). exists p, t, (13 :: 10 :: r2). auto. }
  rewrite IsLwsChar_spec in El. apply orb_false_iff in El as [El E10]. apply orb_false_iff in El as [Ew E13].
  apply N.eqb_neq in E10, E13.
  destruct (IsSipQuotedText v) eqn:Eq.
  { rewrite (roomy_lt _ _ _ Hr) by (rewrite len_cons; lia). eapply (Step [v]); [reflexivity| |].
    - apply QTText; [|constructor]. unfold plainQd. rewrite Eq, IsLwsChar_spec, Ew. cbn [orb andb].
      destruct (N.eqb_spec v 13); [contradiction|]. destruct (N.eqb_spec v 10); [contradiction|]. reflexivity.
    - apply IH; [lia|]. eapply roomy_mono; [exact Hr|]. rewrite len_cons. lia. }
  assert (Ep : plainQd v = false) by (unfold plainQd; now rewrite Eq).
  destruct (N.eqb_spec v 92) as [->|N92].
  { destruct r1 as [|x r2].
    - exists [], [], [92]. split; [reflexivity|]. split; [constructor|]. left. split; [reflexivity|right; now left].
    - rewrite !len_cons in Hr. rewrite (roomy_le _ _ _ Hr) by lia. eapply (Step [92; x]); [reflexivity|apply QTPair; constructor|].
      cbn in Hf. apply IH; [lia|]. eapply roomy_mono; [exact Hr|lia]. }
  exists [], [], (v :: r1). split; [reflexivity|]. split; [constructor|]. left. split; [reflexivity|].
  right. right. exists v, r1. repeat split; assumption.
Qed.

Lemma stop_quote k : isStop (34 :: k). Proof. cbn. repeat split; try reflexivity; discriminate. Qed.
Lemma stop_lone k : loneBreakAt k -> isStop k.
Proof.
  intros [[t ->]|(t & -> & Hn)]; cbn; (split; [reflexivity|]); (split; [reflexivity|]); (split; [discriminate|]); [discriminate|].
  intros _ z t' ->. exfalso. apply Hn. eauto.
Qed.
Lemma stop_bad k : badByteAt plainQd isWsp k -> isStop k.
Proof.
  intros [->|[->|(x & t & -> & H1 & H2 & H3 & H4 & H5 & H6)]]; [exact I| |].
  - cbn. repeat split; try reflexivity. discriminate.
  - cbn. repeat split; auto; congruence.
Qed.
Lemma stop_line k : lineEndAt isWsp k -> isStop k.
Proof. intros (t & -> & H). cbn. repeat split; try reflexivity; [discriminate|]. intros _ z t' [= ->]. eauto. Qed.
(** The four ways to stop exclude each other. *)
Lemma stop_excl k : (forall q, k = 34 :: q -> ~ loneBreakAt k /\ ~ badByteAt plainQd isWsp k /\ ~ lineEndAt isWsp k) /\
  (loneBreakAt k -> ~ badByteAt plainQd isWsp k /\ ~ lineEndAt isWsp k).
Proof.
  split.
  - intros q ->. repeat split.
    + intros [[? ?]|(? & ? & _)]; discriminate.
    + intros [?|[?|(x & t & [= <- <-] & _ & _ & _ & ? & _)]]; try discriminate. congruence.
    + intros (? & ? & _). discriminate.
  - intros [[t ->]|(t & -> & Hn)]; split.
    + intros [?|[?|(x & t' & [= <- <-] & _ & _ & _ & _ & _ & ?)]]; try discriminate. congruence.
    + intros (? & ? & _). discriminate.
    + intros [?|[?|(x & t' & [= <- <-] & _ & _ & _ & _ & ? & _)]]; try discriminate. congruence.
    + intros (t' & [= ->] & _). apply Hn. eauto.
Qed.

Lemma sws_iff r r' : ParseSWS_2 r = r' <-> SWS r r'. Proof. apply ParseSWS_spec. Qed.
Lemma sws_len r : len (ParseSWS_2 r) <= len r.
Proof. destruct (ParseSWS_consumes r) as (w & E & _). rewrite E at 2. rewrite len_app. lia. Qed.

Section Quoted.
  Variables (e : env) (r : bytes) (u : N).
  Hypothesis Hr : roomy e (u + 2 + len r).
  Let body (b : bytes) := qLoop (S (List.length b)) e (u + 2) u b.
  Lemma body_exact b : ParseSWS_2 r = 34 :: b ->
    match body b with
    | QOk tok k => exists src, b = src ++ 34 :: k /\ QT src tok
    | QFail k _ => exists src tok k', b = src ++ k' /\ QT src tok /\ (k' = k /\ badByteAt plainQd isWsp k' \/ k' = 13 :: 10 :: k /\ lineEndAt isWsp k')
    | QLoop => exists src tok k, b = src ++ k /\ QT src tok /\ loneBreakAt k
    | QPanic => False
    end.
  Proof.
    intros E. apply qLoop_exact; [lia|]. eapply roomy_mono; [exact Hr|]. pose proof (sws_len r) as H. rewrite E, len_cons in H. lia.
  Qed.
  Lemma quoted_ok_iff tok k u' : paQuoted e (mkst r u) = Ok tok (mkst k u') <->
    u' = u + 2 + len tok /\ exists src, SWS r (34 :: src ++ 34 :: k) /\ QT src tok.
  Proof.
    unfold paQuoted. cbn [rest used]. split.
    - destruct (ParseSWS_2 r) as [|x b] eqn:E; [discriminate|]. destruct (N.eqb_spec x 34) as [->|]; cbn [negb]; [|discriminate].
      pose proof (body_exact b E) as B. fold (body b). destruct (body b) as [t q| | |]; try discriminate.
      rewrite (roomy_le _ _ _ Hr) by lia. cbn [negb]. intros [= <- <- <-]. split; [reflexivity|]. destruct B as (src & -> & H). exists src.
      split; [now apply sws_iff|exact H].
    - intros (-> & src & Hs & H). apply sws_iff in Hs. rewrite Hs. change (34 =? 34) with true. cbn [negb].
      pose proof (body_exact _ Hs) as B. fold (body (src ++ 34 :: k)). destruct (body (src ++ 34 :: k)) as [t q|q U| |].
      + destruct B as (src2 & E & H2). destruct (qt_det _ _ H _ _ _ _ H2 E (stop_quote _) (stop_quote _)) as [<- <-].
        apply app_inv_head in E. injection E as <-. rewrite (roomy_le _ _ _ Hr) by lia. reflexivity.
      + exfalso. destruct B as (src2 & tok2 & k2 & E & H2 & Hk).
        assert (Hs2 : isStop k2) by (destruct Hk as [[_ Hk]|[_ Hk]]; [now apply stop_bad|now apply stop_line]).
        destruct (qt_det _ _ H _ _ _ _ H2 E (stop_quote _) Hs2) as [<- <-]. apply app_inv_head in E.
        destruct (stop_excl k2) as [X _]. destruct (X k (eq_sym E)) as (_ & X1 & X2). destruct Hk as [[_ Hk]|[_ Hk]]; contradiction.
      + contradiction.
      + exfalso. destruct B as (src2 & tok2 & k2 & E & H2 & Hk).
        destruct (qt_det _ _ H _ _ _ _ H2 E (stop_quote _) (stop_lone _ Hk)) as [<- <-]. apply app_inv_head in E.
        destruct (stop_excl k2) as [X _]. destruct (X k (eq_sym E)) as (X1 & _). contradiction.
  Qed.
  Lemma quoted_loop_iff : paQuoted e (mkst r u) = Loop <-> exists src tok k, SWS r (34 :: src ++ k) /\ QT src tok /\ loneBreakAt k.
  Proof.
    unfold paQuoted. cbn [rest used]. split.
    - destruct (ParseSWS_2 r) as [|x b] eqn:E; [discriminate|]. destruct (N.eqb_spec x 34) as [->|]; cbn [negb]; [|discriminate].
      pose proof (body_exact b E) as B. fold (body b). destruct (body b) as [t q| | |]; try discriminate.
      { rewrite (roomy_le _ _ _ Hr) by lia. discriminate. }
      intros _. destruct B as (src & tok & k & -> & H & Hk). exists src, tok, k. split; [now apply sws_iff|auto].
    - intros (src & tok & k & Hs & H & Hk). apply sws_iff in Hs. rewrite Hs. change (34 =? 34) with true. cbn [negb].
      pose proof (body_exact _ Hs) as B. fold (body (src ++ k)). destruct (body (src ++ k)) as [t q|q U| |].
      + exfalso. destruct B as (src2 & E & H2). destruct (qt_det _ _ H _ _ _ _ H2 E (stop_lone _ Hk) (stop_quote _)) as [<- <-].
        apply app_inv_head in E. destruct (stop_excl k) as [X _]. destruct (X q E) as (X1 & _). contradiction.
      + exfalso. destruct B as (src2 & tok2 & k2 & E & H2 & Hk2).
        assert (Hs2 : isStop k2) by (destruct Hk2 as [[_ Hk2]|[_ Hk2]]; [now apply stop_bad|now apply stop_line]).
        destruct (qt_det _ _ H _ _ _ _ H2 E (stop_lone _ Hk) Hs2) as [<- <-]. apply app_inv_head in E. subst k2.
        destruct (stop_excl k) as [_ X]. destruct (X Hk) as (X1 & X2). destruct Hk2 as [[_ Hk2]|[_ Hk2]]; contradiction.
      + contradiction.
      + reflexivity.
  Qed.
  Lemma quoted_panic_iff : paQuoted e (mkst r u) = Panic <-> SWS r [].
  Proof.
    unfold paQuoted. cbn [rest used]. split.
    - destruct (ParseSWS_2 r) as [|x b] eqn:E; [intros _; now apply sws_iff|]. destruct (N.eqb_spec x 34) as [->|]; cbn [negb]; [|discriminate].
      pose proof (body_exact b E) as B. fold (body b). destruct (body b) as [t q| | |]; try discriminate; [|contradiction].
      rewrite (roomy_le _ _ _ Hr) by lia. discriminate.
    - intros Hs. apply sws_iff in Hs. now rewrite Hs.
  Qed.
  (** Otherwise it fails, at the first byte that is not a quote or not allowed, or behind an unfolded line end. *)
  Lemma quoted_fail_iff : (exists s, paQuoted e (mkst r u) = Fail s) <->
    (exists x k, SWS r (x :: k) /\ x <> 34) \/
    (exists src tok k, SWS r (34 :: src ++ k) /\ QT src tok /\ (badByteAt plainQd isWsp k \/ lineEndAt isWsp k)).
  Proof.
    unfold paQuoted. cbn [rest used]. split.
    - intros [s H]. destruct (ParseSWS_2 r) as [|x b] eqn:E; [discriminate|]. destruct (N.eqb_spec x 34) as [->|Hx]; cbn [negb] in H.
      2:{ left. exists x, b. split; [now apply sws_iff|exact Hx]. }
      right. pose proof (body_exact b E) as B. fold (body b) in H. destruct (body b) as [t q| | |]; try discriminate.
      { rewrite (roomy_le _ _ _ Hr) in H by lia. discriminate. }
      destruct B as (src & tok & k & -> & H2 & Hk). exists src, tok, k. split; [now apply sws_iff|]. split; [exact H2|tauto].
    - intros [(x & k & Hs & Hx)|(src & tok & k & Hs & H & Hk)]; apply sws_iff in Hs; rewrite Hs.
      { destruct (N.eqb_spec x 34); [contradiction|]. cbn. eauto. }
      change (34 =? 34) with true. cbn [negb]. pose proof (body_exact _ Hs) as B. fold (body (src ++ k)).
      assert (St : isStop k) by (destruct Hk; [now apply stop_bad|now apply stop_line]).
      destruct (body (src ++ k)) as [t q|q U| |].
      + exfalso. destruct B as (src2 & E & H2). destruct (qt_det _ _ H _ _ _ _ H2 E St (stop_quote _)) as [<- <-].
        apply app_inv_head in E. destruct (stop_excl k) as [X _]. destruct (X q E) as (_ & X1 & X2). tauto.
      + eauto.
      + contradiction.
      + exfalso. destruct B as (src2 & tok2 & k2 & E & H2 & Hk2).
        destruct (qt_det _ _ H _ _ _ _ H2 E St (stop_lone _ Hk2)) as [<- <-]. apply app_inv_head in E. subst k2.
        destruct (stop_excl k) as [_ X]. destruct (X Hk2) as (X1 & X2). tauto.
  Qed.
End Quoted.
