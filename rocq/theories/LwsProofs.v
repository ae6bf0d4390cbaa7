From Verif Require Import Base Charset BaseLemmas Lws LwsSpec.

Lemma isWsp_spec x : isWsp x = true <-> wsp x.
Proof. unfold isWsp, wsp. lia. Qed.
Lemma isWsp_false x : isWsp x = false <-> ~ wsp x.
Proof. rewrite <- isWsp_spec. destruct (isWsp x); intuition congruence. Qed.
Lemma IsWspChar_isWsp x : IsWspChar x = isWsp x.
Proof.
  destruct (N.ltb_spec x 256) as [H|H].
  - apply eqb_prop. revert x H. apply sweep. vm_compute. reflexivity.
  - destruct (IsWspChar x) eqn:E; [apply inset_byte in E; lia|]. unfold isWsp. lia.
Qed.
Lemma IsLwsChar_spec x : IsLwsChar x = (isWsp x || (x =? 13) || (x =? 10))%bool.
Proof.
  destruct (N.ltb_spec x 256) as [H|H].
  - apply eqb_prop. revert x H. apply sweep. vm_compute. reflexivity.
  - destruct (IsLwsChar x) eqn:E; [apply inset_byte in E; lia|]. unfold isWsp. lia.
Qed.

Lemma skipWsp_span r : skipWsp r = snd (span isWsp r).
Proof.
  induction r as [|x r IH]; cbn; [reflexivity|]. destruct (isWsp x); [|reflexivity].
  rewrite IH. destruct (span isWsp r). reflexivity.
Qed.
Lemma skipWsp_suffix r : suffix (skipWsp r) r.
Proof. rewrite skipWsp_span. apply suffix_span. Qed.
Lemma skipWsp_stop r : stops isWsp r = true -> skipWsp r = r.
Proof. intros. rewrite skipWsp_span, span_stop; auto. Qed.
Lemma skipWsp_stops r : stops isWsp (skipWsp r) = true.
Proof. rewrite skipWsp_span. destruct (span isWsp r) as [a b] eqn:E. now apply span_stops in E. Qed.
Lemma forallb_wsp w : forallb isWsp w = true <-> Forall wsp w.
Proof.
  rewrite forallb_forall, Forall_forall. split; intros H x Hx; apply isWsp_spec, H, Hx.
Qed.
Lemma stops_wsp r : stops isWsp r = true <-> ~ startsWsp r.
Proof.
  unfold stops, startsWsp. destruct r as [|x r].
  - split; [intros _ (x & t & [=] & _)|reflexivity].
  - split.
    + intros H (y & t & [= -> ->] & Hy). apply isWsp_spec in Hy. rewrite Hy in H. discriminate.
    + intros H. destruct (isWsp x) eqn:E; [|reflexivity]. exfalso. apply H. exists x, r. split; [reflexivity|now apply isWsp_spec].
Qed.
Lemma skipWsp_app w r : Forall wsp w -> ~ startsWsp r -> skipWsp (w ++ r) = r.
Proof.
  intros Hw Hr. rewrite skipWsp_span, span_exact; [reflexivity| |].
  - now apply forallb_wsp.
  - now apply stops_wsp.
Qed.
Lemma skipWsp_decomp r : exists w, r = w ++ skipWsp r /\ Forall wsp w /\ ~ startsWsp (skipWsp r).
Proof.
  rewrite skipWsp_span. destruct (span isWsp r) as [a b] eqn:E. exists a. cbn. repeat split.
  - now apply span_app in E.
  - apply forallb_wsp. now apply span_all in E.
  - apply stops_wsp. now apply span_stops in E.
Qed.

(** Twins. *)
Lemma lwsTail_2_eq r : lwsTail_2 r = (skipWsp r, true).
Proof. induction r as [|x r IH]; cbn; [reflexivity|]. destruct (isWsp x); cbn; auto. Qed.
Lemma ParseLWS_2_eq r : ParseLWS_2 r = ParseLWS r.
Proof.
  unfold ParseLWS_2, ParseLWS. destruct (skipWsp r) as [|a [|b r2]]; try reflexivity.
  destruct ((a =? 13) && (b =? 10))%bool; [|reflexivity].
  destruct r2 as [|x r2]; [reflexivity|]. destruct (isWsp x) eqn:E; cbn [negb]; [|reflexivity].
  apply lwsTail_2_eq.
Qed.
Lemma ParseSWS_eq r : ParseSWS r = ParseSWS_2 r.
Proof.
  unfold ParseSWS, ParseSWS_2. destruct r as [|x r]; [reflexivity|].
  destruct (IsLwsChar x); cbn [negb]; [|reflexivity]. rewrite ParseLWS_2_eq.
  destruct (ParseLWS (x :: r)) as [r' [|]]; reflexivity.
Qed.
Lemma ParseHcolon2_eq r : ParseHcolon2 r = ParseHcolon r.
Proof.
  unfold ParseHcolon2, ParseHcolon. destruct (skipWsp r) as [|x r']; [reflexivity|].
  destruct (x =? 58); cbn [negb]; [|reflexivity]. now rewrite ParseSWS_eq.
Qed.
Lemma ParseSWSMark_2_eq m r : ParseSWSMark_2 m r = ParseSWSMark m r.
Proof.
  unfold ParseSWSMark_2, ParseSWSMark. rewrite ParseSWS_eq. destruct (ParseSWS_2 r) as [|x r']; [reflexivity|].
  destruct (x =? m); cbn [negb]; [|reflexivity]. now rewrite ParseSWS_eq.
Qed.
Lemma ParseLeftAngleQuote2_eq r : ParseLeftAngleQuote2 r = ParseLeftAngleQuote r.
Proof. unfold ParseLeftAngleQuote2, ParseLeftAngleQuote. destruct r; [reflexivity|]. now rewrite ParseSWS_eq. Qed.
Lemma ParseRightAngleQuote2_eq r : ParseRightAngleQuote2 r = ParseRightAngleQuote r.
Proof. unfold ParseRightAngleQuote2, ParseRightAngleQuote. destruct r; [reflexivity|]. now rewrite ParseSWS_eq. Qed.
Lemma ParseCRLF2_eq r : ParseCRLF2 r = ParseCRLF r.
Proof.
  unfold ParseCRLF2, ParseCRLF, IsCRLF. destruct r as [|a [|b r]]; try reflexivity.
  destruct ((a =? 13) && (b =? 10))%bool; reflexivity.
Qed.
(** The two "can omit" variants agree when the mark is present or the input ends; otherwise they leave
    different positions. *)
Lemma ParseSWSMarkCanOmmit_2_rel m r :
  let '(r2, m2, ok2) := ParseSWSMarkCanOmmit_2 m r in
  let '(r1, m1, ok1) := ParseSWSMarkCanOmmit m r in
  m1 = m2 /\ ok1 = ok2 /\
  (if (ok1 && negb m1)%bool then r2 = r /\ r1 = ParseSWS_2 r else r1 = r2).
Proof.
  unfold ParseSWSMarkCanOmmit_2, ParseSWSMarkCanOmmit. rewrite ParseSWS_eq.
  destruct (ParseSWS_2 r) as [|x r']; cbn; auto.
  destruct (x =? m); cbn; auto. rewrite ParseSWS_eq. auto.
Qed.

(** LWS and SWS against the grammar. *)
Lemma ParseLWS_plain w r : Forall wsp w -> ~ startsWsp r -> ~ startsCRLF r -> ParseLWS (w ++ r) = (r, true).
Proof.
  intros Hw Hr Hc. unfold ParseLWS. rewrite skipWsp_app by assumption.
  destruct r as [|a [|b r2]]; try reflexivity.
  destruct ((a =? 13) && (b =? 10))%bool eqn:E; [|reflexivity].
  exfalso. apply Hc. apply andb_prop in E as [E1 E2]. exists r2.
  apply N.eqb_eq in E1, E2. now subst.
Qed.
Lemma not_startsWsp_13 t : ~ startsWsp (13 :: t).
Proof. intros (x & t' & [= <- <-] & [H|H]); discriminate. Qed.
Lemma ParseLWS_fold w1 w2 r : Forall wsp w1 -> w2 <> [] -> Forall wsp w2 -> ~ startsWsp r ->
  ParseLWS (w1 ++ 13 :: 10 :: w2 ++ r) = (r, true).
Proof.
  intros H1 Hne H2 Hr. unfold ParseLWS. rewrite skipWsp_app by (try assumption; apply not_startsWsp_13).
  cbn [andb N.eqb]. change (13 =? 13) with true. change (10 =? 10) with true. cbn [andb].
  destruct w2 as [|x w2]; [congruence|]. cbn [app].
  inversion H2 as [|? ? Hx _]; subst. apply isWsp_spec in Hx. rewrite Hx. cbn [negb].
  f_equal. apply (skipWsp_app (x :: w2) r H2 Hr).
Qed.
Lemma ParseLWS_eol w r : Forall wsp w -> ~ startsWsp r -> ParseLWS (w ++ 13 :: 10 :: r) = (r, false).
Proof.
  intros H1 Hr. unfold ParseLWS. rewrite skipWsp_app by (try assumption; apply not_startsWsp_13).
  change (13 =? 13) with true. change (10 =? 10) with true. cbn [andb].
  destruct r as [|x r]; [reflexivity|]. apply stops_wsp in Hr. cbn in Hr.
  destruct (isWsp x); [discriminate|reflexivity].
Qed.

Lemma lws_cases r : exists w t, r = w ++ t /\ Forall wsp w /\ ~ startsWsp t /\
  (~ startsCRLF t \/ exists t2, t = 13 :: 10 :: t2 /\
     (~ startsWsp t2 \/ exists w2 t3, t2 = w2 ++ t3 /\ w2 <> [] /\ Forall wsp w2 /\ ~ startsWsp t3)).
Proof.
  destruct (skipWsp_decomp r) as (w & E & Hw & Ht). exists w, (skipWsp r). repeat split; auto.
  destruct (skipWsp r) as [|a [|b t2]].
  - left. intros (t & [=]).
  - left. intros (t & [=]).
  - destruct (N.eqb_spec a 13) as [->|Ha]; [|left; intros (t & [=]); congruence].
    destruct (N.eqb_spec b 10) as [->|Hb]; [|left; intros (t & [=]); congruence].
    right. exists t2. split; [reflexivity|].
    destruct (stops isWsp t2) eqn:S2.
    + left. now apply stops_wsp.
    + right. destruct (skipWsp_decomp t2) as (w2 & E2 & Hw2 & Ht2). exists w2, (skipWsp t2). repeat split; auto.
      intros ->. cbn in E2. rewrite <- E2 in Ht2. apply stops_wsp in Ht2. congruence.
Qed.

Lemma ParseSWS_spec_fwd r : SWS r (ParseSWS_2 r).
Proof.
  destruct (lws_cases r) as (w & t & -> & Hw & Ht & [Hc|(t2 & -> & [Ht2|(w2 & t3 & -> & Hne & Hw2 & Ht3)])]).
  - replace (ParseSWS_2 (w ++ t)) with t; [now constructor|].
    unfold ParseSWS_2. destruct (w ++ t) as [|x r] eqn:E; [now apply app_eq_nil in E as [_ ->]|].
    destruct (IsLwsChar x) eqn:Ex; cbn [negb].
    + rewrite <- E. rewrite ParseLWS_plain by assumption. reflexivity.
    + destruct w as [|y w]; [exact E|]. cbn in E. injection E as -> _.
      inversion Hw as [|? ? Hx _]; subst. apply isWsp_spec in Hx. rewrite IsLwsChar_spec, Hx in Ex. discriminate.
  - replace (ParseSWS_2 (w ++ 13 :: 10 :: t2)) with (w ++ 13 :: 10 :: t2); [now constructor|].
    unfold ParseSWS_2. pose proof (ParseLWS_eol w t2 Hw Ht2) as E.
    destruct (w ++ 13 :: 10 :: t2) as [|x r]; [reflexivity|].
    destruct (IsLwsChar x); cbn [negb]; [|reflexivity]. rewrite E. reflexivity.
  - replace (ParseSWS_2 (w ++ 13 :: 10 :: w2 ++ t3)) with t3; [now constructor|].
    unfold ParseSWS_2. pose proof (ParseLWS_fold w w2 t3 Hw Hne Hw2 Ht3) as E.
    destruct (w ++ 13 :: 10 :: w2 ++ t3) as [|x r] eqn:Er; [destruct w; discriminate|].
    destruct (IsLwsChar x) eqn:Ex; cbn [negb]; [rewrite E; reflexivity|].
    exfalso. rewrite IsLwsChar_spec in Ex. destruct w as [|y w]; cbn in Er.
    + injection Er as <- _. discriminate.
    + injection Er as -> _. inversion Hw as [|? ? Hx _]; subst. apply isWsp_spec in Hx. rewrite Hx in Ex. discriminate.
Qed.

Lemma SWS_det r a : SWS r a -> ParseSWS_2 r = a.
Proof.
  intros H. inversion H as [w t Hw Ht Hc|w1 w2 t Hw1 Hne Hw2 Ht|w t Hw Ht]; subst.
  - unfold ParseSWS_2. destruct (w ++ a) as [|x r] eqn:E; [now apply app_eq_nil in E as [_ ->]|].
    destruct (IsLwsChar x) eqn:Ex; cbn [negb].
    + rewrite <- E. rewrite ParseLWS_plain by assumption. reflexivity.
    + destruct w as [|y w]; [now rewrite <- E|]. cbn in E. injection E as -> _.
      inversion Hw as [|? ? Hx _]; subst. apply isWsp_spec in Hx. rewrite IsLwsChar_spec, Hx in Ex. discriminate.
  - unfold ParseSWS_2. pose proof (ParseLWS_fold w1 w2 a Hw1 Hne Hw2 Ht) as E.
    destruct (w1 ++ 13 :: 10 :: w2 ++ a) as [|x r] eqn:Er; [destruct w1; discriminate|].
    destruct (IsLwsChar x) eqn:Ex; cbn [negb]; [rewrite E; reflexivity|].
    exfalso. rewrite IsLwsChar_spec in Ex. destruct w1 as [|y w]; cbn in Er.
    + injection Er as <- _. discriminate.
    + injection Er as -> _. inversion Hw1 as [|? ? Hx _]; subst. apply isWsp_spec in Hx. rewrite Hx in Ex. discriminate.
  - unfold ParseSWS_2. pose proof (ParseLWS_eol w t Hw Ht) as E.
    destruct (w ++ 13 :: 10 :: t) as [|x r]; [reflexivity|].
    destruct (IsLwsChar x); cbn [negb]; [|reflexivity]. rewrite E. reflexivity.
Qed.
Lemma ParseSWS_spec r r' : ParseSWS_2 r = r' <-> SWS r r'.
Proof. split; [intros <-; apply ParseSWS_spec_fwd|apply SWS_det]. Qed.

(** What was skipped is a legal SWS ([LWS]), and the line end that finishes a header is never consumed. *)
Lemma ParseSWS_consumes r : exists w, r = w ++ ParseSWS_2 r /\ (w = [] \/ LWS w).
Proof.
  pose proof (ParseSWS_spec_fwd r) as H. revert H. generalize (ParseSWS_2 r) as q. intros q H.
  destruct H as [w t Hw Ht Hc|w1 w2 t Hw1 Hne Hw2 Ht|w t Hw Ht].
  - exists w. split; [reflexivity|]. destruct w; [now left|right]. constructor; [discriminate|assumption].
  - exists (w1 ++ 13 :: 10 :: w2). split; [now rewrite <- app_assoc|right]. now constructor.
  - exists []. split; [reflexivity|now left].
Qed.

Lemma ParseSWS_suffix r : suffix (ParseSWS_2 r) r.
Proof. destruct (ParseSWS_consumes r) as (w & E & _). now exists w. Qed.
Lemma ParseLWS_suffix r : suffix (fst (ParseLWS r)) r.
Proof.
  unfold ParseLWS. pose proof (skipWsp_suffix r) as H.
  destruct (skipWsp r) as [|a [|b r2]]; try exact H.
  destruct ((a =? 13) && (b =? 10))%bool; [|exact H].
  assert (suffix r2 r) by (do 2 apply suffix_cons in H; exact H).
  destruct r2 as [|x r2]; [assumption|]. destruct (isWsp x) eqn:E; cbn [negb fst]; [|assumption].
  eapply suffix_trans; [apply skipWsp_suffix|assumption].
Qed.
Lemma ParseSWS_noop r : stops IsLwsChar r = true -> ParseSWS_2 r = r.
Proof. unfold ParseSWS_2. destruct r as [|x r]; [reflexivity|]. cbn. now intros ->. Qed.
Lemma ParseSWS_eol r : ~ startsWsp r -> ParseSWS_2 (13 :: 10 :: r) = 13 :: 10 :: r.
Proof. intros H. apply SWS_det. exact (SWS_eol [] r (Forall_nil _) H). Qed.
