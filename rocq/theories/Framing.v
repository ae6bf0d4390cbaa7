(** The header section ends at the first empty line. *)
From Verif Require Import Base BaseLemmas Charset CharsetSpec NumSpec Lws LwsSpec LwsProofs Str StrSpec NameSpec Monad Good Rt Seq Inv Host Uri GenParam Addr StartLine StartLineSpec Headers HeadersSpec HeadersProofs
  RawHeaders RawSpec RawProofs Msg MsgSpec MsgProofs MsgRt Tidy LessParsing GrammarSpec Exact GrammarMsg ExactMsg ExactHead GrammarWhole ExactName ExactWhole Behind FramingSpec.

Lemma ordinary_clean a : ordinary a -> clean (a ++ [13; 10; 13; 10]).
Proof.
  intros (H1 & H2). split; [|exact H2]. intros p q E. assert (G : exists p', p ++ [92] = p' ++ [13]); [|destruct G as (p' & G); apply app_inj_tail in G as [_ G]; discriminate].
  change (p ++ 92 :: 10 :: q) with (p ++ [92] ++ 10 :: q) in E. rewrite app_assoc in E. destruct (app_eq_app _ _ _ _ E) as (l & [(E1 & E2)|(E1 & E2)]).
  - destruct l as [|x l]; [discriminate|]. cbn in E2. injection E2 as <- _. exact (H1 _ _ E1).
  - destruct l as [|x [|y [|z [|w l]]]]; cbn [app] in E2; try discriminate E2.
    + injection E2 as <- _. exists a. exact E1.
    + injection E2 as <- <- <- _. exists (a ++ [13; 10]). rewrite <- app_assoc. exact E1.
    + injection E2. intros. apply (f_equal (@List.length N)) in H. rewrite app_length in H. cbn in H. lia.
Qed.
Definition endAt (b r : bytes) : Prop := r = 13 :: 10 :: b \/
  exists a, r = a ++ [13; 10; 13; 10] ++ b /\ clean (a ++ [13; 10; 13; 10]) /\ (forall p q, a = p ++ 10 :: q -> exists p', p = p' ++ [13]) /\ FirstAt [13; 10; 13; 10] a b /\ ~ startsCRLF r.
Lemma endAt_line t q b : tidy t -> endAt b (t ++ 10 :: q) -> ~ startsCRLF (t ++ 10 :: q) -> endAt b q.
Proof.
  intros (Hf & Hp) [E|(a & E & C & Cr & Fa & _)] Hs; [exfalso; apply Hs; exists b; exact E|].
  destruct (app_eq_app _ _ _ _ E) as (l & [(E1 & E2)|(E1 & E2)]).
  - subst t. destruct l as [|x l]; [discriminate|]. cbn in E2. injection E2 as <- E2. destruct l as [|y l].
    + cbn in E2. injection E2 as <-. left. reflexivity.
    + cbn in E2. injection E2 as <- E2. exfalso. destruct l as [|z l]; [discriminate|]. cbn in E2. injection E2 as <- E2. destruct l as [|w l].
      * apply (folded_not13 a []), Hf. apply (clean_l _ [10]). rewrite <- app_assoc. exact C.
      * cbn in E2. injection E2 as <- _. apply (upto_not13 a [10]). apply (Hp _ l); [|exact C]. now rewrite <- app_assoc.
  - destruct l as [|x l]; [discriminate|]. cbn in E2. injection E2 as <- E2. subst a. right. exists l. split; [exact E2|]. split; [apply (clean_r (t ++ [10])); rewrite <- !app_assoc in *; exact C|]. split; [|split].
    + intros p z ->. destruct (Cr (t ++ 10 :: p) z) as (p' & Ep); [now rewrite <- app_assoc|]. destruct (exists_last (l := 10 :: p) ltac:(discriminate)) as (m & y & Em). rewrite Em, app_assoc in Ep. apply app_inj_tail in Ep as [_ ->].
      destruct m as [|w m]; [discriminate|]. injection Em as <- ->. eauto.
    + intros d' k' Ed. specialize (Fa (t ++ 10 :: d') k'). rewrite !app_length in Fa. cbn [List.length] in Fa. assert (Q : (t ++ 10 :: l) ++ [13; 10; 13; 10] ++ b = (t ++ 10 :: d') ++ [13; 10; 13; 10] ++ k'); [|specialize (Fa Q); lia].
      rewrite <- (app_assoc t (10 :: l)), <- (app_assoc t (10 :: d')). change ((10 :: l) ++ [13; 10; 13; 10] ++ b) with (10 :: (l ++ [13; 10; 13; 10] ++ b)). rewrite Ed. reflexivity.
    + intros (z & Ez). destruct (Cr t l eq_refl) as (t' & ->). specialize (Fa t' z). rewrite !app_length in Fa. cbn [List.length] in Fa. assert (Q : ((t' ++ [13]) ++ 10 :: l) ++ [13; 10; 13; 10] ++ b = t' ++ [13; 10; 13; 10] ++ z); [|specialize (Fa Q); lia].
      rewrite <- E. rewrite Ez, <- !app_assoc. reflexivity.
Qed.
Lemma endAt_end t b : tidy t -> ~ startsCRLF t -> ~ endAt b t.
Proof.
  intros (_ & Hp) Hs [E|(a & E & C & _)]; [apply Hs; exists b; exact E|]. subst t. apply (upto_not13 a [10]). apply (Hp _ b); [|exact C]. now rewrite <- app_assoc.
Qed.
(** One header field takes a line, or all the rest. *)
Lemma body_line o e a s a' s1 : headersBody (oneHeader o) a e s = Ok (inl a') s1 ->
  ~ startsCRLF (rest s) /\ ((exists line, rest s = line ++ 10 :: rest s1 /\ tidy line) \/ exists t, rest s = t /\ tidy t).
Proof.
  intros E. unfold headersBody, onRest in E. destruct (rest s) as [|x r1] eqn:Er; [discriminate|]. destruct (IsCRLF (x :: r1)) eqn:Hc; [discriminate|]. rewrite <- Er in *. split; [intros (q & Eq); rewrite Eq in Hc; discriminate|].
  clear x r1 Er Hc. unfold bind at 1 in E. destruct (parseHeaderName e s) as [[nm i] s2|s2| |] eqn:En; try discriminate. cbn [fst snd] in E. pose proof (td_headerName _ _ _ _ En) as (tn & Etn & Htn).
  unfold bind in E. destruct (oneHeader o a nm i e s2) as [a2 s3|s3| |] eqn:Eo; try discriminate. cbn in E. injection E as _ <-. rewrite Etn.
  destruct (needParse o e i) as [[k multi]|] eqn:Np.
  - destruct (one_line _ _ _ _ _ _ _ _ _ _ Np Eo) as [(tl & E1 & F1)|((tl & E1 & F1) & E2)]; [left|right].
    + exists (tn ++ tl ++ [13]). split; [rewrite E1, <- !app_assoc; reflexivity|]. apply tidy_app; [exact Htn|]. apply tidy_app; [exact F1|]. apply tidy_of_folded, folded_nolf. intros [X1|[]]. discriminate.
    + exists (tn ++ rest s2). split; [reflexivity|]. rewrite E1, app_nil_r. now apply tidy_app.
  - left. rewrite (oneHeader_raw _ _ _ _ _ _ Np) in Eo. unfold bind in Eo. destruct (rawHeader nm i e s2) as [hh s4|s4| |] eqn:Eh; try discriminate. injection Eo as _ ->.
    apply rawHeader_ok in Eh as (_ & _ & line & (El & Fl & _) & _). exists (tn ++ line). split; [rewrite El, <- app_assoc; reflexivity|]. apply tidy_app; [exact Htn|]. now apply tidy_of_folded.
Qed.
Lemma headers_end o e b : forall n a s x s', iterP n (headersBody (oneHeader o)) a e s = Ok x s' -> endAt b (rest s) ->
  rest s' = b /\ exists t fs, rest s = t ++ b /\ ClosedRead e o t fs b /\ x = fold_left (setField o) fs a.
Proof.
  induction n as [|n IH]; intros a s x s' E He; [discriminate|]. cbn [iterP] in E. unfold bind in E at 1. destruct (headersBody (oneHeader o) a e s) as [[a1|y] s1|s1| |] eqn:E1; try discriminate.
  - destruct (body_line _ _ _ _ _ _ E1) as [Hs [(line & El & Tl)|(t & Et & Tt)]]; [|exfalso; rewrite Et in *; exact (endAt_end _ _ Tt Hs He)].
    rewrite El in He, Hs. destruct (IH _ _ _ _ E (endAt_line _ _ _ Tl He Hs)) as (R & t & fs & Er & C & ->). split; [exact R|].
    apply (ex_sound _ _ _ (exact_headersBody e o a)) in E1 as (t1 & Et1 & [[Q _]|(f & Hf & Q)]); [discriminate|]. injection Q as ->. exists (t1 ++ t), (f :: fs). rewrite Er in *. split; [rewrite Et1; apply app_assoc|]. split; [|reflexivity]. now apply CLcons.
  - cbn in E. injection E as <- <-. apply (ex_sound _ _ _ (exact_headersBody e o a)) in E1 as (t1 & Et1 & [[Q D]|(f & _ & Q)]); [|discriminate]. injection Q as ->.
    assert (D' : rest s = 13 :: 10 :: rest s1).
    { destruct D as [[-> K] | ->]; [|exact Et1]. exfalso. rewrite K in Et1. cbn in Et1. rewrite Et1 in He. destruct He as [He|(a0 & He & _)]; [discriminate|destruct a0; discriminate]. }
    destruct He as [He|(a0 & _ & _ & _ & _ & He)]; [|exfalso; apply He; eexists; exact D']. rewrite D' in He. injection He as He. split; [exact He|]. exists [13; 10], []. split; [rewrite D', He; reflexivity|]. split; [apply CLline|reflexivity].
Qed.
Lemma closed_collect e o t fs b : ClosedRead e o t fs b -> fold_left (setField o) fs (emptyHdrs o) = collect o fs.
Proof. intros C. apply collect_fold. exact (fields_ok _ _ _ _ _ (closed_fields _ _ _ _ _ C)). Qed.
Lemma first_endAt a b : FirstAt [13; 10; 13; 10] a b -> ordinary a -> ~ startsCRLF (a ++ [13; 10; 13; 10] ++ b) -> endAt b (a ++ [13; 10; 13; 10] ++ b).
Proof. intros Fa Ho Hs. right. exists a. split; [reflexivity|]. split; [now apply ordinary_clean|]. split; [exact (proj1 Ho)|]. split; assumption. Qed.
Lemma block_end o e r u b h s' : parseHeaders o e (mkst r u) = Ok h s' -> endAt b r -> rest s' = b /\ exists t fs, r = t ++ b /\ ClosedRead e o t fs b /\ h = collect o fs.
Proof.
  intros E He. unfold parseHeaders, loopP in E. destruct (headers_end _ _ b _ _ _ _ _ E He) as (R & t & fs & Er & C & ->). split; [exact R|]. exists t, fs. rewrite (closed_collect _ _ _ _ _ C). auto.
Qed.
(** Messages. *)
Lemma msg_end e a b u m s' : parseMsg e (mkst (a ++ [13; 10; 13; 10] ++ b) u) = Ok m s' -> FirstAt [13; 10; 13; 10] a b -> ordinary a ->
  exists tl l tf fs tb bs, a ++ [13; 10; 13; 10] = tl ++ tf /\ StartLineRead e tl l (tf ++ b) /\ ClosedRead e OMsg tf fs b /\ m = mkmsg l (collect OMsg fs) bs /\
    b = tb ++ rest s' /\ BodiesRead e (collect OMsg fs) tb bs (rest s').
Proof.
  intros E Fa Ho. unfold parseMsg in E. apply bind_inv in E as (l & s1 & El & E). pose proof (startLine_start _ _ _ _ El) as Hs. pose proof (ln_startLine _ _ _ _ El) as (tl & Etl & Ttl). cbn [rest] in Hs, Etl.
  pose proof (first_endAt _ _ Fa Ho Hs) as He. unfold onRest in E. destruct s1 as [r1 u1]. cbn [rest] in *. destruct r1 as [|x r1]; [discriminate|]. remember (x :: r1) as r0 eqn:Er0. clear x r1 Er0.
  apply bind_inv in E as (h & s2 & Eh & E). apply bind_inv in E as (bs & s3 & Eb & E). cbn in E. injection E as <- <-.
  assert (He0 : endAt b r0). { apply (endAt_line (tl ++ [13])); [apply tidy_app; [exact Ttl|]; apply tidy_of_folded, folded_nolf; intros [X1|[]]; discriminate|..]; rewrite <- app_assoc; cbn [app]; rewrite <- Etl; assumption. }
  destruct (block_end _ _ _ _ _ _ _ Eh He0) as (R2 & tf & fs & Er & C & ->). apply (ex_sound _ _ _ (exact_startLine e)) in El as (t & Et & Hl). cbn [rest] in Et, Hl.
  apply (ex_sound _ _ _ (exact_msgBody e _ (fields_type _ _ _ _ (closed_fields _ _ _ _ _ C)))) in Eb as (tb & Etb & Hb). rewrite R2 in Etb.
  exists t, l, tf, fs, tb, bs. split; [apply (app_inv_tail b); rewrite <- !app_assoc, <- Er; exact Et|]. rewrite Er in Hl. auto 9.
Qed.
