From Verif Require Import Base Charset CharsetSpec CharsetProofs BaseLemmas Num NumSpec NumProofs Lws LwsSpec LwsProofs Str StrSpec StrProofs Monad Good Rt Seq GoodAuto Inv
  Host HostSpec HostProofs Uri UriSpec UriGood UriProofs GenParam GenParamSpec.

(** ** Well-behavedness *)
Lemma cutAfter_app c r : forall a b, cutAfter c r = Some (a, b) -> r = a ++ b.
Proof.
  induction r as [|x r IH]; intros a b; cbn; [discriminate|]. destruct (x =? c); [intros [= <- <-]; reflexivity|]. destruct (cutAfter c r) as [[a1 b1]|]; [|discriminate].
  intros [= <- <-]. cbn. f_equal. auto.
Qed.
Lemma cutAfter_exact c x k : ~ In c x -> cutAfter c (x ++ c :: k) = Some (x ++ [c], k).
Proof.
  induction x as [|y x IH]; intros H; cbn; [now rewrite N.eqb_refl|]. destruct (N.eqb_spec y c) as [->|_]; [exfalso; apply H; left; reflexivity|].
  rewrite IH; [reflexivity|]. intros X. apply H. right. exact X.
Qed.
Lemma goodAt_paSlice K C tok r' e s : 1 <= K -> 2 <= C -> suffix r' (rest s) -> len tok + len r' <= len (rest s) -> goodAt K C (paSlice tok r') e s.
Proof.
  intros HK HC Su L. unfold paSlice, bind, allocCString, goto, ret. split; cbv beta; cbn [used rest].
  - intros m. destruct (leMem _ _); cbn; (split; [auto using suffix_refl|lia]).
  - cbn. nia.
  - intros m Hm. rewrite leMem_enough by nia. reflexivity.
Qed.
Lemma rt_paSlice e tok r' s : infinite e -> paSlice tok r' e s = Ok tok (mkst r' (used s + (len tok + 2))).
Proof. intros HI. unfold paSlice, bind, allocCString. rewrite inf_le by assumption. reflexivity. Qed.
Lemma gd_genValue K e s : 1 <= K -> goodAt K 3 parseGenValue e s.
Proof.
  intros HK. unfold parseGenValue. good1. destruct rest as [|v r]; [good|]. destruct (IsSipToken v); [good|]. destruct (_ || _)%bool; [good|]. destruct (v =? 91); [|good].
  destruct (cutAfter 93 (v :: r)) as [[tok r']|] eqn:E; [|good]. apply cutAfter_app in E. apply (goodAt_bind K 3 3); [|lia|intros; good].
  apply goodAt_paSlice; cbn [Base.rest]; [lia|lia|exists tok; exact E|rewrite E, len_app; lia].
Qed.
#[export] Hint Resolve gd_genValue : good.
Lemma gd_genParam K e s : 1 <= K -> goodAt K 6 parseGenParam e s.
Proof. intros HK. unfold parseGenParam. good. Qed.
#[export] Hint Resolve gd_genParam : good.
Definition gpCost (names : list bytes) : N := 14 + 2 * N.of_nat (List.length names).
(** Flags are not touched by the arena size. *)
Definition memFree (on : env -> bool) : Prop := forall m e, on (withMem m e) = on e.
Lemma gd_gpBody1 sep on names a e s : memFree on -> goodAt 1 (gpCost names) (gpBody sep (fun a p => withEnv (fun e => addParam (on e) names gpName a p)) a) e s.
Proof.
  intros Hm. unfold gpBody, gpCost. good1. destruct rest as [|x r]; [good|]. destruct (IsOnlyCRLF (x :: r)); [good|]. destruct (_ && _)%bool; [good|].
  pose proof (ParseSWSMarkCanOmmit_suffix sep (x :: r)) as Su. destruct (ParseSWSMarkCanOmmit sep (x :: r)) as [[r' []] []]; cbn [fst] in Su; [|apply goodAt_goto_bind; [exact Su|good]|good|apply goodAt_goto_bind; [exact Su|good]].
  apply goodAt_goto_bind; [exact Su|]. good1. good1. eapply (goodAt_bind 1 _ (2 * N.of_nat (List.length names))); [|lia|intros; good].
  apply goodAt_withEnv; [intros; now rewrite Hm|]. apply goodAt_addParam. lia.
Qed.
Lemma mark_progress m r r' : ParseSWSMarkCanOmmit m r = (r', true, true) -> (List.length r' < List.length r)%nat.
Proof.
  unfold ParseSWSMarkCanOmmit. pose proof (ParseSWS_suffix r) as H. destruct (ParseSWS_2 r) as [|x t]; [discriminate|]. destruct (negb (x =? m)); [discriminate|]. intros [= <-].
  pose proof (ParseSWS_suffix t) as H2. apply suffix_length in H, H2. cbn in H. lia.
Qed.
Lemma gp_progresses sep on names : progresses (gpBody sep (fun a p => withEnv (fun e => addParam (on e) names gpName a p))).
Proof.
  intros a e s a' s' E. unfold gpBody, onRest in E. destruct (rest s) as [|x r] eqn:R; [discriminate|]. destruct (IsOnlyCRLF (x :: r)); [discriminate|]. destruct (_ && _)%bool; [discriminate|].
  destruct (ParseSWSMarkCanOmmit sep (x :: r)) as [[r' []] []] eqn:M; try discriminate. apply mark_progress in M.
  apply bind_inv in E as (? & s1 & E1 & E). injection E1 as _ <-. apply bind_inv in E as (? & s2 & E1 & E). apply alloc_inv in E1 as [E1 _]. cbn [rest] in E1.
  apply bind_inv in E as (p & s3 & E2 & E). apply (good_suffix 1 6) in E2 as [E2 _]; [|apply gd_genParam; lia]. apply bind_inv in E as (a1 & s4 & E3 & E).
  injection E as _ <-. unfold withEnv in E3. assert (rest s4 = rest s3).
  { apply (good_suffix 0 (2 * N.of_nat (List.length names))) in E3 as E4; [|apply gd_addParam]. destruct E4 as [[q E4] _]. unfold addParam in E3. destruct (on e); [|injection E3 as _ <-; reflexivity].
    apply bind_inv in E3 as (o & s5 & E5 & E6). injection E6 as _ <-. unfold setKnown in E5. destruct (findName _ _ _); [|injection E5 as _ <-; reflexivity]. destruct (fst a); [injection E5 as _ <-; reflexivity|].
    destruct (leMem _ _); [injection E5 as _ <-; reflexivity|]. destruct (Nat.ltb _ _); [injection E5 as _ <-; reflexivity|discriminate]. }
  rewrite H. apply suffix_length in E2. rewrite E1 in E2. lia.
Qed.
Lemma gd_genParams K sep on names e s : memFree on -> gpCost names + 1 <= K -> goodAt K (gpCost names) (parseGenParams sep on names) e s.
Proof.
  intros Hm HK. unfold parseGenParams. apply (goodAt_loopP 1 (gpCost names)); [apply gp_progresses|lia|lia|]. intros. now apply gd_gpBody1.
Qed.

(** ** Exact reading *)
Lemma rt_loop {A X} (body : A -> P (A + A)) (item : X -> bytes) (step : A -> X -> A) (F : bytes -> Prop) (inv : A -> list X -> Prop) e :
  progresses body ->
  (forall a x xs k u, inv a (x :: xs) -> F k -> exists u', body a e (mkst (item x ++ k) u) = Ok (inl (step a x)) (mkst k u')) ->
  (forall a x xs, inv a (x :: xs) -> inv (step a x) xs) ->
  (forall a x xs k, inv a (x :: xs) -> F k -> F (item x ++ k)) ->
  forall xs a k u, inv a xs -> F k -> (forall a u, inv a [] -> exists u', body a e (mkst k u) = Ok (inr a) (mkst k u')) ->
  exists u', loopP body a e (mkst (flat_map item xs ++ k) u) = Ok (fold_left step xs a) (mkst k u').
Proof.
  intros Pr R Inv HF xs. induction xs as [|x xs IH]; intros a k u Ha Fk Hend; cbn [flat_map fold_left app].
  - rewrite loopP_unfold by exact Pr. destruct (Hend a u Ha) as [u' ->]. eexists. reflexivity.
  - rewrite <- app_assoc. rewrite loopP_unfold by exact Pr.
    assert (F1 : F (flat_map item xs ++ k)).
    { clear R IH Hend u. assert (Ha' : inv (step a x) xs) by (eapply Inv, Ha). clear Ha. revert Ha'. generalize (step a x) as b. induction xs as [|y xs IH2]; intros b Hb; cbn [flat_map app]; [exact Fk|].
      rewrite <- app_assoc. eapply HF; [exact Hb|]. eapply IH2. eapply Inv, Hb. }
    destruct (R a x xs (flat_map item xs ++ k) u Ha F1) as [u' ->]. apply IH; eauto.
Qed.
Lemma token_rfc b : inset SIP_TOKEN b = rfcToken b.
Proof.
  apply (rfc_ge rfcToken); [apply charsets_exact|]. intros x H. unfold rfcToken in H. apply orb_prop in H as [H|H].
  - unfold rfcAlphanum, rfcALPHA, rfcLOWER, rfcUPPER, rfcDIGIT, rng in H. lia.
  - apply oneOf_lt in H; [exact H|reflexivity].
Qed.
Lemma tokens_rfc b : forallb (inset SIP_TOKEN) b = forallb rfcToken b.
Proof. induction b as [|x b IH]; cbn; [reflexivity|]. now rewrite token_rfc, IH. Qed.
Lemma stops_token k : stops (inset SIP_TOKEN) k = stops rfcToken k. Proof. destruct k; cbn; [reflexivity|]. now rewrite token_rfc. Qed.
Lemma token_lws x : rfcToken x = true -> IsLwsChar x = false.
Proof.
  rewrite <- token_rfc. intros H. assert (Q : forall b, inset SIP_TOKEN b = true -> negb (IsLwsChar b) = true) by (apply inset_sweep; vm_compute; reflexivity).
  apply Q in H. now apply negb_true_iff in H.
Qed.
(** With a class that contains "%" the escapable parse is a plain run. *)
Lemma escLoop_plain e cs : infinite e -> inset cs 37 = true -> forall b k u, forallb (inset cs) b = true -> stops (inset cs) k = true -> escLoop cs e u (b ++ k) = EStop b k.
Proof.
  intros HI H37. induction b as [|x b IH]; intros k u Hb Hk; cbn [app].
  - destruct k as [|y k]; [reflexivity|]. cbn in Hk. apply negb_true_iff in Hk. cbn [escLoop]. rewrite Hk. destruct (N.eqb_spec y 37) as [->|_]; [congruence|reflexivity].
  - cbn in Hb. apply andb_prop in Hb as [Hx Hb]. cbn [escLoop]. rewrite Hx, inf_lt by assumption. rewrite IH by assumption. reflexivity.
Qed.
Lemma rt_token_esc e b k u : infinite e -> wfToken b -> stops rfcToken k = true -> paEscapable SIP_TOKEN e (mkst (b ++ k) u) = Ok b (mkst k (u + 2 + len b)).
Proof.
  intros HI [Hne Hb] Hk. unfold paEscapable. cbn [rest used]. rewrite inf_lt by assumption. cbn [negb]. rewrite escLoop_plain; [|assumption|reflexivity|now rewrite tokens_rfc|now rewrite stops_token].
  destruct b; [congruence|]. rewrite inf_lt by assumption. reflexivity.
Qed.
Lemma rt_token e b k u : infinite e -> wfToken b -> stops rfcToken k = true -> paCString SIP_TOKEN e (mkst (b ++ k) u) = Ok b (mkst k (u + 2 + len b)).
Proof. intros HI [Hne Hb] Hk. apply rt_cstring; auto; [now rewrite tokens_rfc|now rewrite stops_token]. Qed.
Lemma QuotedBody_mono (q q' w w' : N -> bool) b : (forall x, q x = true -> q' x = true) -> (forall x, w x = true -> w' x = true) -> QuotedBody q w b -> QuotedBody q' w' b.
Proof. intros Hq Hw. induction 1; [constructor|apply QBText; auto|apply QBWs; auto|apply QBPair; auto]. Qed.
Lemma quotable_body b : quotable b -> QuotedBody plainQd isWsp b.
Proof.
  apply QuotedBody_mono; [|auto]. apply byte_mono; [vm_compute; reflexivity|]. intros x. unfold qdChar, rng, rfcUTF8lead, rng. lia.
Qed.
Lemma rt_quoted e b k u : infinite e -> quotable b -> paQuoted e (mkst (encQuoted b ++ k) u) = Ok b (mkst k (u + 2 + len b)).
Proof.
  intros HI H. unfold encQuoted. cbn [app]. rewrite <- app_assoc. cbn [app]. apply paQuoted_body; [apply quotable_body, H|apply inf_roomy, HI].
Qed.
Lemma wsp_rfc x : wsp x <-> rfcWSP x = true.
Proof. unfold wsp, rfcWSP. rewrite orb_true_iff, !N.eqb_eq. reflexivity. Qed.
Lemma rt_genValue e v k u : infinite e -> wfGenValue v -> stops rfcToken k = true ->
  exists u', parseGenValue e (mkst (tl (encGenValue (Some v)) ++ k) u) = Ok v (mkst k u').
Proof.
  intros HI W Hk. unfold parseGenValue. destruct v as [t|t|t]; cbn [encGenValue tl].
  - pose proof W as [Hne Hf]. destruct t as [|x t]; [congruence|]. cbn [app]. rewrite onRest_eq. cbn in Hf. apply andb_prop in Hf as [Hx _]. unfold IsSipToken. rewrite token_rfc, Hx.
    rewrite (bind_ok _ _ _ _ _ _ (rt_token e (x :: t) k u HI W Hk)). eexists. reflexivity.
  - pose proof (rt_quoted e t k u HI W) as E. unfold encQuoted in *. cbn [app] in *. rewrite onRest_eq. change (IsSipToken 34) with false. change (34 =? 34) with true. cbn [orb]. cbv iota.
    rewrite (bind_ok _ _ _ _ _ _ E). eexists. reflexivity.
  - destruct W as (x & -> & Hx). cbn [app]. rewrite onRest_eq. change (IsSipToken 91) with false. change ((91 =? 34) || IsLwsChar 91)%bool with false. change (91 =? 91) with true. cbv iota.
    change (91 :: (x ++ [93]) ++ k) with (91 :: (x ++ [93]) ++ k). replace (91 :: (x ++ [93]) ++ k) with ((91 :: x) ++ 93 :: k) by (cbn; rewrite <- app_assoc; reflexivity).
    rewrite cutAfter_exact by (intros [X|X]; [discriminate|contradiction]). rewrite (bind_ok _ _ _ _ _ _ (rt_paSlice e _ _ _ HI)). eexists. reflexivity.
Qed.
(** What may follow one parameter. *)
Definition gpNext (k : bytes) : Prop := lineEnds k \/ exists x t, k = x :: t /\ rfcToken x = false /\ rfcLWSchar x = false /\ x <> 61.
Lemma gpNext_token k : gpNext k -> stops rfcToken k = true.
Proof. intros [[->|(t & -> & _)]|(x & t & -> & H & _)]; [reflexivity|reflexivity|]. cbn. now rewrite H. Qed.
Lemma startsWsp_stops t : ~ startsWsp t -> stops IsWspChar t = true.
Proof. intros H. destruct t as [|x t]; [reflexivity|]. cbn. rewrite IsWspChar_isWsp. apply stops_wsp in H. exact H. Qed.
Lemma onlyCRLF_line t : ~ startsWsp t -> IsOnlyCRLF (13 :: 10 :: t) = true.
Proof. intros H. apply startsWsp_stops in H. destruct t as [|x t]; [reflexivity|]. cbn in *. exact H. Qed.
Lemma ParseSWS_line k : lineEnds k -> ParseSWS_2 k = k.
Proof. intros [->|(t & -> & H)]; [reflexivity|now apply ParseSWS_eol]. Qed.
Lemma genValue_head v : wfGenValue v -> exists x t, tl (encGenValue (Some v)) = x :: t /\ IsLwsChar x = false.
Proof.
  destruct v as [t|t|t]; cbn.
  - intros [Hne Hf]. destruct t as [|x t]; [congruence|]. exists x, t. split; [reflexivity|]. cbn in Hf. apply andb_prop in Hf as [Hx _]. now apply token_lws.
  - intros _. eexists _, _. split; reflexivity.
  - intros (x & -> & _). eexists _, _. split; reflexivity.
Qed.
Lemma rt_genParam e p k u : infinite e -> wfGenParam p -> gpNext k -> exists u', parseGenParam e (mkst (encGenParam p ++ k) u) = Ok p (mkst k u').
Proof.
  intros HI [Wn Wv] Hk. unfold parseGenParam, encGenParam. rewrite <- app_assoc.
  assert (St : stops rfcToken (encGenValue (gpValue p) ++ k) = true).
  { destruct (gpValue p) as [v|]; [|apply gpNext_token, Hk]. destruct v; reflexivity. }
  rewrite (bind_ok _ _ _ _ _ _ (rt_token_esc e _ _ u HI Wn St)), onRest_eq. destruct p as [n [v|]]; cbn [gpName gpValue] in *.
  - destruct (rt_genValue e v k (u + 2 + len n) HI Wv (gpNext_token _ Hk)) as [u' E]. destruct (genValue_head v Wv) as (x & t & Et & Hx).
    replace (encGenValue (Some v)) with (61 :: tl (encGenValue (Some v))) by (destruct v; reflexivity). cbn [app]. change (61 =? 61) with true. cbn [negb andb]. cbv iota.
    assert (M : pSWSMarkCanOmmit 61 e (mkst (61 :: tl (encGenValue (Some v)) ++ k) (u + 2 + len n)) = Ok true (mkst (tl (encGenValue (Some v)) ++ k) (u + 2 + len n))).
    { unfold pSWSMarkCanOmmit, ParseSWSMarkCanOmmit. cbn [Base.rest]. rewrite ParseSWS_noop by reflexivity. change (61 =? 61) with true. cbn [negb]. rewrite ParseSWS_noop; [reflexivity|].
      rewrite Et. cbn. now rewrite Hx. }
    rewrite (bind_ok _ _ _ _ _ _ M). rewrite (bind_ok _ _ _ _ _ _ E). eexists. reflexivity.
  - cbn [encGenValue app]. destruct Hk as [[->|(t & -> & Ht)]|(x & t & -> & _ & Hl & Hx)].
    + eexists. reflexivity.
    + change (13 =? 61) with false. change (IsLwsChar 13) with true. cbn [negb andb]. cbv iota.
      assert (M : pSWSMarkCanOmmit 61 e (mkst (13 :: 10 :: t) (u + 2 + len n)) = Ok false (mkst (13 :: 10 :: t) (u + 2 + len n))).
      { unfold pSWSMarkCanOmmit, ParseSWSMarkCanOmmit. cbn [Base.rest]. rewrite ParseSWS_eol by exact Ht. reflexivity. }
      rewrite (bind_ok _ _ _ _ _ _ M). eexists. reflexivity.
    + rewrite (proj2 (N.eqb_neq x 61) Hx). rewrite lws_rfc, Hl. cbn [negb andb]. eexists. reflexivity.
Qed.
Definition sepOk (sep : N) : Prop := rfcToken sep = false /\ rfcLWSchar sep = false /\ sep <> 61.
Lemma gpEnds_next sep k : gpEnds sep k -> gpNext k.
Proof. intros [H|(x & t & E & H1 & H2 & H3 & _)]; [left; exact H|right]. exists x, t. auto. Qed.
Lemma token_head p k : wfToken (gpName p) -> stops IsLwsChar (encGenParam p ++ k) = true.
Proof. intros [Hne Hf]. unfold encGenParam. destruct (gpName p) as [|x n]; [congruence|]. cbn in *. apply andb_prop in Hf as [Hx _]. now rewrite token_lws. Qed.
Lemma rt_genParamsList e sep on names ps k u a : infinite e -> sepOk sep -> Forall wfGenParam ps -> gpEnds sep k ->
  exists u', loopP (gpBody sep (fun a p => withEnv (fun e => addParam (on e) names gpName a p))) a e (mkst (flat_map (fun p => sep :: encGenParam p) ps ++ k) u) =
    Ok (fold_left (addStep (on e) names gpName) ps a) (mkst k u').
Proof.
  intros HI (S1 & S2 & S3) W Hk.
  apply (rt_loop _ (fun p => sep :: encGenParam p) (addStep (on e) names gpName) gpNext (fun _ l => Forall wfGenParam l)); auto.
  - apply gp_progresses.
  - intros a1 p l k1 u1 Hl Fk. inversion Hl as [|? ? Wp Wl]; subst. unfold gpBody. cbn [app]. rewrite onRest_eq.
    assert (N13 : sep <> 13) by (intros ->; discriminate).
    assert (IO : IsOnlyCRLF (sep :: encGenParam p ++ k1) = false).
    { unfold IsOnlyCRLF. rewrite (proj2 (N.eqb_neq sep 13) N13). cbn [andb]. destruct (encGenParam p ++ k1) as [|? [|? ?]]; reflexivity. }
    rewrite IO, N.eqb_refl. cbn [negb andb]. cbv iota.
    assert (M : ParseSWSMarkCanOmmit sep (sep :: encGenParam p ++ k1) = (encGenParam p ++ k1, true, true)).
    { unfold ParseSWSMarkCanOmmit. rewrite ParseSWS_noop by (cbn; now rewrite lws_rfc, S2). rewrite N.eqb_refl. cbn [negb]. rewrite ParseSWS_noop; [reflexivity|]. apply token_head, Wp. }
    rewrite M. rewrite goto_bind. cbn [used]. rewrite (bind_ok _ _ _ _ _ _ (rt_alloc e 8 _ u1 HI)).
    destruct (rt_genParam e p k1 (u1 + 8) HI Wp Fk) as [u2 E2]. rewrite (bind_ok _ _ _ _ _ _ E2).
    destruct (rt_addParam (on e) names gpName a1 p e k1 u2 HI) as [u3 E3]. unfold withEnv, bind. rewrite E3. eexists. reflexivity.
  - intros a1 p l Hl. now inversion Hl.
  - intros a1 p l k1 Hl Fk. right. exists sep, (encGenParam p ++ k1). auto.
  - apply gpEnds_next in Hk. exact Hk.
  - intros a1 u1 _. exists u1. unfold gpBody. rewrite onRest_eq. destruct Hk as [[->|(t & -> & Ht)]|(x & t & -> & Hx1 & Hx2 & Hx3 & Hx4)].
    + reflexivity.
    + rewrite onlyCRLF_line by exact Ht. reflexivity.
    + assert (N13 : x <> 13) by (intros ->; discriminate).
      assert (IO : IsOnlyCRLF (x :: t) = false).
      { unfold IsOnlyCRLF. rewrite (proj2 (N.eqb_neq x 13) N13). cbn [andb]. destruct t as [|? [|? ?]]; reflexivity. }
      rewrite IO. rewrite (proj2 (N.eqb_neq x sep) Hx4), lws_rfc, Hx2. reflexivity.
Qed.
Definition allGen (t : known gparam) (ps : list gparam) : list gparam := match t with Some tbl => present tbl | None => [] end ++ ps.
Lemma allGen_wf on names t ps : wfGenParams on names t ps -> Forall wfGenParam (allGen t ps).
Proof.
  intros [[_ W] F]. unfold allGen. apply Forall_app. split; [|exact F]. destruct t as [tbl|]; [|constructor]. destruct W as (_ & _ & F2).
  apply Forall_forall. intros p Hp. apply present_In in Hp. destruct (Forall2_in_r _ _ _ F2 _ Hp) as (n & _ & _ & W). exact W.
Qed.
Lemma encGen_all on names t ps : wfGenParams on names t ps -> encGenParams 59 names t ps = flat_map (fun p => 59 :: encGenParam p) (allGen t ps).
Proof.
  intros [[_ W] _]. unfold encGenParams, allGen. rewrite flat_map_app. f_equal. destruct t as [tbl|]; [|reflexivity]. destruct W as (_ & _ & F). unfold encKnown.
  induction F as [|n o names tbl H F IH]; [reflexivity|]. cbn [combine flat_map fst snd present]. rewrite IH. rewrite flat_map_app. f_equal. destruct o as [p|]; [|reflexivity].
  destruct H as [<- _]. cbn [flat_map]. rewrite app_nil_r. reflexivity.
Qed.
Lemma rt_genParams e on names t ps k u : infinite e -> goodNames names = true -> wfGenParams (on e) names t ps -> gpEnds 59 k ->
  exists u', parseGenParams 59 on names e (mkst (encGenParams 59 names t ps ++ k) u) = Ok (t, ps) (mkst k u').
Proof.
  intros HI Hn W Hk. rewrite (encGen_all _ _ _ _ W). destruct (goodNames_ok _ Hn) as [N1 N2]. pose proof W as [Wk _].
  rewrite <- (fold_wfKnown _ _ _ _ _ _ N1 N2 Wk). fold (allGen t ps). apply rt_genParamsList; auto; [split; [reflexivity|split; [reflexivity|discriminate]]|].
  eapply allGen_wf, W.
Qed.
