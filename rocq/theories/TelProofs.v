From Verif Require Import Base Charset CharsetSpec CharsetProofs BaseLemmas Num NumSpec NumProofs Lws LwsSpec LwsProofs Str StrSpec StrProofs Monad Good Rt Seq GoodAuto Inv
  Room Host HostSpec HostProofs Uri UriSpec UriGood UriProofs Tel TelSpec.

(** ** Well-behavedness *)
(** Sequencing where the continuation crashes for a reason visible in the whole input. *)
Lemma goodAt_bind_crash {A B} K C C1 (p : P A) (q : A -> P B) e s :
  goodAt K C1 p e s -> C1 <= C ->
  (forall a s' m, p (withMem m e) s = Ok a s' -> goodAt K (C - C1) (q a) e s' \/ ((forall m, q a (withMem m e) s' = Panic) /\ crashy (rest s))) ->
  goodAt K C (bind p q) e s.
Proof.
  intros [G1 G2 G3] HC Q. unfold bind. split.
  - intros m. specialize (G1 m). destruct (p (withMem m e) s) as [a s'|s'| |] eqn:E; [|exact G1|exact I|exact G1].
    destruct (Q a s' m E) as [[Q1 _ _]|[Q1 _]]; [|now rewrite Q1]. specialize (Q1 m). destruct G1 as [S1 U1].
    destruct (q a (withMem m e) s') as [b s2|s2| |]; [| |exact I|].
    + destruct Q1 as [S2 U2]. split; [exact (suffix_trans _ _ _ S2 S1)|lia].
    + destruct Q1 as [S2 U2]. split; [exact (suffix_trans _ _ _ S2 S1)|lia].
    + exact (loopy_suffix _ _ S1 Q1).
  - specialize (G1 None). destruct (p (withMem None e) s) as [a s'|s'| |] eqn:E; [| |exact G2|exact I].
    + destruct (Q a s' None E) as [[_ Q2 _]|[Q2 X]]; [|now rewrite Q2]. destruct G1 as [S1 U1].
      destruct (q a (withMem None e) s') as [b s2|s2| |]; [lia|lia| |exact I]. exact (crashy_suffix _ _ S1 Q2).
    + lia.
  - intros m Hm. rewrite (G3 m) by lia. destruct (p (withMem None e) s) as [a s'|s'| |] eqn:E; try reflexivity.
    destruct (Q a s' None E) as [[_ _ Q3]|[Q3 _]]; [apply Q3; lia|now rewrite !Q3].
Qed.
Lemma escLoop_decodes cs e : inset cs 37 = false -> forall n r u tok r', (List.length r <= n)%nat -> escLoop cs e u r = EStop tok r' ->
  exists run, r = run ++ r' /\ Decodes (inset cs) run tok.
Proof.
  intros H37. induction n as [|n IH]; intros r u tok r' Hn H.
  - destruct r; [|cbn in Hn; lia]. injection H as <- <-. exists []. split; [reflexivity|constructor].
  - destruct r as [|v r1]; [injection H as <- <-; exists []; split; [reflexivity|constructor]|]. cbn [escLoop] in H. cbn [List.length] in Hn. destruct (inset cs v) eqn:Ev.
    + destruct (ltMem e u); [|discriminate]. destruct (escLoop cs e (u + 1) r1) as [t q|q| |] eqn:E; try discriminate. injection H as <- <-.
      destruct (IH r1 _ _ _ ltac:(lia) E) as (run & -> & D). exists (v :: run). split; [reflexivity|constructor; assumption].
    + destruct (N.eqb_spec v 37) as [->|_]; [|injection H as <- <-; exists []; split; [reflexivity|constructor]]. destruct r1 as [|v1 [|v2 r2]]; try discriminate.
      destruct (negb (IsHex v1) || negb (IsHex v2))%bool eqn:Eh; [discriminate|]. apply orb_false_iff in Eh as [E1 E2]. apply negb_false_iff in E1, E2.
      destruct (ltMem e u); [|discriminate]. destruct (escLoop cs e (u + 1) r2) as [t q|q| |] eqn:E; try discriminate. injection H as <- <-. cbn [List.length] in Hn.
      destruct (IH r2 _ _ _ ltac:(lia) E) as (run & -> & D). exists (37 :: v1 :: v2 :: run). split; [reflexivity|]. unfold unescapeToByte. rewrite N.mul_comm. constructor; auto using IsHex_hexVal.
Qed.
Lemma escapable_decodes cs e s b s' : inset cs 37 = false -> paEscapable cs e s = Ok b s' -> exists run, rest s = run ++ rest s' /\ Decodes (inset cs) run b.
Proof.
  intros H37. unfold paEscapable. destruct (negb _); [discriminate|]. destruct (escLoop cs e (used s + 2) (rest s)) as [tok r|r| |] eqn:E; try discriminate.
  destruct tok as [|x tok]; [discriminate|]. destruct (negb _); [discriminate|]. intros [= <- <-]. eapply escLoop_decodes; [exact H37|apply le_n|exact E].
Qed.
Lemma bare_param e s p s' : parseUriParam SIP_PNAME SIP_PVALUE e s = Ok p s' -> upValue p = None -> sameNoCase (upName p) (s2b "phone-context") -> bareContext (rest s).
Proof.
  intros H V Hn. apply bind_inv in H as (n & s1 & E & H). apply escapable_decodes in E as (run & Er & D); [|reflexivity]. unfold onRest in H.
  exists [], run, (rest s1), n. split; [exact Er|]. split; [exact D|]. destruct (rest s1) as [|x r1] eqn:R1.
  - injection H as <- _. split; [exact Hn|]. intros [b X]. discriminate.
  - destruct (N.eqb_spec x 61) as [->|Nx].
    + apply bind_inv in H as (? & ? & _ & H). apply bind_inv in H as (v & ? & _ & H). injection H as <- _. discriminate.
    + injection H as <- _. split; [exact Hn|]. intros [b X]. congruence.
Qed.
Lemma uriParam_nonempty_value cn cv e s p s' : parseUriParam cn cv e s = Ok p s' -> upValue p <> Some [].
Proof.
  intros H. apply bind_inv in H as (n & s1 & E & H). unfold onRest in H. destruct (rest s1) as [|x r1]; [injection H as <- _; discriminate|].
  destruct (x =? 61); [|injection H as <- _; discriminate]. apply bind_inv in H as (? & s2 & _ & H). apply bind_inv in H as (v & s3 & Ev & H). injection H as <- _.
  apply escapable_inv in Ev as [Ev _]. cbn. intros [= X]. exact (Ev X).
Qed.
Lemma gd_telOne a e s : goodAt 1 16 (uriParamOne SIP_PNAME SIP_PVALUE telSet a) e s.
Proof.
  unfold uriParamOne. eapply goodAt_bind; [apply gd_alloc|lia|intros]. eapply goodAt_bind_crash; [apply gd_uriParam; lia|lia|]. intros p s2 m2 Ep. unfold telSet.
  destruct (equalNoCase (upName p) (s2b "phone-context")) eqn:En.
  - pose proof (uriParam_nonempty_value _ _ _ _ _ _ Ep) as Nv. destruct (upValue p) as [[|x v]|] eqn:V; [exfalso; exact (Nv eq_refl)|left; destruct (negb (x =? 43)); apply goodAt_ret|].
    right. split; [reflexivity|]. right. eapply bare_param; [exact Ep|exact V|]. apply equalNoCase_spec in En; [exact En|discriminate].
  - left. eapply goodAt_bind; [apply goodAt_withEnv; [intros; reflexivity|apply gd_addParam]|cbn; lia|]. intros. apply goodAt_ret.
Qed.
Lemma gd_telParams K a e s : 17 <= K -> goodAt K 16 (parseUriParams SIP_PNAME SIP_PVALUE telSet a) e s.
Proof. intros HK. unfold parseUriParams. good1. good1; [good|]. apply (goodAt_sepLoop 1 16); [|lia|lia]. intros. apply gd_telOne. Qed.
#[export] Hint Resolve gd_telParams : good.
Lemma gd_telNumber K e s : 1 <= K -> goodAt K 3 parseTelNumber e s.
Proof. intros. unfold parseTelNumber. good. Qed.
#[export] Hint Resolve gd_telNumber : good.
Lemma gd_telAfterScheme K e s : 17 <= K -> goodAt K 19 parseTelAfterScheme e s.
Proof. intros. unfold parseTelAfterScheme. good. Qed.
Lemma gd_telNoParam K e s : 1 <= K -> goodAt K 3 parseTelAfterSchemeNoParam e s.
Proof. intros. unfold parseTelAfterSchemeNoParam. good. Qed.
Lemma gd_telScheme K e s : goodAt K 0 parseTelScheme e s.
Proof. unfold parseTelScheme. good. Qed.
#[export] Hint Resolve gd_telAfterScheme gd_telNoParam gd_telScheme : good.
Lemma gd_telUri K e s : 17 <= K -> goodAt K 19 parseTelUri e s.
Proof. intros. unfold parseTelUri. good. Qed.
#[export] Hint Resolve gd_telUri : good.

(** ** Round trip *)
Lemma filter_id {A} (f : A -> bool) l : forallb f l = true -> filter f l = l.
Proof. induction l as [|x l IH]; cbn; [reflexivity|]. intros H. apply andb_prop in H as [-> H]. now rewrite IH. Qed.
Lemma rt_tel e cs n k u : infinite e -> forallb (inset cs) n = true -> forallb (fun v => negb (IsTelVisualSperator v)) n = true -> n <> [] -> stops (inset cs) k = true ->
  paTelNumber cs e (mkst (43 :: n ++ k) u) = Ok (43 :: n) (mkst k (u + 2 + len (43 :: n))) /\
  (inset cs 43 = false -> paTelNumber cs e (mkst (n ++ k) u) = Ok n (mkst k (u + 2 + len n))).
Proof.
  intros HI H1 H2 H3 H4. unfold paTelNumber. cbn [rest used]. rewrite !inf_lt by assumption. cbn [negb]. split.
  - change (43 =? 43) with true. cbv iota. rewrite span_exact by assumption. cbv zeta. rewrite filter_id by assumption. rewrite inf_fits, inf_lt by assumption. cbn [negb]. destruct n; [congruence|reflexivity].
  - intros H5. destruct n as [|x n]; [congruence|]. cbn [app]. destruct (N.eqb_spec x 43) as [->|_]; [cbn in H1; rewrite H5 in H1; discriminate|].
    change (x :: n ++ k) with ((x :: n) ++ k). rewrite span_exact by assumption. cbv zeta. rewrite filter_id by assumption. rewrite inf_fits, inf_lt by assumption. reflexivity.
Qed.
Lemma vis_rfc b : IsTelVisualSperator b = rfcVisualSep b.
Proof.
  unfold IsTelVisualSperator. apply rfc_ge; [apply charsets_exact|]. intros x H. unfold rfcVisualSep in H. apply oneOf_lt in H; [exact H|reflexivity].
Qed.

Lemma digit_phone b : rfcDIGIT b = true -> inset TEL_PHONE_DIGIT b = true /\ IsTelVisualSperator b = false.
Proof.
  intros H. assert (L : b < 256) by (unfold rfcDIGIT, rng in H; lia). revert H. revert b L.
  assert (X : forallb (fun b => implb (rfcDIGIT b) (inset TEL_PHONE_DIGIT b && negb (IsTelVisualSperator b))) (map N.of_nat (seq 0 256)) = true) by (vm_compute; reflexivity).
  rewrite forallb_forall in X. intros b L H. specialize (X b). rewrite H in X. cbn [implb] in X. apply andb_prop in X; [|apply in_map_iff; exists (N.to_nat b); split; [lia|apply in_seq; lia]].
  destruct X as [X1 X2]. split; [exact X1|now apply negb_true_iff].
Qed.
Lemma hex_phone b : rfcHEXDIG b = true -> inset TEL_PHONE_DIGIT_HEX b = true /\ IsTelVisualSperator b = false.
Proof.
  intros H. assert (L : b < 256) by (unfold rfcHEXDIG, rfcLHex, rfcUHex, rfcDIGIT, rfcLHexAlpha, rfcUHexAlpha, rng in H; lia). revert H. revert b L.
  assert (X : forallb (fun b => implb (rfcHEXDIG b) (inset TEL_PHONE_DIGIT_HEX b && negb (IsTelVisualSperator b))) (map N.of_nat (seq 0 256)) = true) by (vm_compute; reflexivity).
  rewrite forallb_forall in X. intros b L H. specialize (X b). rewrite H in X. cbn [implb] in X. apply andb_prop in X; [|apply in_map_iff; exists (N.to_nat b); split; [lia|apply in_seq; lia]].
  destruct X as [X1 X2]. split; [exact X1|now apply negb_true_iff].
Qed.
Lemma telEnds_param k : telEnds k -> paramEnds k /\ (forall k', k <> 59 :: k').
Proof.
  destruct k as [|x k]; cbn [telEnds paramEnds]; [split; [trivial|discriminate]|]. intros (H1 & H3). split; [repeat split; [exact H1| |]; apply (oneOf_false _ _ _ H3); inlist|].
  intros k' [= -> _]. refine (oneOf_false _ _ 59 H3 _ eq_refl); inlist.
Qed.
Lemma phone_pname b : inset TEL_PHONE_DIGIT_HEX b = true -> inset SIP_PNAME b = true.
Proof. apply inset_sweep. vm_compute. reflexivity. Qed.
Lemma phone_hex b : inset TEL_PHONE_DIGIT b = true -> inset TEL_PHONE_DIGIT_HEX b = true.
Proof. apply inset_sweep. vm_compute. reflexivity. Qed.
Lemma telNumber_ends k : telEnds k \/ (exists k', k = 59 :: k') -> stops (inset TEL_PHONE_DIGIT_HEX) k = true /\ stops (inset TEL_PHONE_DIGIT) k = true.
Proof.
  intros H. assert (X : stops (inset TEL_PHONE_DIGIT_HEX) k = true).
  { destruct H as [H|[k' ->]]; [|reflexivity]. destruct k as [|x k]; [reflexivity|]. cbn. destruct (inset TEL_PHONE_DIGIT_HEX x) eqn:E; [|reflexivity].
    apply phone_pname in E. rewrite pname_rfc in E. destruct H as [H _]. congruence. }
  split; [exact X|]. destruct k as [|x k]; [reflexivity|]. cbn in *. destruct (inset TEL_PHONE_DIGIT x) eqn:E; [|reflexivity]. apply phone_hex in E. now rewrite E in X.
Qed.
Lemma rt_telNumber0 e g n k u : infinite e -> wfTelNumber g n -> stops (inset TEL_PHONE_DIGIT_HEX) k = true -> stops (inset TEL_PHONE_DIGIT) k = true -> exists u', parseTelNumber e (mkst (n ++ k) u) = Ok (g, n) (mkst k u').
Proof.
  intros HI W K1 K2. unfold parseTelNumber. rewrite onRest_eq. destruct g; cbn [wfTelNumber] in W.
  - destruct W as (ds & -> & Hne & Hd). cbn [app]. change (43 =? 43) with true. cbv iota.
    assert (A : forallb (inset TEL_PHONE_DIGIT) ds = true /\ forallb (fun v => negb (IsTelVisualSperator v)) ds = true).
    { rewrite !forallb_forall in *. split; intros x Hx; specialize (Hd x Hx); apply digit_phone in Hd as [D1 D2]; [exact D1|now rewrite D2]. }
    destruct A as [A1 A2]. destruct (rt_tel e TEL_PHONE_DIGIT ds k u HI A1 A2 Hne K2) as [E _]. rewrite (bind_ok _ _ _ _ _ _ E). eexists. reflexivity.
  - destruct W as [Hne Hd].
    assert (A : forallb (inset TEL_PHONE_DIGIT_HEX) n = true /\ forallb (fun v => negb (IsTelVisualSperator v)) n = true).
    { rewrite !forallb_forall in *. split; intros x Hx; specialize (Hd x Hx); apply hex_phone in Hd as [D1 D2]; [exact D1|now rewrite D2]. }
    destruct A as [A1 A2]. destruct (rt_tel e TEL_PHONE_DIGIT_HEX n k u HI A1 A2 Hne K1) as [_ E]. specialize (E eq_refl).
    destruct n as [|x n]; [congruence|]. cbn [app] in *. destruct (N.eqb_spec x 43) as [->|_]; [cbn in A1; discriminate|].
    rewrite (bind_ok _ _ _ _ _ _ E). eexists. reflexivity.
Qed.
Lemma rt_telNumber e g n k u : infinite e -> wfTelNumber g n -> telEnds k \/ (exists k', k = 59 :: k') -> exists u', parseTelNumber e (mkst (n ++ k) u) = Ok (g, n) (mkst k u').
Proof. intros HI W Hk. apply telNumber_ends in Hk as [K1 K2]. now apply rt_telNumber0. Qed.

Definition telState : Type := (option uparam * bool) * (known uparam * list uparam).
Definition telStep (e : env) (a : telState) (p : uparam) : telState :=
  if equalNoCase (upName p) (s2b "phone-context") then
    match upValue p with
    | Some (x :: v) => if negb (x =? 43) then ((Some p, true), snd a) else ((Some (mkup (upName p) (Some (removeVisual (x :: v)))), false), snd a)
    | _ => a
    end
  else (fst a, addStep (fTelUriKnown e) telKnownNames upName (snd a) p).
Definition ctxOK (p : uparam) : Prop := sameNoCase (upName p) (s2b "phone-context") -> upValue p <> None.
Lemma rt_telSet e a p r u : infinite e -> wfParam p -> ctxOK p -> exists u', telSet a p e (mkst r u) = Ok (telStep e a p) (mkst r u').
Proof.
  intros HI (_ & _ & W) C. unfold telSet, telStep. destruct (equalNoCase (upName p) (s2b "phone-context")) eqn:En.
  - apply equalNoCase_spec in En; [|discriminate]. specialize (C En). destruct (upValue p) as [[|x v]|]; [exfalso; apply W; reflexivity| |congruence]. destruct (negb (x =? 43)); eexists; reflexivity.
  - unfold withEnv, bind. destruct (rt_addParam (fTelUriKnown e) telKnownNames upName (snd a) p e r u HI) as [u' E]. rewrite E. eexists. reflexivity.
Qed.
Lemma sub_tel_pname : sub TEL_PNAME SIP_PNAME. Proof. intros x. apply inset_sweep. vm_compute. reflexivity. Qed.
Lemma sub_tel_pvalue : sub TEL_PVALUE SIP_PVALUE. Proof. intros x. apply inset_sweep. vm_compute. reflexivity. Qed.
Lemma rt_telParams e ps a k u : infinite e -> eUriNoEscape e = false -> ps <> [] -> Forall (fun p => wfParam p /\ ctxOK p) ps -> paramEnds k -> (forall k', k <> 59 :: k') ->
  exists u', parseUriParams SIP_PNAME SIP_PVALUE telSet a e (mkst (joined 59 (map (encUriParam e TEL_PNAME TEL_PVALUE) ps) ++ k) u) = Ok (fold_left (telStep e) ps a) (mkst k u').
Proof.
  intros HI He Hne F Hk Nk.
  apply (rt_uriParams e TEL_PNAME TEL_PVALUE SIP_PNAME SIP_PVALUE telSet (telStep e) 1 16 paramEnds (fun _ l => Forall (fun p => wfParam p /\ ctxOK p) l)); auto using sub_tel_pname, sub_tel_pvalue.
  - intros. apply gd_telOne.
  - intros q Hq. split; [apply paramEnds_name, Hq|]. split; [apply paramEnds_value, Hq|]. intros k' ->. destruct Hq as (_ & _ & H). congruence.
  - intros q. split; [reflexivity|split; discriminate].
  - intros a1 p l Hl. inversion Hl as [|? ? [W C] Hl']; subst. split; [assumption|]. split; [assumption|]. intros r v. apply rt_telSet; assumption.
Qed.
Lemma telStep_other e ps : forall c a, Forall (fun p => ~ sameNoCase (upName p) (s2b "phone-context")) ps ->
  fold_left (telStep e) ps (c, a) = (c, fold_left (addStep (fTelUriKnown e) telKnownNames upName) ps a).
Proof.
  induction ps as [|p ps IH]; intros c a F; [reflexivity|]. inversion F as [|? ? H F']; subst. cbn [fold_left]. unfold telStep at 2.
  destruct (equalNoCase (upName p) (s2b "phone-context")) eqn:En; [exfalso; apply H; apply equalNoCase_spec in En; [exact En|discriminate]|]. cbn [fst snd]. apply IH, F'.
Qed.
Lemma telKnownNames_good : goodNames telKnownNames = true. Proof. vm_compute. reflexivity. Qed.
(** All parameters in the order they are written. *)
Definition telAll (t : teluri) : list uparam := (match tContext t with Some p => [p] | None => [] end) ++ allParams (tKnown t) (tParams t).
Lemma removeVisual_id v : forallb (fun b => negb (rfcVisualSep b)) v = true -> removeVisual v = v.
Proof. intros H. apply filter_id. rewrite forallb_forall in *. intros x Hx. rewrite vis_rfc. apply H, Hx. Qed.
Lemma wfTel_all e t : wfTelUri e t -> Forall (fun p => wfParam p /\ ctxOK p) (telAll t) /\
  fold_left (telStep e) (telAll t) ((None, false), (None, [])) = ((tContext t, tDomain t), (tKnown t, tParams t)).
Proof.
  intros (_ & Wc & Wk & Wp & Np). destruct (goodNames_ok _ telKnownNames_good) as [N1 N2].
  assert (Nk : Forall (fun p => ~ sameNoCase (upName p) (s2b "phone-context")) (allParams (tKnown t) (tParams t))).
  { apply Forall_app. split; [|exact Np]. destruct Wk as [_ Wk]. destruct (tKnown t) as [tbl|]; [|constructor]. destruct Wk as (_ & _ & F).
    apply Forall_forall. intros p Hp. apply present_In in Hp. destruct (Forall2_in_r _ _ _ F _ Hp) as (n & Hn & <- & _). intros X. cbn [In telKnownNames] in Hn. destruct Hn as [Hn|[Hn|[]]]; rewrite <- Hn in X; vm_compute in X; discriminate. }
  assert (Fp : Forall wfParam (allParams (tKnown t) (tParams t))) by (eapply wfKnown_all; eassumption).
  assert (Fa : Forall (fun p => wfParam p /\ ctxOK p) (allParams (tKnown t) (tParams t))).
  { apply Forall_forall. intros p Hp. rewrite Forall_forall in Fp, Nk. split; [apply Fp, Hp|]. intros X. exfalso. exact (Nk _ Hp X). }
  pose proof (fold_wfKnown _ _ _ _ _ _ N1 N2 Wk) as FK. fold (allParams (tKnown t) (tParams t)) in FK.
  unfold telAll, wfTelContext in *. destruct (tContext t) as [p|] eqn:Ec.
  - destruct Wc as (_ & Hn & x & v & Hv & Hb & Hd). split.
    + constructor; [|exact Fa]. split; [|intros _; congruence]. split; [rewrite Hn; discriminate|]. split; [rewrite Hn; apply allBytesb_ok; reflexivity|]. rewrite Hv. split; [discriminate|exact Hb].
    + cbn [app fold_left]. unfold telStep at 2. rewrite Hn. change (equalNoCase (s2b "phone-context") (s2b "phone-context")) with true. cbv iota. rewrite Hv.
      destruct Hd as [[Hx Hd]|(-> & Hd & Hf)].
      * destruct (N.eqb_spec x 43) as [->|_]; [congruence|]. cbn [negb snd]. rewrite telStep_other by exact Nk. rewrite FK, Hd. reflexivity.
      * change (43 =? 43) with true. cbn [negb snd]. rewrite telStep_other by exact Nk. rewrite FK, Hd. rewrite removeVisual_id; [|exact Hf].
        destruct p as [n1 v1]; cbn [upName upValue] in *; subst n1 v1; reflexivity.
  - cbn [app]. split; [exact Fa|]. rewrite telStep_other by exact Nk. rewrite FK, Wc. reflexivity.
Qed.
Lemma encTel_all e t : eUriNoEscape e = false -> wfTelUri e t ->
  encTelUri e t = s2b "tel:" ++ tNumber t ++ flat_map (fun p => 59 :: encUriParam e TEL_PNAME TEL_PVALUE p) (telAll t).
Proof.
  intros He (_ & Wc & Wk & _). unfold encTelUri, telAll. rewrite flat_map_app. do 2 f_equal. f_equal.
  - unfold wfTelContext in Wc. destruct (tContext t) as [p|]; [|destruct (tGlobal t); reflexivity]. destruct Wc as (-> & Hn & _). cbn [flat_map]. rewrite app_nil_r. unfold encUriParam. rewrite Hn. unfold escUri at 1. rewrite He. reflexivity.
  - unfold allParams. rewrite flat_map_app. unfold encUriParams. f_equal. destruct Wk as [_ W]. destruct (tKnown t) as [tbl|]; [|reflexivity]. destruct W as (_ & _ & F).
    apply encKnown_present; auto. repeat constructor.
Qed.
Lemma rt_telAfterScheme e t k u : infinite e -> eUriNoEscape e = false -> wfTelUri e t -> telEnds k ->
  exists u', parseTelAfterScheme e (mkst (skipn 4 (encTelUri e t) ++ k) u) = Ok t (mkst k u').
Proof.
  intros HI He W Hk. rewrite encTel_all by assumption. change (skipn 4 (s2b "tel:" ++ ?x)) with x. destruct (wfTel_all _ _ W) as [Fa Ff]. pose proof W as (Wn & Wc & _). destruct (telEnds_param _ Hk) as [P1 P2].
  unfold parseTelAfterScheme. destruct (telAll t) as [|p ps] eqn:Ea.
  - cbn [flat_map]. rewrite app_nil_r. destruct (rt_telNumber e _ _ k u HI Wn (or_introl Hk)) as [u1 E1]. rewrite (bind_ok _ _ _ _ _ _ E1), onRest_eq.
    cbn [fold_left] in Ff. injection Ff as F1 F2 F3 F4.
    assert (X : forall u', Ok (mktel (tGlobal t) false (tNumber t) None None []) (mkst k u') = Ok t (mkst k u')) by (intros; destruct t; cbn in *; congruence).
    cbn [fst snd]. destruct k as [|x k]; [eexists; apply X|]. destruct (N.eqb_spec x 59) as [->|_]; [exfalso; eapply P2; reflexivity|eexists; apply X].
  - rewrite <- Ea in *. rewrite flat_joined by (rewrite Ea; discriminate). rewrite <- app_assoc. cbn [app].
    destruct (rt_telNumber e _ _ (59 :: joined 59 (map (encUriParam e TEL_PNAME TEL_PVALUE) (telAll t)) ++ k) u HI Wn ltac:(right; eexists; reflexivity)) as [u1 E1].
    rewrite (bind_ok _ _ _ _ _ _ E1), onRest_eq. change (59 =? 59) with true. cbv iota. rewrite goto_bind. cbn [used].
    destruct (rt_telParams e (telAll t) ((None, false), (None, [])) k u1 HI He ltac:(rewrite Ea; discriminate) Fa P1 P2) as [u2 E2]. rewrite (bind_ok _ _ _ _ _ _ E2), Ff. cbn [fst snd].
    exists u2. destruct t; reflexivity.
Qed.
Lemma rt_telUri e t k u : infinite e -> eUriNoEscape e = false -> wfTelUri e t -> telEnds k -> exists u', parseTelUri e (mkst (encTelUri e t ++ k) u) = Ok t (mkst k u').
Proof. intros HI He W F. destruct (rt_telAfterScheme e t k u HI He W F) as [u' E]. exists u'. rewrite <- E. reflexivity. Qed.

(** ** What the parsed number is *)
Lemma phone_rfc b : inset TEL_PHONE_DIGIT b = (rfcDIGIT b || rfcVisualSep b)%bool.
Proof.
  apply (rfc_ge (fun b => rfcDIGIT b || rfcVisualSep b)%bool); [apply charsets_exact|]. intros x H. apply orb_prop in H as [H|H]; [unfold rfcDIGIT, rng in H; lia|].
  unfold rfcVisualSep in H. apply oneOf_lt in H; [exact H|reflexivity].
Qed.
Lemma phonehex_rfc b : inset TEL_PHONE_DIGIT_HEX b = (rfcHEXDIG b || rfcVisualSep b)%bool.
Proof.
  apply (rfc_ge (fun b => rfcHEXDIG b || rfcVisualSep b)%bool); [apply agrees_sweep; vm_compute; reflexivity|]. intros x H. apply orb_prop in H as [H|H].
  - unfold rfcHEXDIG, rfcLHex, rfcUHex, rfcDIGIT, rfcLHexAlpha, rfcUHexAlpha, rng in H; lia.
  - unfold rfcVisualSep in H. apply oneOf_lt in H; [exact H|reflexivity].
Qed.
Lemma forallb_eq {A} (f g : A -> bool) l : (forall x, f x = g x) -> forallb f l = forallb g l.
Proof. intros H. induction l as [|x l IH]; cbn; [reflexivity|]. now rewrite H, IH. Qed.
Lemma filter_eq {A} (f g : A -> bool) l : (forall x, f x = g x) -> filter f l = filter g l.
Proof. intros H. induction l as [|x l IH]; cbn; [reflexivity|]. now rewrite H, IH. Qed.
Lemma stops_eq (f g : N -> bool) l : (forall x, f x = g x) -> stops f l = stops g l.
Proof. intros H. destruct l as [|x l]; cbn; [reflexivity|]. now rewrite H. Qed.
Lemma tel_inv cs e s n s' : paTelNumber cs e s = Ok n s' -> exists run ds, rest s = run ++ rest s' /\
  ((run = 43 :: ds /\ n = 43 :: removeVisual ds) \/ (run = ds /\ n = removeVisual ds /\ forall q, rest s <> 43 :: q)) /\
  removeVisual ds <> [] /\ forallb (inset cs) ds = true /\ stops (inset cs) (rest s') = true.
Proof.
  unfold paTelNumber. destruct (negb _); [discriminate|]. set (X := match rest s with x :: r => if x =? 43 then ([43], r) else ([], rest s) | [] => ([], rest s) end).
  assert (HX : (exists q, rest s = 43 :: q /\ X = ([43], q)) \/ ((forall q, rest s <> 43 :: q) /\ X = ([], rest s))).
  { unfold X. destruct (rest s) as [|x q]; [right; split; [discriminate|reflexivity]|]. destruct (N.eqb_spec x 43) as [->|Hx]; [left; eauto|]. right. split; [congruence|reflexivity]. }
  clearbody X. destruct HX as [(q & Er & ->)|[Hn ->]]; cbv iota beta zeta.
  - destruct (span (inset cs) q) as [run r] eqn:Es. destruct (negb _); [discriminate|]. fold (removeVisual run). destruct (removeVisual run) as [|y ys] eqn:Ev; [discriminate|]. destruct (negb _); [discriminate|].
    intros [= <- <-]. cbn [rest]. exists (43 :: run), run. split; [rewrite Er; cbn; f_equal; eapply span_app, Es|]. split; [left; rewrite Ev; auto|]. split; [rewrite Ev; discriminate|]. split; [eapply span_all, Es|eapply span_stops, Es].
  - destruct (span (inset cs) (rest s)) as [run r] eqn:Es. destruct (negb _); [discriminate|]. fold (removeVisual run). destruct (removeVisual run) as [|y ys] eqn:Ev; [discriminate|]. destruct (negb _); [discriminate|].
    intros [= <- <-]. cbn [rest]. exists run, run. split; [eapply span_app, Es|]. split; [right; rewrite Ev; auto|]. split; [rewrite Ev; discriminate|]. split; [eapply span_all, Es|eapply span_stops, Es].
Qed.
Lemma removeVisual_rfc l : removeVisual l = filter (fun b => negb (rfcVisualSep b)) l.
Proof. apply filter_eq. intros x. now rewrite vis_rfc. Qed.
Lemma removeVisual_rfc_none l : Forall (fun b => rfcVisualSep b = false) (removeVisual l).
Proof. eapply Forall_impl; [|apply removeVisual_none]. intros x; cbv beta; now rewrite vis_rfc. Qed.
Lemma telNumber_inv e s g n s' : parseTelNumber e s = Ok (g, n) s' -> exists run, rest s = run ++ rest s' /\
    n = filter (fun b => negb (rfcVisualSep b)) run /\
    (g = true -> exists ds, run = 43 :: ds /\ forallb (fun b => rfcDIGIT b || rfcVisualSep b)%bool ds = true /\ stops (fun b => rfcDIGIT b || rfcVisualSep b)%bool (rest s') = true) /\
    (g = false -> forallb (fun b => rfcHEXDIG b || rfcVisualSep b)%bool run = true /\ stops (fun b => rfcHEXDIG b || rfcVisualSep b)%bool (rest s') = true) /\
    Forall (fun b => rfcVisualSep b = false) n /\ n <> [] /\ n <> [43].
Proof.
  unfold parseTelNumber, onRest. destruct (rest s) as [|x r] eqn:R; [discriminate|]. destruct (N.eqb_spec x 43) as [->|Nx]; intros H; apply bind_inv in H as (n0 & s1 & E & [= <- <- <-]); apply tel_inv in E as (run & ds & Er & Hn & Hv & Hd & Hs); rewrite R in *.
  - destruct Hn as [[-> ->]|(_ & _ & X)]; [|exfalso; eapply X; reflexivity]. exists (43 :: ds). split; [exact Er|]. split; [rewrite removeVisual_rfc; reflexivity|].
    split; [|split; [discriminate|]].
    + intros _. exists ds. split; [reflexivity|]. rewrite <- (forallb_eq _ _ _ phone_rfc), <- (stops_eq _ _ _ phone_rfc). auto.
    + split; [constructor; [reflexivity|apply removeVisual_rfc_none]|]. split; [discriminate|]. intros [= X]. contradiction.
  - destruct Hn as [[-> _]|(-> & -> & _)]; [cbn in Er; congruence|]. exists ds. split; [exact Er|]. split; [apply removeVisual_rfc|]. split; [discriminate|]. split.
    + intros _. rewrite <- (forallb_eq _ _ _ phonehex_rfc), <- (stops_eq _ _ _ phonehex_rfc). auto.
    + split; [apply removeVisual_rfc_none|]. split; [exact Hv|]. intros X. assert (In 43 ds). { assert (I43 : In 43 (removeVisual ds)) by (rewrite X; left; reflexivity). apply filter_In in I43. apply I43. }
      rewrite forallb_forall in Hd. specialize (Hd _ H). vm_compute in Hd. discriminate.
Qed.
Lemma telUri_number e s t s' : parseTelUri e s = Ok t s' ->
  exists h run r', rest s = h ++ run ++ r' /\ len h = 4 /\
    tNumber t = filter (fun b => negb (rfcVisualSep b)) run /\
    (tGlobal t = true -> exists ds, run = 43 :: ds /\ forallb (fun b => rfcDIGIT b || rfcVisualSep b)%bool ds = true /\ stops (fun b => rfcDIGIT b || rfcVisualSep b)%bool r' = true) /\
    (tGlobal t = false -> forallb (fun b => rfcHEXDIG b || rfcVisualSep b)%bool run = true /\ stops (fun b => rfcHEXDIG b || rfcVisualSep b)%bool r' = true) /\
    Forall (fun b => rfcVisualSep b = false) (tNumber t) /\ tNumber t <> [] /\ tNumber t <> [43].
Proof.
  intros H. apply bind_inv in H as (? & s1 & E1 & H). unfold parseTelScheme, onRest in E1. destruct (rest s) as [|a [|b [|c [|d r]]]] eqn:R; try discriminate. destruct (_ && _)%bool; [|discriminate]. injection E1 as _ <-.
  apply bind_inv in H as ([g n] & s2 & E2 & H). apply telNumber_inv in E2 as (run & Er & P1). cbn [rest] in Er. exists [a; b; c; d], run, (rest s2). split; [rewrite <- Er; reflexivity|]. split; [reflexivity|].
  assert (T : tNumber t = n /\ tGlobal t = g).
  { unfold onRest in H. cbn [fst snd] in H. destruct (rest s2) as [|y q]; [injection H as <- _; auto|]. destruct (y =? 59); [|injection H as <- _; auto]. apply bind_inv in H as (? & ? & _ & H). apply bind_inv in H as (? & ? & _ & H). injection H as <- _. auto. }
  destruct T as [-> ->]. exact P1.
Qed.

(** ** The only cause of a crash *)
Lemma bareContext_suffix a b : suffix a b -> bareContext a -> bareContext b.
Proof. intros [p ->] (x & run & y & tok & -> & H). exists (p ++ x), run, y, tok. split; [apply app_assoc|exact H]. Qed.
Definition calm {A} (p : P A) (e : env) (s : st) : Prop :=
  match p e s with Ok _ _ | Fail _ => True | Panic => bareContext (rest s) | Loop => False end.
Lemma escLoop_inf cs e : infinite e -> forall n r u, (List.length r <= n)%nat -> match escLoop cs e u r with EPanic | ENoMem => False | _ => True end.
Proof.
  intros HI. induction n as [|n IH]; intros r u Hn.
  - destruct r; [exact I|cbn in Hn; lia].
  - destruct r as [|v r1]; [exact I|]. cbn [escLoop]. cbn [List.length] in Hn. destruct (inset cs v).
    + rewrite inf_lt by assumption. specialize (IH r1 (u + 1) ltac:(lia)). destruct (escLoop cs e (u + 1) r1); cbn; auto.
    + destruct (v =? 37); [|exact I]. destruct r1 as [|v1 [|v2 r2]]; try exact I. destruct (_ || _)%bool; [exact I|]. rewrite inf_lt by assumption. cbn [List.length] in Hn. specialize (IH r2 (u + 1) ltac:(lia)). destruct (escLoop cs e (u + 1) r2); cbn; auto.
Qed.
Lemma inf_escapable cs e s : infinite e -> match paEscapable cs e s with Ok _ _ | Fail _ => True | _ => False end.
Proof.
  intros HI. unfold paEscapable. rewrite inf_lt by assumption. cbn [negb]. pose proof (escLoop_inf cs e HI _ (rest s) (used s + 2) (le_n _)) as H.
  destruct (escLoop cs e (used s + 2) (rest s)) as [[|x tok] r|r| |]; auto. rewrite inf_lt by assumption. exact I.
Qed.
Lemma calm_param e r u : infinite e -> match parseUriParam SIP_PNAME SIP_PVALUE e (mkst r u) with Ok _ _ | Fail _ => True | _ => False end.
Proof.
  intros HI. unfold parseUriParam, bind. pose proof (inf_escapable SIP_PNAME e (mkst r u) HI) as H. destruct (paEscapable SIP_PNAME e (mkst r u)) as [n s1|s1| |]; auto.
  unfold onRest. destruct (rest s1) as [|x r1]; [exact I|]. destruct (x =? 61); [|exact I]. unfold goto. cbn [used].
  pose proof (inf_escapable SIP_PVALUE e (mkst r1 (used s1)) HI) as H2. destruct (paEscapable SIP_PVALUE e (mkst r1 (used s1))); auto.
Qed.
Lemma calm_telOne a e s : infinite e -> calm (uriParamOne SIP_PNAME SIP_PVALUE telSet a) e s.
Proof.
  intros HI. unfold calm, uriParamOne. destruct s as [r u]. rewrite (bind_ok _ _ _ _ _ _ (rt_alloc e 6 r u HI)). unfold bind.
  pose proof (calm_param e r (u + 6) HI) as Cp. destruct (parseUriParam SIP_PNAME SIP_PVALUE e (mkst r (u + 6))) as [p s1|s1| |] eqn:Ep; [|exact I|contradiction|contradiction].
  unfold telSet. destruct (equalNoCase (upName p) (s2b "phone-context")) eqn:En.
  - pose proof (uriParam_nonempty_value _ _ _ _ _ _ Ep) as Nv. destruct (upValue p) as [[|x v]|] eqn:V; [exfalso; exact (Nv eq_refl)|destruct (negb (x =? 43)); exact I|].
    cbn. pose proof (bare_param _ _ _ _ Ep V) as B. apply B. apply equalNoCase_spec in En; [exact En|discriminate].
  - unfold bind, withEnv. destruct s1 as [r1 u1]. destruct (rt_addParam (fTelUriKnown e) telKnownNames upName (snd a) p e r1 u1 HI) as [u' ->]. exact I.
Qed.
Lemma calm_telLoop e : infinite e -> forall n r u a, (List.length r <= n)%nat -> calm (sepLoop 59 (uriParamOne SIP_PNAME SIP_PVALUE telSet) a) e (mkst r u).
Proof.
  intros HI. induction n as [n IH] using lt_wf_ind. intros r u a Hn. unfold calm. rewrite (sepLoop_unfold 1 16) by (intros; apply gd_telOne). destruct r as [|x r]; [exact I|].
  pose proof (calm_telOne a e (mkst (x :: r) u) HI) as C1. unfold calm in C1.
  pose proof (good_any _ _ _ _ _ (gd_telOne a e (mkst (x :: r) u)) (memend e)) as G. rewrite withMem_self in G.
  destruct (uriParamOne SIP_PNAME SIP_PVALUE telSet a e (mkst (x :: r) u)) as [a1 s1|s1| |]; auto. destruct G as [Su _]. destruct (rest s1) as [|y r1] eqn:R1; [exact I|]. destruct (y =? 59); [|exact I].
  pose proof (suffix_length _ _ Su) as L. cbn [rest List.length] in L, Hn.
  specialize (IH (List.length r1) ltac:(lia) r1 (used s1) a1 (le_n _)). unfold calm in IH. destruct (sepLoop 59 _ a1 e (mkst r1 (used s1))); auto. cbn [rest] in *.
  eapply bareContext_suffix; [|exact IH]. eapply suffix_trans; [|exact Su]. exists [y]. reflexivity.
Qed.
Lemma inf_tel cs e s : infinite e -> match paTelNumber cs e s with Ok _ _ | Fail _ => True | _ => False end.
Proof.
  intros HI. unfold paTelNumber. rewrite inf_lt by assumption. cbn [negb]. destruct (match rest s with x :: r => if x =? 43 then ([43], r) else ([], rest s) | [] => ([], rest s) end) as [plus r0]. destruct (span (inset cs) r0) as [run r].
  cbv zeta. rewrite inf_fits by assumption. cbn [negb]. destruct (filter _ run); [exact I|]. rewrite inf_lt by assumption. exact I.
Qed.
Lemma telUri_crash e s : infinite e -> calm parseTelUri e s.
Proof.
  intros HI. unfold calm, parseTelUri, bind. destruct s as [r0 u]. unfold parseTelScheme, onRest. cbn [rest]. destruct r0 as [|a [|b [|c [|d r]]]]; try exact I. destruct (_ && _)%bool; [|exact I]. unfold goto. cbn [used].
  unfold parseTelAfterScheme, bind.
  pose proof (good_any _ _ _ _ _ (gd_telNumber 1 e (mkst r u) ltac:(lia)) (memend e)) as G. rewrite withMem_self in G.
  assert (T : match parseTelNumber e (mkst r u) with Ok _ _ | Fail _ => True | _ => False end).
  { unfold parseTelNumber, onRest. cbn [rest]. destruct r as [|x r]; [exact I|]. unfold bind.
    destruct (x =? 43); [pose proof (inf_tel TEL_PHONE_DIGIT e (mkst (x :: r) u) HI) as T; destruct (paTelNumber TEL_PHONE_DIGIT e (mkst (x :: r) u)); auto|pose proof (inf_tel TEL_PHONE_DIGIT_HEX e (mkst (x :: r) u) HI) as T; destruct (paTelNumber TEL_PHONE_DIGIT_HEX e (mkst (x :: r) u)); auto]. }
  destruct (parseTelNumber e (mkst r u)) as [gn s1|s1| |]; [|exact I|contradiction|contradiction]. clear T. destruct G as [Su _]. unfold onRest. destruct (rest s1) as [|y r1] eqn:R1; [exact I|]. destruct (y =? 59); [|exact I]. unfold goto. cbn [used].
  unfold parseUriParams, onRest. cbn [rest]. destruct r1 as [|z r1]; [exact I|].
  pose proof (calm_telLoop e HI _ (z :: r1) (used s1) ((None, false), (None, [])) (le_n _)) as C1. unfold calm in C1. destruct (sepLoop 59 _ _ e (mkst (z :: r1) (used s1))); auto. cbn [rest] in *.
  eapply bareContext_suffix; [|exact C1]. eapply suffix_trans; [exists [y]; reflexivity|]. eapply suffix_trans; [exact Su|]. exists [a; b; c; d]. reflexivity.
Qed.
