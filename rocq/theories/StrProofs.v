From Verif Require Import Base Charset CharsetSpec BaseLemmas Lws LwsProofs Str StrSpec Num Arena ArenaProofs.

(** * Hex digits *)
Lemma IsHex_value x : IsHex x = true <-> exists v, hexDigitValue x v.
Proof.
  split.
  - intros H. exists (hexVal x). revert x H.
    assert (Hs : forall x, inset HEX x = true ->
      ((((48 <=? x) && (x <=? 57)) && (hexVal x =? x - 48)) || (((65 <=? x) && (x <=? 70)) && (hexVal x =? x - 55))
      || (((97 <=? x) && (x <=? 102)) && (hexVal x =? x - 87)))%bool = true).
    { apply inset_sweep. vm_compute. reflexivity. }
    intros x H. specialize (Hs x H). unfold hexDigitValue. lia.
  - intros [v H]. assert (Hx : x < 256) by (unfold hexDigitValue in H; lia).
    assert (Hs : forall b, b < 256 -> implb ((48 <=? b) && (b <=? 57) || (65 <=? b) && (b <=? 70) || (97 <=? b) && (b <=? 102)) (IsHex b) = true).
    { apply sweep. vm_compute. reflexivity. }
    specialize (Hs x Hx). destruct (IsHex x); [reflexivity|exfalso].
    assert (E : ((48 <=? x) && (x <=? 57) || (65 <=? x) && (x <=? 70) || (97 <=? x) && (x <=? 102))%bool = true) by (unfold hexDigitValue in H; lia).
    rewrite E in Hs. discriminate.
Qed.
Lemma hexVal_value x v : hexDigitValue x v -> hexVal x = v.
Proof.
  unfold hexDigitValue, hexVal. intros [[H ->]|[[H ->]|[H ->]]].
  - replace ((48 <=? x) && (x <=? 57))%bool with true by lia. reflexivity.
  - replace ((48 <=? x) && (x <=? 57))%bool with false by lia.
    replace ((97 <=? x) && (x <=? 102))%bool with false by lia.
    replace ((65 <=? x) && (x <=? 70))%bool with true by lia. reflexivity.
  - replace ((48 <=? x) && (x <=? 57))%bool with false by lia.
    replace ((97 <=? x) && (x <=? 102))%bool with true by lia. reflexivity.
Qed.
Lemma IsHex_hexVal x : IsHex x = true -> hexDigitValue x (hexVal x).
Proof. intros H. apply IsHex_value in H as [v Hv]. now rewrite (hexVal_value _ _ Hv). Qed.

Lemma escape_byte b : b < 256 ->
  IsHex (upperHex (N.shiftr b 4)) = true /\ IsHex (upperHex b) = true /\
  unescapeToByte (upperHex (N.shiftr b 4)) (upperHex b) = b.
Proof.
  intros Hb.
  assert (Hs : forall b, b < 256 -> (IsHex (upperHex (N.shiftr b 4)) && IsHex (upperHex b) &&
    (unescapeToByte (upperHex (N.shiftr b 4)) (upperHex b) =? b))%bool = true) by (apply sweep; vm_compute; reflexivity).
  specialize (Hs b Hb). apply andb_prop in Hs as [H1 H2]. apply andb_prop in H1 as [H0 H1]. apply N.eqb_eq in H2. auto.
Qed.

(** * The escape loop with enough memory *)
Definition roomy (e : env) (n : N) : Prop := match memend e with None => True | Some m => n <= m end.
Lemma roomy_lt e n k : roomy e n -> k < n -> ltMem e k = true.
Proof. unfold roomy, ltMem. destruct (memend e); [|reflexivity]. intros. lia. Qed.
Lemma roomy_le e n k : roomy e n -> k <= n -> leMem e k = true.
Proof. unfold roomy, leMem. destruct (memend e); [|reflexivity]. intros. lia. Qed.
Lemma roomy_mono e n k : roomy e n -> k <= n -> roomy e k.
Proof. unfold roomy. destruct (memend e); [|trivial]. intros. lia. Qed.
Lemma roomy_fits e n u k : roomy e n -> u + k <= n -> fits e u k = true.
Proof. intros H H1. unfold fits. rewrite (roomy_le e n) by assumption. apply orb_true_r. Qed.

Lemma escLoop_spec cs e : forall r u, roomy e (u + len r + 1) ->
  (exists run tok r', r = run ++ r' /\ Decodes (inset cs) run tok /\ endsRun (inset cs) r' /\ escLoop cs e u r = EStop tok r' /\ len tok <= len run) \/
  (exists run tok r', r = run ++ r' /\ Decodes (inset cs) run tok /\ badEscape (inset cs) r' /\ escLoop cs e u r = EBad r').
Proof.
  intros r. remember (List.length r) as n eqn:En. revert r En.
  induction n as [n IH] using lt_wf_ind. intros r -> u Hroom.
  destruct r as [|v r1]; [left; exists [], [], []; repeat split; auto; try constructor; cbn; lia|].
  cbn [escLoop]. rewrite len_cons in Hroom.
  assert (Hlt : ltMem e u = true) by (eapply roomy_lt; [exact Hroom|lia]).
  destruct (inset cs v) eqn:Ev.
  - rewrite Hlt. assert (Hr1 : roomy e (u + 1 + len r1 + 1)) by (eapply roomy_mono; [exact Hroom|lia]).
    destruct (IH (List.length r1) ltac:(cbn; lia) r1 eq_refl (u + 1) Hr1) as [H|H].
    + destruct H as (run & tok & r' & -> & HD & He & -> & Hl). left. exists (v :: run), (v :: tok), r'. cbn [app escCons].
      repeat split; auto; [constructor; assumption|]. rewrite !len_cons. lia.
    + destruct H as (run & tok & r' & -> & HD & He & ->). right. exists (v :: run), (v :: tok), r'. cbn [app escCons].
      repeat split; auto. constructor; assumption.
  - destruct (N.eqb_spec v 37) as [->|Hne].
    + assert (Hbad : forall r2, badEscape (inset cs) (37 :: r2) ->
        (exists run tok r', 37 :: r2 = run ++ r' /\ Decodes (inset cs) run tok /\ badEscape (inset cs) r' /\ EBad (37 :: r2) = EBad r')).
      { intros r2 H. exists [], [], (37 :: r2). split; [reflexivity|]. split; [constructor|]. split; [exact H|reflexivity]. }
      destruct r1 as [|h1 [|h2 r2]].
      * right. apply Hbad. cbn. auto.
      * right. apply Hbad. cbn. auto.
      * destruct (IsHex h1) eqn:E1; [destruct (IsHex h2) eqn:E2|]; cbn [negb orb].
        -- rewrite Hlt. assert (Hr2 : roomy e (u + 1 + len r2 + 1)) by (eapply roomy_mono; [exact Hroom|rewrite !len_cons; lia]).
           destruct (IH (List.length r2) ltac:(cbn; lia) r2 eq_refl (u + 1) Hr2) as [H|H].
           ++ destruct H as (run & tok & r' & -> & HD & He & -> & Hl). left.
              exists (37 :: h1 :: h2 :: run), (16 * hexVal h1 + hexVal h2 :: tok), r'. cbn [app escCons].
              repeat split; auto; [constructor; auto using IsHex_hexVal| |rewrite !len_cons; lia].
              unfold unescapeToByte. do 2 f_equal. lia.
           ++ destruct H as (run & tok & r' & -> & HD & He & ->). right.
              exists (37 :: h1 :: h2 :: run), (16 * hexVal h1 + hexVal h2 :: tok), r'. cbn [app escCons].
              repeat split; auto. constructor; auto using IsHex_hexVal.
        -- right. apply Hbad. cbn. split; [assumption|]. intros [_ H]. apply IsHex_value in H. congruence.
        -- right. apply Hbad. cbn. split; [assumption|]. intros [H _]. apply IsHex_value in H. congruence.
    + left. exists [], [], (v :: r1). repeat split; auto; try constructor; auto. cbn; lia.
Qed.

Lemma badEscape_head cls x r : badEscape cls (x :: r) -> x = 37.
Proof. cbn. destruct x as [|p]; [contradiction|]. repeat (destruct p as [p|p|]; try contradiction). reflexivity. Qed.
Lemma ends_not_bad cls r : endsRun cls r -> badEscape cls r -> False.
Proof. destruct r as [|x r]; [intros _ H; exact H|]. intros [_ H] Hb. apply badEscape_head in Hb. congruence. Qed.

(** Decoding is deterministic. *)
Lemma Decodes_det cls run tok r' : Decodes cls run tok -> forall run2 tok2 r2,
  run ++ r' = run2 ++ r2 -> Decodes cls run2 tok2 ->
  (endsRun cls r' \/ badEscape cls r') -> (endsRun cls r2 \/ badEscape cls r2) -> run = run2 /\ tok = tok2 /\ r' = r2.
Proof.
  intros HD. induction HD as [|x r t Hx HD IH|h1 h2 v1 v2 r t H37 Hh1 Hh2 HD IH]; intros run2 tok2 r2 Heq HD2 He He2.
  - inversion HD2 as [|x r t Hx Ht E1 E2|h1 h2 v1 v2 r t H37 Hh1 Hh2 Ht E1 E2]; subst; [auto| |]; cbn [app] in Heq; subst r'.
    + exfalso. destruct He as [He|He]; cbn in He; [destruct He; congruence|]. 
      destruct (N.eq_dec x 37) as [->|Hn]; [destruct He; congruence|].
      apply Hn. eapply (badEscape_head cls x (r ++ r2)). exact He.
    + exfalso. destruct He as [He|He]; cbn in He; [destruct He; congruence|]. destruct He as [_ He]. apply He. eauto.
  - inversion HD2 as [E1 E2|x' r0 t0 Hx' Ht E1 E2|h1 h2 v1 v2 r0 t0 H37 Hh1 Hh2 Ht E1 E2]; subst; cbn [app] in Heq.
    + subst r2. exfalso. destruct He2 as [He2|He2]; cbn in He2; [destruct He2; congruence|].
      destruct (N.eq_dec x 37) as [->|Hn]; [destruct He2; congruence|].
      apply Hn. eapply (badEscape_head cls x (r ++ r')). exact He2.
    + injection Heq as -> Heq. destruct (IH _ _ _ Heq Ht He He2) as (-> & -> & ->). auto.
    + injection Heq as E0 Heq. congruence.
  - inversion HD2 as [E1 E2|x' r0 t0 Hx' Ht E1 E2|g1 g2 w1 w2 r0 t0 G37 Gh1 Gh2 Ht E1 E2]; subst; cbn [app] in Heq.
    + subst r2. exfalso. destruct He2 as [He2|He2]; cbn in He2; [destruct He2; congruence|]. destruct He2 as [_ He2]. apply He2. eauto.
    + injection Heq as E0 Heq. congruence.
    + injection Heq as -> -> Heq. destruct (IH _ _ _ Heq Ht He He2) as (-> & -> & ->).
      rewrite <- (hexVal_value _ _ Hh1), <- (hexVal_value _ _ Hh2), <- (hexVal_value _ _ Gh1), <- (hexVal_value _ _ Gh2). auto.
Qed.

Lemma escLoop_EStop cs e u r tok r' : roomy e (u + len r + 1) ->
  escLoop cs e u r = EStop tok r' <-> exists run, r = run ++ r' /\ Decodes (inset cs) run tok /\ endsRun (inset cs) r'.
Proof.
  intros Hr. destruct (escLoop_spec cs e r u Hr) as [(run & t & q & Hq & HD & He & E & _)|(run & t & q & Hq & HD & He & E)]; rewrite E; split.
  - intros [= <- <-]. eauto.
  - intros (run2 & Hq2 & HD2 & He2).
    destruct (Decodes_det _ _ _ q HD run2 tok r') as (_ & -> & ->); auto. now rewrite <- Hq.
  - discriminate.
  - intros (run2 & Hq2 & HD2 & He2).
    destruct (Decodes_det _ _ _ q HD run2 tok r') as (_ & _ & ->); auto; [now rewrite <- Hq|].
    exfalso. eapply ends_not_bad; eauto.
Qed.

(** The escapable parses against the specification (arena large enough for the input). *)
Lemma paEscapable_ok cs e s tok s' : roomy e (used s + 3 + len (rest s)) ->
  paEscapable cs e s = Ok tok s' <->
  exists run, rest s = run ++ rest s' /\ Decodes (inset cs) run tok /\ endsRun (inset cs) (rest s') /\ tok <> [] /\
              used s' = used s + 2 + len tok.
Proof.
  intros Hr. unfold paEscapable. rewrite (roomy_lt e _ _ Hr) by lia. cbn [negb].
  assert (Hr' : roomy e (used s + 2 + len (rest s) + 1)) by (eapply roomy_mono; [exact Hr|lia]).
  destruct (escLoop_spec cs e (rest s) (used s + 2) Hr') as [(run & t & q & Hq & HD & He & E & Hl)|(run & t & q & Hq & HD & He & E)].
  - rewrite E. assert (Ht : len t <= len (rest s)) by (rewrite Hq, len_app; lia).
    destruct t as [|x t].
    + split; [discriminate|]. intros (run2 & H1 & H2 & H3 & H4 & H5). exfalso.
      destruct (Decodes_det _ _ _ q HD run2 tok (rest s')) as (_ & <- & _); auto. now rewrite <- Hq.
    + rewrite (roomy_lt e _ _ Hr) by lia. cbn [negb]. split.
      * intros [= <- <-]. exists run. cbn. repeat split; auto. discriminate.
      * intros (run2 & H1 & H2 & H3 & H4 & H5).
        destruct (Decodes_det _ _ _ q HD run2 tok (rest s')) as (_ & -> & ->); auto; [now rewrite <- Hq|].
        rewrite <- H5. destruct s'; reflexivity.
  - rewrite E. split; [discriminate|]. intros (run2 & H1 & H2 & H3 & H4 & H5). exfalso.
    assert (E2 : escLoop cs e (used s + 2) (rest s) = EStop tok (rest s')) by (apply escLoop_EStop; eauto). congruence.
Qed.
Lemma paEscapableEmpty_ok cs e s tok s' : roomy e (used s + 3 + len (rest s)) ->
  paEscapableEmpty cs e s = Ok tok s' <->
  exists run, rest s = run ++ rest s' /\ Decodes (inset cs) run tok /\ endsRun (inset cs) (rest s') /\
              used s' = used s + 2 + len tok.
Proof.
  intros Hr. unfold paEscapableEmpty. rewrite (roomy_lt e _ _ Hr) by lia. cbn [negb].
  assert (Hr' : roomy e (used s + 2 + len (rest s) + 1)) by (eapply roomy_mono; [exact Hr|lia]).
  destruct (escLoop_spec cs e (rest s) (used s + 2) Hr') as [(run & t & q & Hq & HD & He & E & Hl)|(run & t & q & Hq & HD & He & E)].
  - rewrite E. assert (Ht : len t <= len (rest s)) by (rewrite Hq, len_app; lia).
    rewrite (roomy_lt e _ _ Hr) by lia. cbn [negb]. split.
    + intros [= <- <-]. exists run. cbn. repeat split; auto.
    + intros (run2 & H1 & H2 & H3 & H5).
      destruct (Decodes_det _ _ _ q HD run2 tok (rest s')) as (_ & -> & ->); auto; [now rewrite <- Hq|].
      rewrite <- H5. destruct s'; reflexivity.
  - rewrite E. split; [discriminate|]. intros (run2 & H1 & H2 & H3 & H5). exfalso.
    assert (E2 : escLoop cs e (used s + 2) (rest s) = EStop tok (rest s')) by (apply escLoop_EStop; eauto). congruence.
Qed.
(** They never panic or loop, and fail exactly on a bad escape (or an empty result). *)
Lemma paEscapable_fail cs e s : roomy e (used s + 3 + len (rest s)) ->
  (exists s', paEscapable cs e s = Fail s') <->
  (exists run tok r', rest s = run ++ r' /\ Decodes (inset cs) run tok /\ badEscape (inset cs) r') \/ endsRun (inset cs) (rest s).
Proof.
  intros Hr. unfold paEscapable. rewrite (roomy_lt e _ _ Hr) by lia. cbn [negb].
  assert (Hr' : roomy e (used s + 2 + len (rest s) + 1)) by (eapply roomy_mono; [exact Hr|lia]).
  destruct (escLoop_spec cs e (rest s) (used s + 2) Hr') as [(run & t & q & Hq & HD & He & E & Hl)|(run & t & q & Hq & HD & He & E)].
  - rewrite E. assert (Ht : len t <= len (rest s)) by (rewrite Hq, len_app; lia).
    destruct t as [|x t].
    + split; [|eauto]. intros _. right. inversion HD; subst. rewrite Hq. exact He.
    + rewrite (roomy_lt e _ _ Hr) by lia. cbn [negb]. split; [intros [s' H]; discriminate|].
      intros [(run2 & t2 & q2 & Hq2 & HD2 & He2)|H].
      * exfalso. destruct (Decodes_det _ _ _ q HD run2 t2 q2) as (_ & _ & <-); auto; [now rewrite <- Hq|].
        eapply ends_not_bad; eauto.
      * exfalso. rewrite Hq in H. inversion HD; subst; cbn in H; destruct H; congruence.
  - rewrite E. split; eauto. intros _. left. eauto 6.
Qed.
Lemma paEscapableEmpty_fail cs e s : roomy e (used s + 3 + len (rest s)) ->
  (exists s', paEscapableEmpty cs e s = Fail s') <->
  (exists run tok r', rest s = run ++ r' /\ Decodes (inset cs) run tok /\ badEscape (inset cs) r').
Proof.
  intros Hr. unfold paEscapableEmpty. rewrite (roomy_lt e _ _ Hr) by lia. cbn [negb].
  assert (Hr' : roomy e (used s + 2 + len (rest s) + 1)) by (eapply roomy_mono; [exact Hr|lia]).
  destruct (escLoop_spec cs e (rest s) (used s + 2) Hr') as [(run & t & q & Hq & HD & He & E & Hl)|(run & t & q & Hq & HD & He & E)].
  - rewrite E. assert (Ht : len t <= len (rest s)) by (rewrite Hq, len_app; lia).
    rewrite (roomy_lt e _ _ Hr) by lia. cbn [negb]. split; [intros [s' H]; discriminate|].
    intros (run2 & t2 & q2 & Hq2 & HD2 & He2).
    exfalso. destruct (Decodes_det _ _ _ q HD run2 t2 q2) as (_ & _ & <-); auto; [now rewrite <- Hq|].
    eapply ends_not_bad; eauto.
  - rewrite E. split; eauto. intros _. eauto 6.
Qed.

(** Escaping produces a run that decodes to the original. *)
Lemma escape_decodes cs b : inset cs 37 = false -> allBytes b -> Decodes (inset cs) (escape cs b) b.
Proof.
  intros H37 Hb. induction Hb as [|x b Hx Hb IH]; cbn [escape flat_map]; [constructor|].
  destruct (inset cs x) eqn:E; cbn [app]; [constructor; assumption|].
  destruct (escape_byte x Hx) as (H1 & H2 & H3).
  replace x with (16 * hexVal (upperHex (N.shiftr x 4)) + hexVal (upperHex x)) at 3 by (unfold unescapeToByte in H3; lia).
  constructor; auto using IsHex_hexVal.
Qed.
(** The same for a writer whose class is contained in the reader's. *)
Lemma escape_decodes_sub ws cs b : (forall x, inset ws x = true -> inset cs x = true) -> inset cs 37 = false -> allBytes b -> Decodes (inset cs) (escape ws b) b.
Proof.
  intros Hs H37 Hb. induction Hb as [|x b Hx Hb IH]; cbn [escape flat_map]; [constructor|].
  destruct (inset ws x) eqn:E; cbn [app]; [constructor; auto|].
  destruct (escape_byte x Hx) as (H1 & H2 & H3).
  replace x with (16 * hexVal (upperHex (N.shiftr x 4)) + hexVal (upperHex x)) at 3 by (unfold unescapeToByte in H3; lia).
  constructor; auto using IsHex_hexVal.
Qed.
Lemma escape_nonempty cs b : b <> [] -> escape cs b <> [].
Proof. destruct b as [|x b]; [congruence|]. cbn. intros _. destruct (inset cs x); discriminate. Qed.

Lemma escape_roundtrip cs e b k u : inset cs 37 = false -> allBytes b -> b <> [] -> endsRun (inset cs) k ->
  roomy e (u + 3 + len (escape cs b ++ k)) ->
  paEscapable cs e (mkst (escape cs b ++ k) u) = Ok b (mkst k (u + 2 + len b)).
Proof.
  intros H37 Hb Hne Hk Hr. apply paEscapable_ok; [exact Hr|]. exists (escape cs b). cbn. repeat split; auto using escape_decodes.
Qed.
Lemma escape_roundtrip_empty cs e b k u : inset cs 37 = false -> allBytes b -> endsRun (inset cs) k ->
  roomy e (u + 3 + len (escape cs b ++ k)) ->
  paEscapableEmpty cs e (mkst (escape cs b ++ k) u) = Ok b (mkst k (u + 2 + len b)).
Proof.
  intros H37 Hb Hk Hr. apply paEscapableEmpty_ok; [exact Hr|]. exists (escape cs b). cbn. repeat split; auto using escape_decodes.
Qed.
(** Every class used by a writer of escapes excludes "%". *)
Lemma classes_exclude_percent :
  Forall (fun cs => inset cs 37 = false) [SIP_USER; SIP_PASSWORD; SIP_PNAME; SIP_PVALUE; SIP_HNAME; SIP_HVALUE; SIP_REASON_PHRASE; TEL_PNAME; TEL_PVALUE].
Proof. repeat constructor. Qed.

(** * Case-insensitive comparison *)
Lemma toLower_ascii x : toLower x = asciiLower x. Proof. reflexivity. Qed.
Lemma eqNoCaseTail_spec a : forall b, List.length a = List.length b -> eqNoCaseTail a b = true <-> sameNoCase a b.
Proof.
  unfold sameNoCase. induction a as [|x a IH]; intros [|y b] Hl; try discriminate; [cbn; tauto|].
  cbn [eqNoCaseTail map]. change toLower with asciiLower. cbn [List.length] in Hl. destruct (N.eqb_spec (asciiLower x) (asciiLower y)) as [E|E]; cbn [negb].
  - destruct (IH b) as [I1 I2]; [congruence|]. rewrite E. split; [intros H; f_equal; apply I1; exact H|]. intros H. apply I2. congruence.
  - split; [discriminate|]. intros H. congruence.
Qed.
Lemma eqBytes_spec a : forall b, List.length a = List.length b ->
  List.length (fst (eqBytes a b)) = List.length (snd (eqBytes a b)) /\
  (sameNoCase (fst (eqBytes a b)) (snd (eqBytes a b)) <-> sameNoCase a b).
Proof.
  induction a as [|x a IH]; intros [|y b] Hl; cbn [eqBytes fst snd] in *; try discriminate; [tauto|].
  destruct (N.eqb_spec x y) as [->|Hne]; cbn [negb fst snd]; [|tauto].
  destruct (IH b ltac:(cbn in Hl; congruence)) as [H1 H2]. split; [assumption|]. rewrite H2. unfold sameNoCase. cbn [map].
  split; [intros ->; reflexivity|]. intros H. congruence.
Qed.
Lemma eqWords_spec n : forall a b, List.length a = List.length b ->
  List.length (fst (eqWords n a b)) = List.length (snd (eqWords n a b)) /\
  (sameNoCase (fst (eqWords n a b)) (snd (eqWords n a b)) <-> sameNoCase a b).
Proof.
  induction n as [|n IH]; intros a b Hl; cbn [eqWords]; [cbn; tauto|].
  destruct (beq (firstn 8 a) (firstn 8 b)) eqn:E; [|cbn; tauto].
  apply beq_eq in E. destruct (IH (skipn 8 a) (skipn 8 b)) as [H1 H2]; [rewrite !skipn_length; lia|].
  split; [assumption|]. rewrite H2. unfold sameNoCase.
  rewrite <- (firstn_skipn 8 a) at 2. rewrite <- (firstn_skipn 8 b) at 2. rewrite !map_app, E.
  split; [intros ->; reflexivity|]. apply app_inv_head.
Qed.
Lemma CStringEqualNoCase_spec a name : name <> [] ->
  CStringEqualNoCase a name = Some true <-> sameNoCase a name.
Proof.
  intros Hn. unfold CStringEqualNoCase. destruct (Nat.eqb_spec (List.length name) (List.length a)) as [Hl|Hl]; cbn [negb].
  - destruct name as [|y name]; [congruence|]. set (nm := y :: name) in *. clearbody nm.
    destruct (eqWords_spec (Nat.div (List.length nm) 8) a nm) as [W1 W2]; [congruence|].
    destruct (eqWords _ a nm) as [a1 b1]. cbn [fst snd] in *.
    destruct (eqBytes_spec a1 b1 W1) as [B1 B2]. destruct (eqBytes a1 b1) as [a2 b2]. cbn [fst snd] in *.
    rewrite <- W2, <- B2. rewrite <- (eqNoCaseTail_spec a2 b2 B1). split; [congruence|intros ->; reflexivity].
  - split; [discriminate|]. intros H. exfalso. apply Hl. unfold sameNoCase in H.
    rewrite <- (map_length asciiLower a), H, map_length. reflexivity.
Qed.
Lemma CStringEqualNoCase_total a name : name <> [] -> CStringEqualNoCase a name <> None.
Proof.
  intros Hn. unfold CStringEqualNoCase. destruct (negb _); [discriminate|]. destruct name; [congruence|].
  destruct (eqWords _ _ _) as [a1 b1]. destruct (eqBytes a1 b1). discriminate.
Qed.
Lemma equalNoCase_spec a name : name <> [] -> equalNoCase a name = true <-> sameNoCase a name.
Proof.
  intros Hn. unfold equalNoCase. rewrite <- (CStringEqualNoCase_spec a name Hn).
  pose proof (CStringEqualNoCase_total a name Hn). destruct (CStringEqualNoCase a name) as [b|]; [|congruence].
  split; [intros ->; reflexivity|congruence].
Qed.
Lemma equalNoCase_refl a : a <> [] -> equalNoCase a a = true.
Proof. intros. now apply equalNoCase_spec. Qed.

(** * Visual separators *)
Lemma removeVisual_idem b : removeVisual (removeVisual b) = removeVisual b.
Proof.
  unfold removeVisual. induction b as [|x b IH]; cbn; [reflexivity|].
  destruct (IsTelVisualSperator x) eqn:E; cbn; [assumption|]. rewrite E. cbn. now rewrite IH.
Qed.
Lemma removeVisual_none b : Forall (fun v => IsTelVisualSperator v = false) (removeVisual b).
Proof. apply Forall_forall. intros v H. apply filter_In in H as [_ H]. now apply negb_true_iff in H. Qed.

(** The in-place loop of the byte layer computes the filter and touches nothing outside the string. *)
Lemma visLoop_spec n : forall m rd w, w <= rd ->
  let b := readBytes m rd n in
  let m' := fst (visLoop m rd w n) in
  snd (visLoop m rd w n) = w + len (removeVisual b) /\
  readBytes m' w (List.length (removeVisual b)) = removeVisual b /\
  (forall i, i < w \/ rd + N.of_nat n <= i -> m' i = m i).
Proof.
  induction n as [|n IH]; intros m rd w Hw; cbn [visLoop readBytes removeVisual filter].
  - cbn. repeat split; auto. lia.
  - fold (removeVisual (readBytes m (rd + 1) n)).
    destruct (IsTelVisualSperator (m rd)) eqn:E; cbn [negb].
    + destruct (IH m (rd + 1) w ltac:(lia)) as (H1 & H2 & H3). repeat split; auto. intros i Hi. apply H3. lia.
    + set (m1 := upd m w (m rd)). destruct (IH m1 (rd + 1) (w + 1) ltac:(lia)) as (H1 & H2 & H3).
      assert (Hrd : readBytes m1 (rd + 1) n = readBytes m (rd + 1) n).
      { apply readBytes_ext. intros i Hi. unfold m1. apply upd_other. lia. }
      rewrite Hrd in *. split; [|split].
      * rewrite H1. change (filter (fun v => negb (IsTelVisualSperator v)) (readBytes m (rd + 1) n)) with (removeVisual (readBytes m (rd + 1) n)).
        rewrite len_cons. lia.
      * change (filter (fun v => negb (IsTelVisualSperator v)) (readBytes m (rd + 1) n)) with (removeVisual (readBytes m (rd + 1) n)).
        cbn [List.length readBytes]. f_equal; [|exact H2]. rewrite H3 by lia. apply upd_same.
      * intros i Hi. rewrite H3 by lia. unfold m1. apply upd_other. lia.
Qed.

(** * Quoted strings *)
(** Fuel: whatever the fuel, a result other than QLoop is the same with more fuel. *)
Lemma qLoop_fuel_mono f : forall g e u U r, (f <= g)%nat -> qLoop f e u U r <> QLoop -> qLoop g e u U r = qLoop f e u U r.
Proof.
  induction f as [|f IH]; intros g e u U r Hg Hn; [cbn in Hn; congruence|].
  destruct g as [|g]; [lia|]. cbn [qLoop] in *. destruct r as [|v r1]; [reflexivity|].
  destruct (v =? 34); [reflexivity|]. destruct (IsLwsChar v).
  { destruct (copyLWS e u (v :: r1)) as [[[w r2] [|]]|]; try reflexivity.
    rewrite (IH g); [reflexivity|lia|]. intros E. rewrite E in Hn. apply Hn. reflexivity. }
  destruct (IsSipQuotedText v).
  { destruct (ltMem e u); [|reflexivity]. rewrite (IH g); [reflexivity|lia|]. intros E. rewrite E in Hn. apply Hn. reflexivity. }
  destruct (v =? 92); [|reflexivity]. destruct r1 as [|x r2]; [reflexivity|].
  destruct (leMem e (u + 2)); [|reflexivity]. rewrite (IH g); [reflexivity|lia|]. intros E. rewrite E in Hn. apply Hn. reflexivity.
Qed.
Lemma copyLWS_stuck_mem e u r v : copyLWS e u (v :: r) = Some ([], v :: r, true) ->
  forall f U, (v =? 34) = false -> IsLwsChar v = true -> qLoop f e u U (v :: r) = QLoop.
Proof.
  intros Hc f. revert u Hc. induction f as [|f IH]; intros u Hc U H34 Hl; cbn [qLoop]; [reflexivity|].
  rewrite H34, Hl, Hc. rewrite len_nil, N.add_0_r. now rewrite IH.
Qed.
(** A step of copyLWS either consumes input or is the stuck step. *)
Lemma copyLWS_app e u r w r' ok : copyLWS e u r = Some (w, r', ok) -> exists p, r = p ++ r' /\ List.length p = List.length w.
Proof.
  unfold copyLWS. destruct (span isWsp r) as [w1 r1] eqn:E. apply span_app in E. subst r.
  destruct (fits e u (len w1)); cbn [negb]; [|discriminate].
  destruct r1 as [|x [|y r2]]; try (intros [= <- <- <-]; exists w1; auto).
  destruct ((x =? 13) && (y =? 10))%bool; [|intros [= <- <- <-]; exists w1; auto].
  destruct (fits e (u + len w1) 2); cbn [negb]; [|discriminate].
  assert (H2 : forall q, w1 ++ x :: y :: q = (w1 ++ [x; y]) ++ q) by (intros; rewrite <- app_assoc; reflexivity).
  assert (H3 : List.length (w1 ++ [x; y]) = List.length (w1 ++ [x; x])) by (rewrite !app_length; reflexivity).
  destruct r2 as [|z r2]; [intros [= <- <- <-]; eauto|].
  destruct (isWsp z); cbn [negb]; [|intros [= <- <- <-]; eauto].
  destruct (span isWsp (z :: r2)) as [w2 r3] eqn:E2. apply span_app in E2.
  destruct (fits e _ (len w2)); cbn [negb]; [|discriminate].
  intros [= <- <- <-]. rewrite E2, H2. exists ((w1 ++ [x; y]) ++ w2). rewrite <- !app_assoc. split; [reflexivity|].
  rewrite !app_length. cbn. reflexivity.
Qed.
(** Out of the fuel supplied by [paQuoted] means out of any fuel: [Loop] is real non-termination. *)
Lemma qLoop_diverges : forall f e u U r, (List.length r < f)%nat -> qLoop f e u U r = QLoop -> forall g, qLoop g e u U r = QLoop.
Proof.
  induction f as [|f IH]; intros e u U r Hf Hq g; [lia|]. destruct g as [|g]; [reflexivity|].
  cbn [qLoop] in *. destruct r as [|v r1]; [discriminate|]. cbn [List.length] in Hf.
  destruct (v =? 34) eqn:E34; [discriminate|]. destruct (IsLwsChar v) eqn:El.
  { destruct (copyLWS e u (v :: r1)) as [[[w r2] [|]]|] eqn:C; try discriminate.
    destruct (copyLWS_app _ _ _ _ _ _ C) as (p & Hp & Hlp). destruct p as [|y p].
    - destruct w; [|discriminate]. cbn [app] in Hp. subst r2. rewrite len_nil, N.add_0_r.
      now rewrite (copyLWS_stuck_mem e u r1 v C g u E34 El).
    - assert (Hl2 : (List.length r2 < f)%nat).
      { apply (f_equal (@List.length N)) in Hp. rewrite app_length in Hp. cbn in Hp. lia. }
      destruct (qLoop f e (u + len w) (u + len w) r2) eqn:Q; try discriminate.
      now rewrite (IH _ _ _ _ Hl2 Q g). }
  destruct (IsSipQuotedText v).
  { destruct (ltMem e u); [|discriminate]. destruct (qLoop f e (u + 1) U r1) eqn:Q; try discriminate.
    rewrite (fun H => IH e (u + 1) U r1 H Q g); [reflexivity|lia]. }
  destruct (v =? 92); [|discriminate]. destruct r1 as [|x r2]; [discriminate|].
  destruct (leMem e (u + 2)); [|discriminate]. cbn [List.length] in Hf.
  destruct (qLoop f e (u + 2) U r2) eqn:Q; try discriminate.
  rewrite (fun H => IH e (u + 2) U r2 H Q g); [reflexivity|lia].
Qed.

(** Bodies without line breaks are kept byte for byte. *)
Lemma isWsp_props x : isWsp x = true -> (x =? 34) = false /\ IsLwsChar x = true /\ IsSipQuotedText x = IsSipQuotedText x.
Proof. unfold isWsp. intros H. assert (x = 32 \/ x = 9) as [->| ->] by lia; vm_compute; auto. Qed.
(** qdtext as accepted by the loop: the class minus the white-space and line-break bytes, which are looked at first. *)
Definition plainQd (x : N) : bool := IsSipQuotedText x && negb (IsLwsChar x).
Lemma qdtext_props x : plainQd x = true -> (x =? 34) = false /\ IsLwsChar x = false /\ IsSipQuotedText x = true.
Proof.
  unfold plainQd. intros H. apply andb_prop in H as [H H2]. apply negb_true_iff in H2.
  assert (Hs : forall b, inset SIP_QUOTED_TEXT b = true -> negb (b =? 34) = true).
  { apply inset_sweep. vm_compute. reflexivity. }
  specialize (Hs x H). apply negb_true_iff in Hs. auto.
Qed.

Lemma qLoop_body e : forall f b k u U, QuotedBody plainQd isWsp b -> (List.length b < f)%nat ->
  roomy e (u + len b) ->
  qLoop f e u U (b ++ 34 :: k) = QOk b k.
Proof.
  induction f as [|f IH]; intros b k u U HB Hf Hr; [lia|].
  (* a run of white space at the front is copied by one step *)
  assert (Hws : forall w b', forallb isWsp w = true -> stops isWsp (b' ++ 34 :: k) = true -> b = w ++ b' -> w <> [] -> QuotedBody plainQd isWsp b' ->
     qLoop (S f) e u U (b ++ 34 :: k) = QOk b k).
  { intros w b' Hw Hst -> Hne HB'. destruct w as [|x w]; [congruence|].
    assert (Hx : isWsp x = true) by (cbn in Hw; apply andb_prop in Hw; tauto).
    destruct (isWsp_props x Hx) as (H34 & Hl & _).
    cbn [app qLoop]. rewrite H34, Hl.
    assert (C : copyLWS e u (x :: (w ++ b') ++ 34 :: k) = Some (x :: w, b' ++ 34 :: k, true)).
    { unfold copyLWS. replace (x :: (w ++ b') ++ 34 :: k) with ((x :: w) ++ (b' ++ 34 :: k)) by (rewrite <- app_assoc; reflexivity).
      rewrite (span_exact isWsp (x :: w) (b' ++ 34 :: k) Hw Hst).
      rewrite (roomy_fits e _ _ _ Hr) by (rewrite len_app; lia). cbn [negb].
      destruct b' as [|y b']; cbn [app].
      - destruct k; reflexivity.
      - destruct (N.eqb_spec y 13) as [->|Hy].
        + exfalso. inversion HB' as [|? ? Hq|? ? Hq|]; subst; vm_compute in Hq; discriminate.
        + cbn [andb]. destruct (b' ++ 34 :: k); reflexivity. }
    rewrite C. rewrite IH; [reflexivity| | |].
    - exact HB'.
    - rewrite app_length in Hf. cbn in Hf. lia.
    - eapply roomy_mono; [exact Hr|]. rewrite len_app. lia. }
  (* split off the leading white space *)
  destruct (span isWsp b) as [w b'] eqn:Es.
  pose proof (span_app _ _ _ _ Es) as Eb. pose proof (span_all _ _ _ _ Es) as Ew. pose proof (span_stops _ _ _ _ Es) as Est.
  destruct w as [|x w].
  - cbn in Eb. subst b'. clear Hws Ew. destruct b as [|v b]; cbn [app].
    + cbn. reflexivity.
    + cbn in Est. apply negb_true_iff in Est.
      inversion HB as [|? ? Hq HB'|? ? Hq HB'|x ? HB']; subst.
      * destruct (qdtext_props _ Hq) as (H34 & Hl & Hq').
        cbn [qLoop]. rewrite H34, Hl, Hq'. rewrite len_cons in Hr. rewrite (roomy_lt e _ _ Hr) by lia.
        rewrite IH; [reflexivity|assumption|cbn in Hf; lia|eapply roomy_mono; [exact Hr|lia]].
      * congruence.
      * cbn [qLoop app]. change (92 =? 34) with false. change (IsLwsChar 92) with false. change (IsSipQuotedText 92) with false. change (92 =? 92) with true. cbn iota.
        rewrite !len_cons in Hr. rewrite (roomy_le e _ _ Hr) by lia.
        rewrite IH; [reflexivity|assumption|cbn in Hf; lia|eapply roomy_mono; [exact Hr|lia]].
  - apply (Hws (x :: w) b'); auto.
    + destruct b' as [|y b']; cbn in *; [reflexivity|assumption].
    + discriminate.
    + (* the tail is still a body *)
      subst b. clear -HB Ew. remember (x :: w) as l eqn:El. clear El x w. induction l as [|y l IHl]; cbn in *; [assumption|].
      apply andb_prop in Ew as [Hy Hl]. apply IHl; [|assumption]. inversion HB; subst; auto.
      exfalso. vm_compute in Hy. discriminate.
Qed.
Lemma paQuoted_body e b k u : QuotedBody plainQd isWsp b -> roomy e (u + 2 + len b) ->
  paQuoted e (mkst (34 :: b ++ 34 :: k) u) = Ok b (mkst k (u + 2 + len b)).
Proof.
  intros HB Hr. unfold paQuoted. cbn [rest used].
  assert (E : ParseSWS_2 (34 :: b ++ 34 :: k) = 34 :: b ++ 34 :: k).
  { apply ParseSWS_noop. vm_compute. reflexivity. }
  rewrite E. change (34 =? 34) with true. cbn [negb].
  assert (Hq : forall f, (List.length b < f)%nat -> qLoop f e (u + 2) u (b ++ 34 :: k) = QOk b k).
  { intros f Hf. apply qLoop_body; auto. }
  rewrite Hq by (rewrite app_length; cbn; lia).
  rewrite (roomy_le e _ _ Hr) by lia. reflexivity.
Qed.
(** What a successful quoted string can contain besides: a folded line, and then it is not preserved. *)
Lemma paQuoted_fold_changes : exists src tok s, paQuoted (defaultEnv None) (mkst src 8) = Ok tok s /\
  src = s2b """a" ++ [13; 10] ++ s2b " b""" /\ tok = s2b "a" ++ [13; 13] ++ s2b " b".
Proof. eexists _, _, _. split; [|split; reflexivity]. vm_compute. reflexivity. Qed.
Lemma paQuoted_diverges : forall e s r, rest s = 34 :: 10 :: r -> paQuoted e s = Loop /\
  forall fuel u U, qLoop fuel e u U (10 :: r) = QLoop.
Proof.
  intros e s r Hr.
  assert (Hd : forall fuel u U, qLoop fuel e u U (10 :: r) = QLoop).
  { intros fuel u U. apply copyLWS_stuck_mem; [|reflexivity|vm_compute; reflexivity].
    unfold copyLWS. cbn [span]. change (isWsp 10) with false. cbn iota. change (fits e u (len [])) with true. cbn [negb].
    destruct r; reflexivity. }
  split; [|exact Hd]. unfold paQuoted. rewrite Hr.
  assert (E : ParseSWS_2 (34 :: 10 :: r) = 34 :: 10 :: r).
  { apply ParseSWS_noop. vm_compute. reflexivity. }
  rewrite E. change (34 =? 34) with true. cbn [negb]. now rewrite Hd.
Qed.
