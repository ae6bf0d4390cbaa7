(** Exact outcomes of the string-storing parses, also when memory runs short (C08, C10, C11). *)
From Verif Require Import Base Charset BaseLemmas Lws LwsProofs Str StrSpec StrProofs Num Arena ArenaProofs ArenaOps ArenaOpsProofs ArenaTop.

Lemma FreePart_exact n a : 8 <= aused a -> aused a < two32 - 8 ->
  Used (FreePart n a) = (if n <? Used a + 8 then n else Used a) /\ mem (FreePart n a) = mem a /\ Capacity (FreePart n a) = Capacity a.
Proof.
  intros H1 H2. assert (HU : Used a = aused a - 8).
  { unfold Used, PREFIX_LEN. apply u32_diff; unfold two32 in *; lia. }
  rewrite HU. unfold FreePart. destruct (N.leb_spec (aused a) n) as [Hle|Hlt].
  - replace (n <? aused a - 8 + 8) with false by lia. unfold Used, Capacity. cbn [aused mem cap]. repeat split.
    unfold PREFIX_LEN. apply u32_diff; unfold two32 in *; lia.
  - replace (n <? aused a - 8 + 8) with true by lia. rewrite (u32_small (n + PREFIX_LEN)) by (unfold PREFIX_LEN, two32 in *; lia).
    replace (n + PREFIX_LEN <? PREFIX_LEN) with false by (unfold PREFIX_LEN; lia).
    unfold Used, Capacity. cbn [aused mem cap]. repeat split. apply u32_diff; unfold PREFIX_LEN, two32 in *; lia.
Qed.

(** What the escapable loop can end with, for any amount of memory. *)
Lemma escLoop_cases cs e c : memend e = Some c -> forall n r u, u <= c -> (List.length r <= n)%nat ->
  match escLoop cs e u r with
  | EStop tok r' => exists run, r = run ++ r' /\ Decodes (inset cs) run tok /\ endsRun (inset cs) r'
  | EBad r' => exists run tok, r = run ++ r' /\ Decodes (inset cs) run tok /\ badEscape (inset cs) r'
  | ENoMem => exists run tok h1 h2 r', r = run ++ 37 :: h1 :: h2 :: r' /\ Decodes (inset cs) run tok /\ inset cs 37 = false /\
      (exists v, hexDigitValue h1 v) /\ (exists v, hexDigitValue h2 v) /\ u + len tok = c
  | EPanic => exists run tok v r', r = run ++ v :: r' /\ Decodes (inset cs) run tok /\ inset cs v = true /\ u + len tok = c
  end.
Proof.
  intros He. induction n as [|n IH]; intros r u Huc Hn.
  { destruct r; [|cbn in Hn; lia]. cbn. exists []. repeat split. constructor. }
  destruct r as [|v r1]; cbn [escLoop]. { exists []. repeat split. constructor. }
  cbn in Hn. destruct (inset cs v) eqn:Hv.
  - assert (HltM : ltMem e u = (u <? c)) by (unfold ltMem; now rewrite He). rewrite HltM. destruct (N.ltb_spec u c) as [Hu|Hu].
    + specialize (IH r1 (u + 1) ltac:(lia) ltac:(lia)). destruct (escLoop cs e (u + 1) r1) as [tok r'|r'| |]; cbn [escCons].
      * destruct IH as (run & -> & D & En). exists (v :: run). repeat split; auto. now constructor.
      * destruct IH as (run & tok & -> & D & En). exists (v :: run), (v :: tok). repeat split; auto. now constructor.
      * destruct IH as (run & tok & h1 & h2 & r' & -> & D & H1 & H2 & H3 & H4). exists (v :: run), (v :: tok), h1, h2, r'.
        split; [reflexivity|]. split; [now constructor|]. split; [exact H1|]. split; [exact H2|]. split; [exact H3|].
        rewrite len_cons. lia.
      * destruct IH as (run & tok & v' & r' & -> & D & H1 & H4). exists (v :: run), (v :: tok), v', r'.
        split; [reflexivity|]. split; [now constructor|]. split; [exact H1|].
        rewrite len_cons. lia.
    + exists [], [], v, r1. split; [reflexivity|]. split; [constructor|]. split; [exact Hv|]. cbn. lia.
  - destruct (N.eqb_spec v 37) as [->|Hne].
    + destruct r1 as [|h1 [|h2 r2]].
      * exists [], []. repeat split; auto. constructor.
      * exists [], []. repeat split; auto. constructor.
      * destruct (IsHex h1) eqn:E1; cbn [negb orb].
        2:{ exists [], []. repeat split; auto; [constructor|]. intros [Hx _]. apply IsHex_value in Hx. congruence. }
        destruct (IsHex h2) eqn:E2; cbn [negb].
        2:{ exists [], []. repeat split; auto; [constructor|]. intros [_ Hx]. apply IsHex_value in Hx. congruence. }
        assert (HltM : ltMem e u = (u <? c)) by (unfold ltMem; now rewrite He). rewrite HltM. destruct (N.ltb_spec u c) as [Hu|Hu].
        2:{ exists [], [], h1, h2, r2. split; [reflexivity|]. split; [constructor|]. split; [exact Hv|].
            split; [now apply IsHex_value|]. split; [now apply IsHex_value|]. cbn. lia. }
        cbn in Hn. specialize (IH r2 (u + 1) ltac:(lia) ltac:(lia)).
        assert (Hdec : forall run tok, Decodes (inset cs) run tok -> Decodes (inset cs) (37 :: h1 :: h2 :: run) (unescapeToByte h1 h2 :: tok)).
        { intros run tok D. unfold unescapeToByte. rewrite (N.mul_comm (hexVal h1)). constructor; auto using IsHex_hexVal. }
        destruct (escLoop cs e (u + 1) r2) as [tok r'|r'| |]; cbn [escCons].
        -- destruct IH as (run & -> & D & En). exists (37 :: h1 :: h2 :: run). repeat split; auto.
        -- destruct IH as (run & tok & -> & D & En). exists (37 :: h1 :: h2 :: run), (unescapeToByte h1 h2 :: tok). split; [reflexivity|]. split; [now apply Hdec|exact En].
        -- destruct IH as (run & tok & g1 & g2 & r' & -> & D & H1 & H2 & H3 & H4).
           exists (37 :: h1 :: h2 :: run), (unescapeToByte h1 h2 :: tok), g1, g2, r'.
           split; [reflexivity|]. split; [now apply Hdec|]. split; [exact H1|]. split; [exact H2|]. split; [exact H3|].
           rewrite len_cons. lia.
        -- destruct IH as (run & tok & v' & r' & -> & D & H1 & H4). exists (37 :: h1 :: h2 :: run), (unescapeToByte h1 h2 :: tok), v', r'.
           split; [reflexivity|]. split; [now apply Hdec|]. split; [exact H1|].
           rewrite len_cons. lia.
    + exists []. repeat split; auto. constructor.
Qed.

(** Conversely: with [c] the end of memory, the loop gets through a prefix that fits. *)
Lemma escLoop_prefix cs e c : memend e = Some c -> forall run tok, Decodes (inset cs) run tok -> forall u k, u + len tok <= c ->
  match escLoop cs e (u + len tok) k with
  | EStop t r' => escLoop cs e u (run ++ k) = EStop (tok ++ t) r'
  | o => escLoop cs e u (run ++ k) = o
  end.
Proof.
  intros He run tok D. induction D as [|x r t Hx D IH|h1 h2 v1 v2 r t H37 Hh1 Hh2 D IH]; intros u k Hle.
  - cbn [len List.length N.of_nat app]. rewrite N.add_0_r. now destruct (escLoop cs e u k).
  - cbn [app escLoop]. rewrite Hx. rewrite len_cons in *. unfold ltMem. rewrite He. replace (u <? c) with true by lia.
    specialize (IH (u + 1) k ltac:(lia)). replace (u + (len t + 1)) with (u + 1 + len t) by lia.
    destruct (escLoop cs e (u + 1 + len t) k); rewrite IH; reflexivity.
  - cbn [app escLoop]. rewrite H37. change (37 =? 37) with true. cbn iota.
    assert (IsHex h1 = true) as -> by (apply IsHex_value; eauto). assert (IsHex h2 = true) as -> by (apply IsHex_value; eauto). cbn [negb orb].
    rewrite len_cons in *. unfold ltMem. rewrite He. replace (u <? c) with true by lia.
    specialize (IH (u + 1) k ltac:(lia)). replace (u + (len t + 1)) with (u + 1 + len t) by lia.
    assert (unescapeToByte h1 h2 = 16 * v1 + v2) as -> by (unfold unescapeToByte; rewrite (hexVal_value _ _ Hh1), (hexVal_value _ _ Hh2); lia).
    destruct (escLoop cs e (u + 1 + len t) k); rewrite IH; reflexivity.
Qed.

Lemma Escapable_fail_pos a cs r a' r' : cap a < two32 ->
  ParseAndAllocCStringEscapable cs a r = AFail a' r' \/ ParseAndAllocCStringEscapableEnableEmpty cs a r = AFail a' r' ->
  aused a' = aused a /\ agreeBelow (mem a) (mem a') (aused a) /\
  (r' = r \/ exists run tok, r = run ++ r' /\ Decodes (inset cs) run tok /\ badEscape (inset cs) r').
Proof.
  intros Hc [E|E].
  - pose proof (refine_Escapable (envOf a) a (envOf_cap a) Hc cs r) as R. rewrite E in R.
    pose proof R as R0. apply refines_fail_used in R0 as (H1 & H2 & _). split; [exact H1|]. split; [exact H2|].
    destruct (paEscapable cs (envOf a) (mkst r (aused a))) as [?|s| |] eqn:Ev; try contradiction. destruct R as (<- & _).
    unfold paEscapable in Ev. cbn [used rest] in Ev. destruct (ltMem _ _) eqn:Hl; cbn [negb] in Ev; [|injection Ev as <-; now left].
    unfold ltMem in Hl; cbn [memend envOf defaultEnv] in Hl. pose proof (escLoop_cases cs (envOf a) (cap a) eq_refl _ r (aused a + 2) ltac:(lia) (le_n _)) as C. destruct (escLoop _ _ _ r) as [tok q|q| |].
    + destruct tok; [injection Ev as <-; now left|]. destruct (negb _); [injection Ev as <-; now left|discriminate].
    + injection Ev as <-. right. exact C.
    + injection Ev as <-. now left.
    + discriminate.
  - pose proof (refine_EscapableEmpty (envOf a) a (envOf_cap a) Hc cs r) as R. rewrite E in R.
    pose proof R as R0. apply refines_fail_used in R0 as (H1 & H2 & _). split; [exact H1|]. split; [exact H2|].
    destruct (paEscapableEmpty cs (envOf a) (mkst r (aused a))) as [?|s| |] eqn:Ev; try contradiction. destruct R as (<- & _).
    unfold paEscapableEmpty in Ev. cbn [used rest] in Ev. destruct (ltMem _ _) eqn:Hl; cbn [negb] in Ev; [|injection Ev as <-; now left].
    unfold ltMem in Hl; cbn [memend envOf defaultEnv] in Hl. pose proof (escLoop_cases cs (envOf a) (cap a) eq_refl _ r (aused a + 2) ltac:(lia) (le_n _)) as C. destruct (escLoop _ _ _ r) as [tok q|q| |].
    + destruct (negb _); [injection Ev as <-; now left|discriminate].
    + injection Ev as <-. right. exact C.
    + injection Ev as <-. now left.
    + discriminate.
Qed.

Lemma Tel_fail_pos a cs r a' r' : cap a < two32 -> ParseAndAllocTelNumber cs a r = AFail a' r' ->
  aused a' = aused a /\ agreeBelow (mem a) (mem a') (aused a) /\
  (r' = r \/ exists plus run, r = plus ++ run ++ r' /\ (plus = [] \/ plus = [43]) /\ maximalRun cs (run ++ r') run r').
Proof.
  intros Hc E. pose proof (refine_TelNumber (envOf a) a (envOf_cap a) Hc cs r) as R. rewrite E in R.
  pose proof R as R0. apply refines_fail_used in R0 as (H1 & H2 & _). split; [exact H1|]. split; [exact H2|].
  destruct (paTelNumber cs (envOf a) (mkst r (aused a))) as [?|s| |] eqn:Ev; try contradiction. destruct R as (<- & _).
  unfold paTelNumber in Ev. cbn [used rest] in Ev. destruct (negb _); [injection Ev as <-; now left|].
  set (pv := match r with x :: r0 => if x =? 43 then ([43], r0) else ([], r) | [] => ([], r) end) in *.
  assert (Hpv : r = fst pv ++ snd pv /\ (fst pv = [] \/ fst pv = [43])).
  { subst pv. destruct r as [|x r0]; [auto|]. destruct (N.eqb_spec x 43) as [->|]; auto. }
  destruct pv as [plus r0]. cbn [fst snd] in Hpv. destruct Hpv as [-> Hplus].
  destruct (span (inset cs) r0) as [run q] eqn:Es. pose proof (span_app _ _ _ _ Es) as ->.
  right. exists plus, run. apply maximalRun_span in Es.
  destruct (negb (fits _ _ _)); [discriminate|]. destruct (filter _ run) as [|y num].
  - injection Ev as <-. auto.
  - destruct (negb (ltMem _ _)); [|discriminate]. injection Ev as <-. auto.
Qed.

Lemma Quoted_fail_frame a r a' r' : cap a < two32 -> aused a <= cap a -> ParseAndAllocSipQuotedString a r = AFail a' r' ->
  aused a <= aused a' <= cap a /\ agreeBelow (mem a) (mem a') (aused a).
Proof.
  intros Hc Hu E. pose proof (refine_Quoted (envOf a) a (envOf_cap a) Hc r) as R. rewrite E in R.
  destruct (paQuoted (envOf a) (mkst r (aused a))); cbn in R; try contradiction. destruct R as (_ & _ & _ & H1 & H2 & _ & H3). auto.
Qed.

(** * Exact outcomes by room *)
Definition isOk (x : ares) : Prop := match x with AOk _ _ _ => True | _ => False end.
Definition isFail (x : ares) : Prop := match x with AFail _ _ => True | _ => False end.
Lemma refines_ok ato a x v : refines ato a x v -> (isOk x <-> exists t s, v = Ok t s) /\ (isFail x <-> exists s, v = Fail s) /\ (x = APanic <-> v = Panic) /\ (x = ALoop <-> v = Loop).
Proof.
  destruct x, v; cbn; intros R; try contradiction; repeat split; intros; try discriminate; try tauto; eauto;
  repeat match goal with H : exists _, _ |- _ => destruct H end; discriminate.
Qed.

Ltac outc := repeat match goal with
  | |- _ /\ _ => split
  | |- _ <-> _ => split
  | |- _ -> _ => intro
  | H : exists _, _ |- _ => destruct H
  | H : _ /\ _ |- _ => destruct H
  | H : _ \/ _ |- _ => destruct H
  end; try discriminate; try lia; try congruence; eauto.
Lemma CString_outcome a cs r tok r' : cap a < two32 -> maximalRun cs r tok r' ->
  (isOk (ParseAndAllocCString cs a r) <-> tok <> [] /\ aused a + 2 + len tok < cap a) /\
  (ParseAndAllocCString cs a r = APanic <-> aused a + 2 < cap a /\ cap a < aused a + 2 + len tok) /\
  (isFail (ParseAndAllocCString cs a r) <-> cap a <= aused a + 2 \/ tok = [] \/ cap a = aused a + 2 + len tok).
Proof.
  intros Hc Hm. pose proof (refine_CString (envOf a) a (envOf_cap a) Hc cs r) as R. apply maximalRun_span in Hm.
  apply refines_ok in R as (R1 & R2 & R3 & _). rewrite R1, R2, R3. unfold paCString. cbn [used rest]. rewrite Hm.
  unfold envOf, ltMem, fits, leMem. cbn [memend defaultEnv].
  destruct (N.ltb_spec (aused a + 2) (cap a)); cbn [negb]; [|outc].
  destruct tok as [|x tok].
  { change (len []) with 0. change (0 =? 0) with true. cbn [orb negb]. outc. }
  destruct (N.eqb_spec (len (x :: tok)) 0) as [E|_]; [rewrite len_cons in E; lia|]. cbn [orb].
  destruct (N.leb_spec (aused a + 2 + len (x :: tok)) (cap a)); cbn [negb]; [|outc].
  destruct (N.ltb_spec (aused a + 2 + len (x :: tok)) (cap a)); cbn [negb]; outc.
Qed.
Lemma CStringEmpty_outcome a cs r tok r' : cap a < two32 -> maximalRun cs r tok r' ->
  (isOk (ParseAndAllocCStringEnableEmpty cs a r) <-> aused a + 2 + len tok < cap a) /\
  (ParseAndAllocCStringEnableEmpty cs a r = APanic <-> aused a + 2 < cap a /\ cap a < aused a + 2 + len tok) /\
  (isFail (ParseAndAllocCStringEnableEmpty cs a r) <-> cap a <= aused a + 2 \/ cap a = aused a + 2 + len tok).
Proof.
  intros Hc Hm. pose proof (refine_CStringEmpty (envOf a) a (envOf_cap a) Hc cs r) as R. apply maximalRun_span in Hm.
  apply refines_ok in R as (R1 & R2 & R3 & _). rewrite R1, R2, R3. unfold paCStringEmpty. cbn [used rest]. rewrite Hm.
  unfold envOf, ltMem, fits, leMem. cbn [memend defaultEnv].
  destruct (N.ltb_spec (aused a + 2) (cap a)); cbn [negb]; [|outc].
  destruct (N.eqb_spec (len tok) 0) as [E|E]; cbn [orb negb].
  { rewrite E, N.add_0_r. replace (aused a + 2 <? cap a) with true by lia. cbn [negb]. outc. }
  destruct (N.leb_spec (aused a + 2 + len tok) (cap a)); cbn [negb]; [|outc].
  destruct (N.ltb_spec (aused a + 2 + len tok) (cap a)); cbn [negb]; outc.
Qed.

Lemma Tel_panics_iff a cs r plus run r' : cap a < two32 -> r = plus ++ run ++ r' -> (plus = [43] \/ plus = [] /\ match run ++ r' with x :: _ => x <> 43 | [] => True end) ->
  maximalRun cs (run ++ r') run r' ->
  ParseAndAllocTelNumber cs a r = APanic <-> aused a + 2 < cap a /\ cap a < aused a + 2 + len (plus ++ removeVisual run).
Proof.
  intros Hc Er Hp Hm. pose proof (refine_TelNumber (envOf a) a (envOf_cap a) Hc cs r) as R. apply maximalRun_span in Hm.
  apply refines_ok in R as (_ & _ & R3 & _). rewrite R3.
  assert (Ep : paTelNumber cs (envOf a) (mkst r (aused a)) =
    (if negb (ltMem (envOf a) (aused a + 2)) then Fail (mkst r (aused a)) else
     if negb (fits (envOf a) (aused a + 2) (len (plus ++ removeVisual run))) then Panic else
     match removeVisual run with [] => Fail (mkst r' (aused a))
     | _ => if negb (ltMem (envOf a) (aused a + 2 + len (plus ++ removeVisual run))) then Fail (mkst r' (aused a)) else Ok (plus ++ removeVisual run) (mkst r' (aused a + 2 + len (plus ++ removeVisual run))) end)).
  { unfold paTelNumber. cbn [used rest]. destruct Hp as [->|[-> H]]; subst r.
    - cbn [app]. change (43 =? 43) with true. cbn iota. rewrite Hm. reflexivity.
    - cbn [app]. destruct (run ++ r') as [|x q] eqn:Eq.
      + rewrite Hm. reflexivity.
      + destruct (N.eqb_spec x 43); [contradiction|]. rewrite Hm. reflexivity. }
  rewrite Ep. unfold envOf, ltMem, fits, leMem. cbn [memend defaultEnv].
  destruct (N.ltb_spec (aused a + 2) (cap a)); cbn [negb]; [|split; [discriminate|lia]].
  destruct (N.eqb_spec (len (plus ++ removeVisual run)) 0) as [E|E]; cbn [orb negb].
  { split; [|lia]. destruct (removeVisual run); [discriminate|]. destruct (negb (_ <? _)); intros Hx; discriminate Hx. }
  destruct (N.leb_spec (aused a + 2 + len (plus ++ removeVisual run)) (cap a)); cbn [negb].
  - split; [|lia]. destruct (removeVisual run); [discriminate|]. destruct (negb (_ <? _)); intros Hx; discriminate Hx.
  - split; [lia|reflexivity].
Qed.

Lemma Escapable_panics_iff a cs r : cap a < two32 ->
  (ParseAndAllocCStringEscapable cs a r = APanic <->
   exists run tok v r', r = run ++ v :: r' /\ Decodes (inset cs) run tok /\ inset cs v = true /\ tok <> [] /\ cap a = aused a + 2 + len tok) /\
  (ParseAndAllocCStringEscapableEnableEmpty cs a r = APanic <->
   exists run tok v r', r = run ++ v :: r' /\ Decodes (inset cs) run tok /\ inset cs v = true /\ tok <> [] /\ cap a = aused a + 2 + len tok).
Proof.
  intros Hc. pose proof (refine_Escapable (envOf a) a (envOf_cap a) Hc cs r) as R. pose proof (refine_EscapableEmpty (envOf a) a (envOf_cap a) Hc cs r) as R'.
  apply refines_ok in R as (_ & _ & R3 & _). apply refines_ok in R' as (_ & _ & R3' & _). rewrite R3, R3'.
  unfold paEscapable, paEscapableEmpty. cbn [used rest].
  assert (K : aused a + 2 < cap a -> (escLoop cs (envOf a) (aused a + 2) r = EPanic <->
     exists run tok v r', r = run ++ v :: r' /\ Decodes (inset cs) run tok /\ inset cs v = true /\ tok <> [] /\ cap a = aused a + 2 + len tok)).
  { intros Hlt. split.
    - intros E. pose proof (escLoop_cases cs (envOf a) (cap a) eq_refl _ r (aused a + 2) ltac:(lia) (le_n _)) as C. rewrite E in C.
      destruct C as (run & tok & v & r' & -> & D & Hv & Hm). exists run, tok, v, r'. repeat split; auto. intros ->. cbn in Hm. lia.
    - intros (run & tok & v & r' & -> & D & Hv & Hne & Heq).
      pose proof (escLoop_prefix cs (envOf a) (cap a) eq_refl run tok D (aused a + 2) (v :: r') ltac:(lia)) as Q.
      cbn [escLoop] in Q. rewrite Hv in Q. unfold ltMem at 1 in Q. cbn [memend envOf defaultEnv] in Q.
      replace (aused a + 2 + len tok <? cap a) with false in Q by lia. exact Q. }
  change (ltMem (envOf a) (aused a + 2)) with (aused a + 2 <? cap a).
  destruct (N.ltb_spec (aused a + 2) (cap a)) as [Hlt|Hge]; cbn [negb].
  - rewrite <- (K Hlt). clear. split; (split; [|intros ->; reflexivity]); destruct (escLoop _ _ _ r) as [t q|q| |]; try discriminate; try reflexivity;
    [destruct t; [discriminate|]|]; destruct (negb _); discriminate.
  - split; (split; [discriminate|]); intros (run & tok & v & r' & _ & _ & _ & Hne & Heq); destruct tok; try congruence; rewrite len_cons in Heq; lia.
Qed.

(** Reading back, for any amount of memory. *)
Lemma Escapable_reads a cs r p a' r' : cap a < two16 ->
  ParseAndAllocCStringEscapable cs a r = AOk p a' r' ->
  exists run tok, r = run ++ r' /\ Decodes (inset cs) run tok /\ endsRun (inset cs) r' /\ tok <> [] /\
    readCString a' p = Some tok /\ aused a' = aused a + 2 + len tok.
Proof.
  intros Hc E. pose proof (refine_Escapable (envOf a) a (envOf_cap a) ltac:(unfold two16, two32 in *; lia) cs r) as R. rewrite E in R.
  destruct (refines_read _ _ _ _ _ _ Hc R) as (tok & s & Ev & H1 & H2 & H3 & H4 & H5).
  unfold paEscapable in Ev. cbn [used rest] in Ev. destruct (ltMem _ _) eqn:Hl; cbn [negb] in Ev; [|discriminate].
  unfold ltMem in Hl; cbn [memend envOf defaultEnv] in Hl. pose proof (escLoop_cases cs (envOf a) (cap a) eq_refl _ r (aused a + 2) ltac:(lia) (le_n _)) as C.
  destruct (escLoop _ _ _ r) as [t q|q| |]; try discriminate. destruct t as [|x t]; [discriminate|]. destruct (ltMem (envOf a) (aused a + 2 + len (x :: t))) eqn:Hl2; cbn [negb] in Ev; [|discriminate].
  injection Ev as <- <-. cbn [rest] in H1. subst q. destruct C as (run & E1 & D & En). exists run, (x :: t).
  split; [exact E1|]. split; [exact D|]. split; [exact En|]. split; [discriminate|]. split; [|exact H3]. apply H4.
  unfold ltMem in Hl2; cbn [memend envOf defaultEnv] in Hl2. lia.
Qed.
Lemma EscapableEmpty_reads a cs r p a' r' : cap a < two16 ->
  ParseAndAllocCStringEscapableEnableEmpty cs a r = AOk p a' r' ->
  exists run tok, r = run ++ r' /\ Decodes (inset cs) run tok /\ endsRun (inset cs) r' /\
    readCString a' p = Some tok /\ aused a' = aused a + 2 + len tok.
Proof.
  intros Hc E. pose proof (refine_EscapableEmpty (envOf a) a (envOf_cap a) ltac:(unfold two16, two32 in *; lia) cs r) as R. rewrite E in R.
  destruct (refines_read _ _ _ _ _ _ Hc R) as (tok & s & Ev & H1 & H2 & H3 & H4 & H5).
  unfold paEscapableEmpty in Ev. cbn [used rest] in Ev. destruct (ltMem _ _) eqn:Hl; cbn [negb] in Ev; [|discriminate].
  unfold ltMem in Hl; cbn [memend envOf defaultEnv] in Hl. pose proof (escLoop_cases cs (envOf a) (cap a) eq_refl _ r (aused a + 2) ltac:(lia) (le_n _)) as C.
  destruct (escLoop _ _ _ r) as [t q|q| |]; try discriminate. destruct (ltMem (envOf a) (aused a + 2 + len t)) eqn:Hl2; cbn [negb] in Ev; [|discriminate].
  injection Ev as <- <-. cbn [rest] in H1. subst q. destruct C as (run & E1 & D & En). exists run, t.
  split; [exact E1|]. split; [exact D|]. split; [exact En|]. split; [|exact H3]. apply H4.
  unfold ltMem in Hl2; cbn [memend envOf defaultEnv] in Hl2. lia.
Qed.
Lemma CStringEmpty_reads a cs r p a' r' : cap a < two16 ->
  ParseAndAllocCStringEnableEmpty cs a r = AOk p a' r' ->
  exists tok, maximalRun cs r tok r' /\ readCString a' p = Some tok /\ aused a' = aused a + 2 + len tok.
Proof.
  intros Hc E. pose proof (refine_CStringEmpty (envOf a) a (envOf_cap a) ltac:(unfold two16, two32 in *; lia) cs r) as R. rewrite E in R.
  destruct (refines_read _ _ _ _ _ _ Hc R) as (tok & s & Ev & H1 & H2 & H3 & H4 & H5).
  exists tok. unfold paCStringEmpty in Ev. cbn [used rest] in Ev.
  destruct (negb (ltMem _ _)); [discriminate|]. destruct (span (inset cs) r) as [t q] eqn:Es. destruct (negb (fits _ _ _)); [discriminate|].
  unfold envOf, ltMem in Ev. cbn [memend defaultEnv] in Ev.
  destruct (N.ltb_spec (aused a + 2 + len t) (cap a)); cbn [negb] in Ev; [|discriminate]. injection Ev as <- <-. cbn in H1. subst q.
  split; [now apply maximalRun_span|]. split; [apply H4; lia|assumption].
Qed.
