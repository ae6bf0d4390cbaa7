(** The encoders on the arena write what the value layer says, for every representation. *)
From Verif Require Import Base Charset BaseLemmas Num Lws Str Monad Host Uri Arena ArenaProofs Layout Mem MemSim MemTac MemUri MemRep MemEnc MemHostProofs.

Section Enc.
  Variable e : env.
  Variable a : arena.
  Variable hi : N.
  Hypothesis Hw : wfA e a.
  Hypothesis Hhi : hi <= aused a.
  Hypothesis Hcap : hi < cap a.

  Lemma enc_app f g b b' : f e a = WOk b -> g e a = WOk b' -> (f +++ g) e a = WOk (b ++ b').
  Proof. unfold eApp. intros -> ->. reflexivity. Qed.
  Lemma enc_deref p f b : p <= hi -> f e a = WOk b -> eDeref p f e a = WOk b.
  Proof. unfold eDeref. intros H. replace (cap a <=? p) with false by lia. auto. Qed.
  Lemma enc_cstr lo p b : str (mem a) lo hi p b -> eCStr p e a = WOk b.
  Proof. intros H. unfold eCStr. rewrite (str_read e a lo hi p b Hw H Hhi); [reflexivity|]. destruct H as (_ & H & _). unfold len in H. lia. Qed.
  Lemma enc_escape cs lo p b : str (mem a) lo hi p b -> eEscape cs p e a = WOk (escape cs b).
  Proof. intros H. unfold eEscape. rewrite (str_read e a lo hi p b Hw H Hhi); [reflexivity|]. destruct H as (_ & H & _). unfold len in H. lia. Qed.
  Lemma enc_uri cs lo p b : str (mem a) lo hi p b -> eUri cs p e a = WOk (escUri e cs b).
  Proof. intros H. unfold eUri, eEnv, escUri. destruct (eUriNoEscape e); cbn [negb]; [eapply enc_cstr; eauto|eapply enc_escape; eauto]. Qed.
  Lemma enc_slice lo p n k b : 8 <= lo -> lo <= p -> p + n <= hi -> k (readBytes (mem a) p (N.to_nat n)) e a = b -> eSlice p n k e a = b.
  Proof. intros H1 H2 H3 H. unfold eSlice. replace (p =? NILPTR) with false by (unfold NILPTR; lia). replace (cap a <=? p) with false by lia. exact H. Qed.

  Definition joined {A} (enc : A -> bytes) (between : bytes) (l : list A) : bytes :=
    match l with [] => [] | x :: l' => enc x ++ flat_map (fun y => between ++ enc y) l' end.
  Lemma enc_walk {A} (node : (N -> N) -> N -> N -> A -> Prop) size next one between enc lo p l f :
    0 < size -> (forall p q x, 8 <= p -> p + size <= q -> q <= hi -> node (mem a) p q x -> one p e a = WOk (enc x)) ->
    8 <= lo -> repList node size next (mem a) lo hi p l -> l <> [] -> hi <= lo + N.of_nat f -> eWalk next one between f p e a = WOk (joined enc between l).
  Proof.
    intros Hs H1 H8 HR Hne Hf. revert lo p l H8 HR Hne Hf. induction f as [|f IH]; intros lo p l H8 HR Hne Hf; destruct l as [|x l]; try congruence; cbn [repList] in HR; destruct HR as (R1 & R2 & (q & Q1 & Q2 & Q3) & R4).
    - lia.
    - cbn [eWalk joined]. apply enc_deref; [lia|]. apply enc_app; [eapply H1; [|exact Q1|exact Q2|exact Q3]; lia|]. unfold eMem. destruct l as [|y l].
      + cbn [repList] in R4. rewrite R4. reflexivity.
      + pose proof R4 as R4'. cbn [repList] in R4'. destruct R4' as (_ & G & _). replace (g16 (mem a) (p + next) =? NILPTR) with false by lia.
        cbn [flat_map]. rewrite <- app_assoc. apply enc_app; [reflexivity|]. apply (IH (p + size) _ (y :: l)); [lia|exact R4|discriminate|lia].
  Qed.
  Lemma enc_list {A} (node : (N -> N) -> N -> N -> A -> Prop) size next one between enc lo p l :
    0 < size -> (forall p q x, 8 <= p -> p + size <= q -> q <= hi -> node (mem a) p q x -> one p e a = WOk (enc x)) ->
    8 <= lo -> repList node size next (mem a) lo hi p l -> eList next one between p e a = WOk (joined enc between l).
  Proof.
    intros Hs H1 H8 HR. unfold eList. destruct l as [|x l]; [cbn [repList] in HR; rewrite HR; reflexivity|].
    pose proof HR as (R1 & R2 & _). replace (p =? NILPTR) with false by lia. eapply (enc_walk node size); eauto; [discriminate|lia].
  Qed.
  Lemma joined_nil {A} (enc : A -> bytes) l : joined enc [] l = flat_map enc l.
  Proof. destruct l; reflexivity. Qed.

  Lemma enc_table {A} (node : (N -> N) -> N -> N -> A -> Prop) size one encOne (names : list bytes) lo t (tb : list (option A)) :
    List.length tb = List.length names -> 0 < size ->
    (forall n p q x, 8 <= p -> p + size <= q -> q <= hi -> node (mem a) p q x -> one n p e a = WOk (encOne n x)) -> 8 <= lo ->
    (forall i, (i < List.length tb)%nat -> repEntry node size (mem a) lo hi (g16 (mem a) (t + 2 * N.of_nat i)) (nth i tb None)) ->
    eTable one names t e a = WOk (encKnown names encOne (Some tb)).
  Proof.
    intros Hl Hs H1 H8. revert names t Hl. induction tb as [|o tb IH]; intros [|n ns] t Hl HR; try discriminate; [reflexivity|].
    cbn [eTable encKnown combine flat_map fst snd]. apply enc_app.
    - unfold eMem. specialize (HR 0%nat ltac:(cbn; lia)). cbn [nth] in HR. replace (t + 2 * N.of_nat 0) with t in HR by lia. destruct o as [x|].
      + destruct HR as (G1 & G2 & q & Q1 & Q2 & Q3). replace (g16 (mem a) t =? NILPTR) with false by lia. eapply H1; eauto. lia.
      + cbn [repEntry] in HR. rewrite HR. reflexivity.
    - apply IH; [now injection Hl|]. intros i Hi. specialize (HR (S i) ltac:(cbn; lia)). cbn [nth] in HR. replace (t + 2 + 2 * N.of_nat i) with (t + 2 * N.of_nat (S i)) by lia. exact HR.
  Qed.

  Lemma enc_host this lo h : 8 <= lo -> repHost (mem a) this lo hi h -> mEncHost this e a = WOk (encHost e h).
  Proof.
    intros H8. unfold mEncHost, repHost, eMem. destruct h as [|a1 a2 a3 a4|ip|n].
    - intros ->. reflexivity.
    - intros (-> & H2 & H3 & H4). cbn [N.eqb]. change (1 =? 1) with true. cbv iota. eapply enc_slice; [exact H8|exact H2|exact H3|]. change (N.to_nat 4) with 4%nat. rewrite H4. reflexivity.
    - intros (-> & H2 & H3 & H4). change (2 =? 1) with false. change (2 =? 2) with true. cbv iota. eapply enc_slice; [exact H8|exact H2|exact H3|]. change (N.to_nat 16) with 16%nat. rewrite H4. reflexivity.
    - intros (-> & H2). change (3 =? 1) with false. change (3 =? 2) with false. change (3 =? 3) with true. cbv iota. eapply enc_cstr; eauto.
  Qed.
  Lemma enc_hostPort this lo h : 8 <= lo -> repHostPort (mem a) this lo hi h -> mEncHostPort this e a = WOk (encHostPort e h).
  Proof.
    intros H8 (H1 & H2). apply enc_app; [eapply enc_host; eauto|]. unfold eMem. destruct (hpPort h) as [n|].
    - destruct H2 as (-> & ->). reflexivity.
    - rewrite H2. reflexivity.
  Qed.
  Lemma enc_uriValue cv lo p v : ostr (mem a) lo hi (g16 (mem a) (p + 2)) v -> mEncUriValue cv p e a = WOk (encUriValue e cv v).
  Proof.
    intros H. unfold mEncUriValue, eMem. destruct v as [b|]; cbn [ostr] in H; [|rewrite H; reflexivity].
    rewrite (str_nonnil _ _ _ _ _ H). cbn [negb]. change (encUriValue e cv (Some b)) with ([61] ++ escUri e cv b). apply enc_app; [reflexivity|]. eapply enc_uri; eauto.
  Qed.
  Lemma repU_hi m p q x : q <= hi -> repUParam m p q x -> repUParam m p hi x.
  Proof. intros L (H1 & H2). split; [eapply str_mono; eauto; lia|eapply ostr_mono; eauto; lia]. Qed.
  Lemma enc_uriParam cn cv p q x : q <= hi -> repUParam (mem a) p q x -> mEncUriParam cn cv p e a = WOk (encUriParam e cn cv x).
  Proof.
    intros L H. apply (repU_hi _ _ _ _ L) in H. destruct H as (H1 & H2). unfold mEncUriParam, eMem. rewrite (str_nonnil _ _ _ _ _ H1). cbn [negb].
    apply enc_app; [eapply enc_uri; eauto|eapply enc_uriValue; eauto].
  Qed.
  Lemma enc_uriParams cn cv lo p l : 8 <= lo -> repUParams (mem a) lo hi p l -> mEncUriParams cn cv p e a = WOk (encUriParams e cn cv l).
  Proof.
    intros H8 H. unfold encUriParams. rewrite <- joined_nil. eapply (enc_list repUParam 6); [lia| |exact H8|exact H].
    intros p0 q x _ _ L Hx. change (59 :: encUriParam e cn cv x) with ([59] ++ encUriParam e cn cv x). apply enc_app; [reflexivity|]. eapply enc_uriParam; eauto.
  Qed.
  Lemma joined_headers l : joined (encUriParam e SIP_HNAME SIP_HVALUE) [38] l = encUriHeaders e l.
  Proof.
    destruct l as [|x l]; [reflexivity|]. revert x. induction l as [|y l IH]; intros x.
    - cbn [joined flat_map]. rewrite app_nil_r. reflexivity.
    - transitivity (encUriParam e SIP_HNAME SIP_HVALUE x ++ [38] ++ encUriHeaders e (y :: l)); [|reflexivity]. rewrite <- IH. cbn [joined flat_map]. rewrite <- app_assoc. reflexivity.
  Qed.
  Lemma enc_uriHeaders lo p l : 8 <= lo -> repUParams (mem a) lo hi p l -> mEncUriHeaders p e a = WOk (encUriHeaders e l).
  Proof. intros H8 H. rewrite <- joined_headers. eapply (enc_list repUParam 6); [lia| |exact H8|exact H]. intros p0 q x _ _ L Hx. eapply enc_uriParam; eauto. Qed.
  Lemma enc_uriKnown cv names lo t k : 8 <= lo -> repTable repUParam 6 (N.of_nat (List.length names)) (mem a) lo hi t k -> mEncUriKnown cv names t e a = WOk (encUriKnown e cv names k).
  Proof.
    intros H8 H. unfold mEncUriKnown, encUriKnown. destruct k as [tb|]; [|cbn [repTable] in H; rewrite H; reflexivity].
    destruct H as (H1 & H2 & H3 & H4 & H5). replace (t =? NILPTR) with false by lia. apply enc_deref; [lia|].
    eapply (enc_table repUParam 6); [lia|lia| |exact H8|exact H5].
    intros n p q x _ L1 L2 Hx. apply (repU_hi _ _ _ _ L2) in Hx. change (59 :: n ++ encUriValue e cv (upValue x)) with ((59 :: n) ++ encUriValue e cv (upValue x)).
    apply enc_app; [reflexivity|]. apply enc_deref; [lia|]. eapply enc_uriValue. apply Hx.
  Qed.
  Theorem enc_sipUri this lo u : 8 <= lo -> repSipUri (mem a) this lo hi u -> mEncSipUri this e a = WOk (encSipUri e u).
  Proof.
    intros H8 (H1 & H2 & H3 & H4 & H5 & H6 & H7). unfold mEncSipUri, eMem, encSipUri. rewrite H1.
    apply enc_app; [destruct (uSecure u); reflexivity|]. apply enc_app; [|apply enc_app; [eapply enc_hostPort; eauto|]].
    - destruct (uUser u) as [n|]; cbn [ostr] in H2; [|rewrite H2; reflexivity]. rewrite (str_nonnil _ _ _ _ _ H2). cbn [negb].
      apply enc_app; [eapply enc_uri; eauto|]. apply enc_app; [|reflexivity].
      destruct (uPass u) as [p|]; cbn [ostr] in H3; [|rewrite H3; reflexivity]. rewrite (str_nonnil _ _ _ _ _ H3). cbn [negb].
      change (58 :: escUri e SIP_PASSWORD p) with ([58] ++ escUri e SIP_PASSWORD p). apply enc_app; [reflexivity|]. eapply enc_uri; eauto.
    - pose proof (enc_uriParams SIP_PNAME SIP_PVALUE lo _ _ H8 H5) as E5. rewrite app_assoc. apply enc_app.
      + pose proof (enc_uriKnown SIP_PVALUE sipUriKnownNames lo _ _ H8 H7) as E7. destruct (N.eqb_spec (g16 (mem a) (this + 16)) NILPTR) as [E|E]; cbn [negb].
        * rewrite E in E7. injection E7 as <-. exact E5.
        * apply enc_app; [exact E7|exact E5].
      + destruct (uHeaders u) as [|h hs]; [cbn [repUParams repList] in H6; rewrite H6; reflexivity|].
        pose proof H6 as (_ & G & _). replace (g16 (mem a) (this + 14) =? NILPTR) with false by lia. cbn [negb].
        change (63 :: encUriHeaders e (h :: hs)) with ([63] ++ encUriHeaders e (h :: hs)). apply enc_app; [reflexivity|]. eapply enc_uriHeaders; eauto.
  Qed.
End Enc.
