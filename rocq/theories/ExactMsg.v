(** Generic parameters, addresses, start lines and headers: the parsers accept exactly the grammars of GrammarMsg. *)
From Verif Require Import Base BaseLemmas Charset CharsetSpec CharsetProofs Num NumSpec NumProofs Lws LwsSpec LwsProofs Str StrSpec StrProofs QuotedSpec QuotedExact MethodTree Lookup NameSpec NameProofs Monad Good Rt Seq GoodAuto Inv
  Host HostSpec HostProofs Uri UriSpec UriGood UriProofs UriSound Tel TelSpec TelProofs TelSound TelCrash GenParam GenParamSpec GenParamProofs Addr AddrSpec AddrProofs
  StartLine StartLineSpec StartLineProofs Headers HeadersSpec HeadersProofs ParsedWf RawProofs GrammarSpec Exact ExactUri GrammarMsg.

(** ** White space *)
Lemma sws_split r : exists t, r = t ++ ParseSWS_2 r /\ Skip t (ParseSWS_2 r).
Proof. destruct (ParseSWS_suffix r) as [t E]. exists t. split; [exact E|]. unfold Skip. rewrite <- E. apply ParseSWS_spec. reflexivity. Qed.
Lemma skip_eq t k : Skip t k -> ParseSWS_2 (t ++ k) = k.
Proof. intros H. now apply ParseSWS_spec. Qed.
Lemma exact_sws e : exact e pSWS (fun t _ k => Skip t k).
Proof.
  split.
  - intros s v s' [= <- <-]. cbn [rest]. apply sws_split.
  - intros _ t [] k u H. exists u. unfold pSWS. cbn [rest used]. now rewrite (skip_eq _ _ H).
Qed.
Lemma exact_lws e : exact e pLWS (fun t _ k => Blanks t k).
Proof.
  split.
  - intros s v s' H. unfold pLWS, liftB in H. destruct (ParseLWS (rest s)) as [r ok] eqn:E. destruct ok; [|discriminate]. injection H as _ <-. cbn [rest].
    destruct (lws_cases (rest s)) as (w & t & Er & Fw & Nw & Ht). rewrite Er in *.
    destruct Ht as [Ht|(t2 & -> & [Nq|(w2 & q & -> & H2 & F2 & N2)])].
    + rewrite (ParseLWS_plain w t Fw Nw Ht) in E. injection E as <-. exists w. split; [reflexivity|]. now apply BlPlain.
    + rewrite (ParseLWS_eol w t2 Fw Nq) in E. discriminate.
    + rewrite (ParseLWS_fold w w2 q Fw H2 F2 N2) in E. injection E as <-. exists (w ++ 13 :: 10 :: w2). split; [rewrite <- app_assoc; reflexivity|]. now apply BlFold.
  - intros _ t [] k u H. exists u. unfold pLWS, liftB. cbn [rest used]. destruct H as [w k Fw Nw Nc|w1 w2 k F1 H2 F2 N2].
    + now rewrite ParseLWS_plain.
    + rewrite <- app_assoc. cbn [app]. now rewrite ParseLWS_fold.
Qed.
Lemma exact_mark e c : exact e (pSWSMark c) (fun t _ k => Mark c t k).
Proof.
  split.
  - intros s v s' H. unfold pSWSMark, liftB, ParseSWSMark in H. destruct (sws_split (rest s)) as (a & Ea & Sa). destruct (ParseSWS_2 (rest s)) as [|x r1]; [discriminate|].
    destruct (N.eqb_spec x c) as [->|]; [|discriminate]. injection H as _ <-. cbn [rest]. destruct (sws_split r1) as (b & Eb & Sb).
    exists (a ++ c :: b). split; [rewrite Ea, Eb at 1; rewrite <- app_assoc; reflexivity|]. exists a, b. split; [reflexivity|]. rewrite <- Eb. split; assumption.
  - intros _ t [] k u (a & b & -> & Sa & Sb). exists u. unfold pSWSMark, liftB, ParseSWSMark. cbn [rest used]. rewrite <- app_assoc. cbn [app]. rewrite (skip_eq _ _ Sa), N.eqb_refl. cbn [negb].
    now rewrite (skip_eq _ _ Sb).
Qed.
Lemma exact_colon e : exact e pHcolon (fun t _ k => Colon t k).
Proof.
  split.
  - intros s v s' H. unfold pHcolon, liftB, ParseHcolon in H. destruct (skipWsp_decomp (rest s)) as (a & Ea & Fa & _). destruct (skipWsp (rest s)) as [|x r1]; [discriminate|].
    destruct (N.eqb_spec x 58) as [->|]; [|discriminate]. injection H as _ <-. cbn [rest]. destruct (sws_split r1) as (b & Eb & Sb).
    exists (a ++ 58 :: b). split; [rewrite Ea, Eb at 1; rewrite <- app_assoc; reflexivity|]. exists a, b. auto.
  - intros _ t [] k u (a & b & -> & Fa & Sb). exists u. unfold pHcolon, liftB, ParseHcolon. cbn [rest used]. rewrite <- app_assoc. cbn [app]. rewrite skipWsp_app; [|exact Fa|intros (x & t & [= <- _] & [|]); discriminate].
    cbn [N.eqb Pos.eqb negb]. now rewrite (skip_eq _ _ Sb).
Qed.

(** ** Strings *)
Lemma exact_token e : exact e (paCString SIP_TOKEN) TokenRead.
Proof. apply exact_cstring, token_rfc. Qed.
Lemma decodes_run cls t v : cls 37 = true -> Decodes cls t v -> v = t /\ forallb cls t = true.
Proof.
  intros H37 D. induction D as [|x r t Hx D [IH1 IH2]|h1 h2 v1 v2 r t Hx]; [auto| |congruence]. subst t. cbn [forallb]. now rewrite Hx.
Qed.
Lemma run_decodes cls t : forallb cls t = true -> Decodes cls t t.
Proof. induction t as [|x t IH]; intros H; [apply DecNil|]. cbn in H. apply andb_prop in H as [Hx H]. apply DecPlain; auto. Qed.
Lemma exact_tokenEsc e : exact e (paEscapable SIP_TOKEN) TokenRead.
Proof.
  eapply exact_iff; [|apply (exact_escapable SIP_TOKEN rfcToken e token_rfc)]. intros t v k. cbv beta. unfold TokenRead, RunRead, EscRead. split.
  - intros [[D En] Hv]. destruct (decodes_run rfcToken t v eq_refl D) as [-> F]. split; [exact Hv|]. split; [reflexivity|]. split; [exact F|]. destruct k as [|x k]; [reflexivity|]. cbn. destruct En as [-> _]. reflexivity.
  - intros (Ht & -> & F & St). split; [|exact Ht]. split; [apply run_decodes, F|]. destruct k as [|x k]; [exact Logic.I|]. cbn in St. apply negb_true_iff in St. split; [exact St|]. intros ->. discriminate.
Qed.
Lemma qd_eq x : plainQd x = qdChar x.
Proof.
  destruct (N.ltb_spec x 256) as [H|H].
  - assert (Q : forallb (fun x => Bool.eqb (plainQd x) (qdChar x)) all256 = true) by (vm_compute; reflexivity). apply Bool.eqb_prop. exact (sweep _ Q x H).
  - destruct (plainQd x) eqn:E1, (qdChar x) eqn:E2; try reflexivity; exfalso.
    + unfold plainQd in E1. apply andb_prop in E1 as [E1 _]. unfold IsSipQuotedText in E1. apply inset_byte in E1. lia.
    + unfold qdChar, rfcUTF8lead, rng in E2. lia.
Qed.
Lemma ws_eq x : isWsp x = rfcWSP x. Proof. reflexivity. Qed.
Lemma QText_ext (q q' w w' : N -> bool) s t : (forall x, q x = q' x) -> (forall x, w x = w' x) -> QText q w s t -> QText q' w' s t.
Proof.
  intros Hq Hw H. induction H as [|x s t Hx H IH|x s t Hx H IH|z s t Hx H IH|x s t H IH].
  - apply QTNil. - apply QTText; [now rewrite <- Hq|exact IH]. - apply QTWs; [now rewrite <- Hw|exact IH]. - apply QTFold; [now rewrite <- Hw|exact IH]. - apply QTPair, IH.
Qed.
Lemma exact_quoted e : exact e paQuoted QuotedRead.
Proof.
  split.
  - intros s v s' H. apply quoted_inv in H as (src & Hs & Q). assert (R : ParseSWS_2 (rest s) = 34 :: src ++ 34 :: rest s') by now apply ParseSWS_spec.
    destruct (sws_split (rest s)) as (a & Ea & Sa). rewrite R in Ea, Sa. exists (a ++ 34 :: src ++ [34]). split; [rewrite Ea; repeat (rewrite <- app_assoc; cbn [app]); reflexivity|].
    apply QuRead; [exact Sa|]. apply (QText_ext plainQd _ isWsp _ _ _ qd_eq ws_eq Q).
  - intros HI t v k u [a src v' k' Sa Q]. exists (u + 2 + len v'). apply quoted_ok_iff; [now apply inf_roomy|]. split; [reflexivity|]. exists src.
    split; [|apply (QText_ext qdChar _ rfcWSP _ _ _ (fun x => eq_sym (qd_eq x)) (fun x => eq_sym (ws_eq x)) Q)].
    repeat (rewrite <- app_assoc; cbn [app]). exact Sa.
Qed.

(** ** Generic parameters *)
Lemma TokenRead_head t v k : TokenRead t v k -> exists x t', t = x :: t' /\ rfcToken x = true.
Proof. intros (Ht & _ & F & _). destruct t as [|x t]; [congruence|]. cbn in F. apply andb_prop in F as [F _]. eauto. Qed.
Lemma skip_head a x k : Skip a (x :: k) -> forall y r, a ++ x :: k = y :: r -> (a = [] /\ y = x) \/ IsLwsChar y = true.
Proof.
  intros H y r E. destruct a as [|z a]; [left; split; [reflexivity|]; injection E; auto|]. right. injection E as -> _. destruct (IsLwsChar y) eqn:L; [reflexivity|]. exfalso.
  apply skip_eq in H. rewrite ParseSWS_noop in H by (cbn; now rewrite L). apply (f_equal (@List.length N)) in H. rewrite app_length in H. cbn in H. lia.
Qed.
Lemma QuotedRead_head t v k : QuotedRead t v k -> exists x t', t = x :: t' /\ ((x =? 34) || IsLwsChar x)%bool = true.
Proof.
  intros [a src v' k' Sa Q]. destruct a as [|x a]; [eexists _, _; split; [reflexivity|reflexivity]|]. exists x, (a ++ 34 :: src ++ [34]). split; [reflexivity|].
  destruct (skip_head _ _ _ Sa x (a ++ 34 :: src ++ 34 :: k') eq_refl) as [[Hn _]|L]; [discriminate|]. rewrite L. apply orb_true_r.
Qed.
Lemma paSlice_inv tok r' e s v s' : paSlice tok r' e s = Ok v s' -> v = tok /\ rest s' = r'.
Proof.
  intros H. unfold paSlice in H. apply bind_inv in H as (b & s1 & E & H). apply bind_inv in H as (x & s2 & E2 & H). injection E2 as _ <-. injection H as <- <-. cbn [rest]. split; [|reflexivity].
  unfold allocCString in E. destruct (leMem e _); [|discriminate]. injection E as <- _. reflexivity.
Qed.
Lemma exact_genValue e : exact e parseGenValue GenValueRead.
Proof.
  split.
  - intros s v s' H. unfold parseGenValue, onRest in H. destruct (rest s) as [|x r] eqn:R; [discriminate|]. destruct (IsSipToken x).
    + apply bind_inv in H as (t & s1 & E & H). injection H as <- <-. apply (ex_sound _ _ _ (exact_token e)) in E as (t' & Er & Ht). rewrite R in Er. exists t'. split; [exact Er|]. now apply GVtoken.
    + destruct ((x =? 34) || IsLwsChar x)%bool.
      * apply bind_inv in H as (t & s1 & E & H). injection H as <- <-. apply (ex_sound _ _ _ (exact_quoted e)) in E as (t' & Er & Ht). rewrite R in Er. exists t'. split; [exact Er|]. now apply GVquoted.
      * destruct (N.eqb_spec x 91) as [->|]; [|discriminate]. destruct (cutAfter 93 (91 :: r)) as [[tok r']|] eqn:E; [|discriminate].
        apply bind_inv in H as (t & s1 & E1 & H). injection H as <- <-. apply paSlice_inv in E1 as [-> ->]. apply cutAfter_some in E as (y & -> & Er & Ny). rewrite Er.
        destruct y as [|z y]; [discriminate|]. injection Er as <- Er. exists ((91 :: y) ++ [93]). split; [rewrite <- app_assoc; reflexivity|]. apply GVbracket. intros I93. apply Ny. now right.
  - intros HI t v k u H. destruct H as [t v k Ht|t v k Ht|x k Nx].
    + destruct (ex_complete _ _ _ (exact_token e) HI _ _ _ u Ht) as [u' E]. exists u'. destruct (TokenRead_head _ _ _ Ht) as (x & t' & -> & Hx). unfold parseGenValue. cbn [app] in *. rewrite onRest_eq.
      unfold IsSipToken. rewrite token_rfc, Hx. rewrite (bind_ok _ _ _ _ _ _ E). reflexivity.
    + destruct (ex_complete _ _ _ (exact_quoted e) HI _ _ _ u Ht) as [u' E]. exists u'. destruct (QuotedRead_head _ _ _ Ht) as (x & t' & -> & Hx). unfold parseGenValue. cbn [app] in *. rewrite onRest_eq.
      rewrite Hx. assert (T0 : IsSipToken x = false).
      { unfold IsSipToken. rewrite token_rfc. destruct (rfcToken x) eqn:T1; [|reflexivity]. exfalso. pose proof (token_lws x T1) as L. rewrite L in Hx. rewrite orb_false_r in Hx. apply N.eqb_eq in Hx. subst x. discriminate. }
      rewrite T0. rewrite (bind_ok _ _ _ _ _ _ E). reflexivity.
    + eexists. unfold parseGenValue. cbn [app]. rewrite onRest_eq. change (IsSipToken 91) with false. change ((91 =? 34) || IsLwsChar 91)%bool with false. change (91 =? 91) with true. cbv iota.
      replace (91 :: (x ++ [93]) ++ k) with ((91 :: x) ++ 93 :: k) by (rewrite <- app_assoc; reflexivity). rewrite cutAfter_exact by (intros [H|H]; [discriminate|auto]).
      rewrite (bind_ok _ _ _ _ _ _ (rt_paSlice e _ k _ HI)). reflexivity.
Qed.
Lemma mark_omit c r : match ParseSWSMarkCanOmmit c r with
  | (r', _, false) => r' = [] /\ Skip r []
  | (r', false, true) => exists w, r = w ++ r' /\ Skip w r' /\ r' <> [] /\ notNext c r'
  | (r', true, true) => exists m, r = m ++ r' /\ Mark c m r'
  end.
Proof.
  unfold ParseSWSMarkCanOmmit. destruct (sws_split r) as (w & Ew & Sw). destruct (ParseSWS_2 r) as [|x r1] eqn:R.
  - split; [reflexivity|]. rewrite app_nil_r in Ew. now rewrite Ew.
  - destruct (N.eqb_spec x c) as [->|Hx]; cbn [negb].
    + destruct (sws_split r1) as (b & Eb & Sb). exists (w ++ c :: b). split; [rewrite Ew, Eb at 1; rewrite <- app_assoc; reflexivity|]. exists w, b. split; [reflexivity|]. rewrite <- Eb. auto.
    + exists w. split; [exact Ew|]. split; [exact Sw|]. split; [discriminate|]. intros k' [= Y _]. congruence.
Qed.
Lemma mark_omit_yes c m k : Mark c m k -> ParseSWSMarkCanOmmit c (m ++ k) = (k, true, true).
Proof. intros (a & b & -> & Sa & Sb). unfold ParseSWSMarkCanOmmit. rewrite <- app_assoc. cbn [app]. rewrite (skip_eq _ _ Sa), N.eqb_refl. cbn [negb]. now rewrite (skip_eq _ _ Sb). Qed.
Lemma mark_omit_no c w k : Skip w k -> k <> [] -> notNext c k -> ParseSWSMarkCanOmmit c (w ++ k) = (k, false, true).
Proof.
  intros Sw Hk Nk. unfold ParseSWSMarkCanOmmit. rewrite (skip_eq _ _ Sw). destruct k as [|x k]; [congruence|]. destruct (N.eqb_spec x c) as [->|]; [exfalso; eapply Nk; reflexivity|]. reflexivity.
Qed.
Lemma mark_ne c m k : Mark c m k -> m <> [].
Proof. intros (a & b & -> & _). destruct a; discriminate. Qed.
Lemma mark_head c m k x r : Mark c m k -> m ++ k = x :: r -> ((x =? c) || IsLwsChar x)%bool = true.
Proof.
  intros (a & b & -> & Sa & _) E. rewrite <- app_assoc in E. cbn [app] in E. destruct (skip_head _ _ _ Sa _ _ E) as [[_ ->]| ->]; [now rewrite N.eqb_refl|apply orb_true_r].
Qed.
Lemma exact_genParam e : exact e parseGenParam GenParamRead.
Proof.
  split.
  - intros s v s' H. apply bind_inv in H as (n & s1 & E & H). apply (ex_sound _ _ _ (exact_tokenEsc e)) in E as (t & Er & Ht).
    assert (Bare : forall r, rest s1 = r -> (r = [] \/ exists x r', r = x :: r' /\ x <> 61 /\ IsLwsChar x = false) -> GenParamRead t (mkgp n None) r).
    { intros r R Hr. rewrite <- (app_nil_r t). apply GPbare; [rewrite <- R; exact Ht| | |intros _; reflexivity].
      - apply ParseSWS_spec. cbn [app]. destruct Hr as [->|(x & r' & -> & _ & L)]; [reflexivity|]. apply ParseSWS_noop. cbn. now rewrite L.
      - intros k' ->. destruct Hr as [Hr|(x & r' & [= <- _] & Y & _)]; [discriminate|congruence]. }
    unfold onRest in H. destruct (rest s1) as [|x r1] eqn:R1.
    + injection H as <- <-. rewrite R1. exists t. split; [exact Er|]. apply Bare; auto.
    + destruct (negb (x =? 61) && negb (IsLwsChar x))%bool eqn:Ex.
      * injection H as <- <-. rewrite R1. exists t. split; [exact Er|]. apply Bare; [reflexivity|]. right. exists x, r1. apply andb_prop in Ex as [E1 E2]. apply negb_true_iff in E1, E2. apply N.eqb_neq in E1. auto.
      * apply bind_inv in H as (m & s2 & E & H). unfold pSWSMarkCanOmmit in E. rewrite R1 in E. pose proof (mark_omit 61 (x :: r1)) as M. destruct (ParseSWSMarkCanOmmit 61 (x :: r1)) as [[r' mt] [|]]; [|discriminate].
        injection E as -> <-. destruct m.
        -- destruct M as (tm & Em & Mm). apply bind_inv in H as (w & s3 & E & H). injection H as <- <-. apply (ex_sound _ _ _ (exact_genValue e)) in E as (tv & Ev & Hv). cbn [rest] in Ev. subst r'.
           exists (t ++ tm ++ tv). split; [rewrite Er, Em, !app_assoc; reflexivity|]. apply GPvalue; [rewrite <- Em; exact Ht|exact Mm|exact Hv].
        -- destruct M as (w & Ew & Sw & Hk & Nk). injection H as <- <-. cbn [rest]. exists (t ++ w). split; [rewrite Er, Ew, app_assoc; reflexivity|]. apply GPbare; [rewrite <- Ew; exact Ht|exact Sw|exact Nk|congruence].
  - intros HI t v k u H. destruct H as [t n w k Ht Sw Nk Hw|t n m tv v k Ht Mm Hv].
    + destruct (ex_complete _ _ _ (exact_tokenEsc e) HI _ _ _ u Ht) as [u1 E]. exists u1. unfold parseGenParam. rewrite <- app_assoc, (bind_ok _ _ _ _ _ _ E), onRest_eq. destruct (w ++ k) as [|x r] eqn:R.
      * apply app_eq_nil in R as [-> ->]. reflexivity.
      * destruct (negb (x =? 61) && negb (IsLwsChar x))%bool eqn:Ex.
        -- apply andb_prop in Ex as [_ Ex]. apply negb_true_iff in Ex. pose proof (skip_eq _ _ Sw) as Es. rewrite R, ParseSWS_noop in Es by (cbn; now rewrite Ex). rewrite Es. reflexivity.
        -- assert (Hk : k <> []) by (intros ->; rewrite (Hw eq_refl) in R; discriminate). unfold bind at 1, pSWSMarkCanOmmit. cbn [rest used]. rewrite <- R. rewrite (mark_omit_no 61 w k Sw Hk Nk). reflexivity.
    + destruct (ex_complete _ _ _ (exact_tokenEsc e) HI _ _ _ u Ht) as [u1 E]. destruct (ex_complete _ _ _ (exact_genValue e) HI _ _ _ u1 Hv) as [u2 E2]. exists u2.
      unfold parseGenParam. rewrite <- !app_assoc, (bind_ok _ _ _ _ _ _ E), onRest_eq. destruct (m ++ tv ++ k) as [|x r] eqn:R; [destruct m; [now apply mark_ne in Mm|discriminate]|].
      pose proof (mark_head _ _ _ _ _ Mm R) as Hx. rewrite <- negb_orb, Hx. cbn [negb]. unfold bind at 1, pSWSMarkCanOmmit. cbn [rest used]. rewrite <- R, (mark_omit_yes _ _ _ Mm).
      rewrite (bind_ok _ _ _ _ _ _ E2). reflexivity.
Qed.
Lemma GenParamRead_ne t p k : GenParamRead t p k -> t <> [].
Proof. intros [t' n w k' H _ _ _|t' n m tv v k' H _ _]; destruct (TokenRead_head _ _ _ H) as (x & r & -> & _); discriminate. Qed.
Lemma onlyCRLF_sws r : IsOnlyCRLF r = true -> ParseSWS_2 r = r /\ exists q, r = 13 :: 10 :: q.
Proof.
  intros H. destruct r as [|a [|b r]]; [discriminate|discriminate|]. assert (Q : a = 13 /\ b = 10 /\ ~ startsWsp r).
  { destruct r as [|x r]; cbn in H.
    - apply andb_prop in H as [H1 H2]. apply N.eqb_eq in H1, H2. split; [exact H1|]. split; [exact H2|]. intros (y & q & [=] & _).
    - apply andb_prop in H as [H H3]. apply andb_prop in H as [H1 H2]. apply N.eqb_eq in H1, H2. split; [exact H1|]. split; [exact H2|]. intros (y & q & [= <- _] & W). rewrite IsWspChar_isWsp in H3.
      apply isWsp_spec in W. rewrite W in H3. discriminate. }
  destruct Q as (-> & -> & N0). split; [now apply ParseSWS_eol|eauto].
Qed.
Definition gset (on : env -> bool) (names : list bytes) (a : known gparam * list gparam) (p : gparam) : P (known gparam * list gparam) := withEnv (fun e => addParam (on e) names gpName a p).
Definition endsList (k : bytes) : Prop := k = [] \/ exists w k', k = w ++ k' /\ Skip w k' /\ k' <> [] /\ notNext 59 k'.
Lemma genBody_sound on names e xs a r u o s' : okNames names -> SortInv e (on e) names gpName xs a u -> gpBody 59 (gset on names) a e (mkst r u) = Ok o s' ->
  match o with
  | inr b => b = a /\ s' = mkst r u /\ endsList r
  | inl b => exists m t p, r = m ++ t ++ rest s' /\ Mark 59 m (t ++ rest s') /\ GenParamRead t p (rest s') /\ SortInv e (on e) names gpName (xs ++ [p]) b (used s')
  end.
Proof.
  intros Hn Hi H. unfold gpBody in H. rewrite onRest_eq in H. destruct r as [|x r1] eqn:R; [injection H as <- <-; split; [reflexivity|]; split; [reflexivity|now left]|]. rewrite <- R in *.
  destruct (IsOnlyCRLF r) eqn:Eo.
  { injection H as <- <-. split; [reflexivity|]. split; [reflexivity|]. right. apply onlyCRLF_sws in Eo as (Es & q & Eq). exists [], r. split; [reflexivity|]. split; [now apply ParseSWS_spec|]. rewrite Eq. split; [discriminate|]. intros k' [=]. }
  destruct (negb (x =? 59) && negb (IsLwsChar x))%bool eqn:Ex.
  { injection H as <- <-. split; [reflexivity|]. split; [reflexivity|]. right. exists [], r. apply andb_prop in Ex as [E1 E2]. apply negb_true_iff in E1, E2. apply N.eqb_neq in E1.
    split; [reflexivity|]. split; [apply ParseSWS_spec; cbn [app]; rewrite R; apply ParseSWS_noop; cbn; now rewrite E2|]. rewrite R. split; [discriminate|]. intros k' [= Y _]. congruence. }
  pose proof (mark_omit 59 r) as M. destruct (ParseSWSMarkCanOmmit 59 r) as [[r' mt] ok]. destruct ok; [|destruct mt; discriminate]. destruct mt.
  - destruct M as (m & Em & Mm). apply bind_inv in H as (x0 & s1 & E & H). injection E as _ <-. apply bind_inv in H as (x1 & s2 & E & H). apply alloc_inv in E as [E Eu]. cbn [rest used] in E, Eu.
    apply bind_inv in H as (p & s3 & E2 & H). assert (Up : used s2 <= used s3) by (apply (good_used 1 6 parseGenParam e s2 p s3); [apply gd_genParam; lia|exact E2]).
    apply bind_inv in H as (a' & s4 & E3 & H). injection H as <- <-. apply (ex_sound _ _ _ (exact_genParam e)) in E2 as (t & Et & Ht). unfold gset, withEnv in E3.
    assert (Hi' : SortInv e (on e) names gpName xs a (used s3)) by (eapply SortInv_mono; [|exact Hi]; lia).
    destruct (SortInv_step _ _ _ _ _ _ _ _ _ _ Hn Hi' E3) as [E4 Hi2]. rewrite E4. exists m, t, p. rewrite E in Et. rewrite <- Et. split; [exact Em|]. split; [exact Mm|]. split; [exact Ht|exact Hi2].
  - injection H as <- <-. destruct M as (w & Ew & Sw & Hk & Nk). split; [reflexivity|]. split; [reflexivity|]. right. exists w, r'. auto.
Qed.
Lemma genLoop_sound on names e : okNames names -> forall n xs a r u b s', (List.length r <= n)%nat -> SortInv e (on e) names gpName xs a u ->
  loopP (gpBody 59 (gset on names)) a e (mkst r u) = Ok b s' ->
  exists t ps, r = t ++ rest s' /\ GenListRead t ps (rest s') /\ SortInv e (on e) names gpName (xs ++ ps) b (used s').
Proof.
  intros Hn. induction n as [|n IH]; intros xs a r u b s' Hl Hi H; rewrite loopP_unfold in H by apply gp_progresses;
    (destruct (gpBody 59 (gset on names) a e (mkst r u)) as [o s1|s1| |] eqn:E; try discriminate; pose proof (genBody_sound _ _ _ _ _ _ _ _ _ Hn Hi E) as B; destruct o as [a'|b']).
  - destruct B as (m & t & p & Er & Mm & _). apply mark_ne in Mm. destruct r; [|cbn in Hl; lia]. symmetry in Er. apply app_eq_nil in Er as [-> _]. congruence.
  - destruct B as (-> & -> & Hr). injection H as <- <-. exists [], []. split; [reflexivity|]. rewrite app_nil_r. split; [apply GLnil, Hr|exact Hi].
  - destruct B as (m & t & p & Er & Mm & Ht & Hi2). destruct s1 as [r1 u1]. cbn [rest used] in *. assert (Lt : (List.length r1 <= n)%nat).
    { apply mark_ne in Mm. apply (f_equal (@List.length N)) in Er. repeat rewrite app_length in Er. destruct m; [congruence|]. cbn [List.length] in Er. lia. }
    destruct (IH _ _ _ _ _ _ Lt Hi2 H) as (ts & ps & Er1 & Hg & Hi3).
    exists (m ++ t ++ ts), (p :: ps). split; [rewrite Er, Er1 at 1; rewrite <- !app_assoc; reflexivity|]. rewrite Er1 in Mm, Ht. split; [now apply GLcons|]. rewrite <- app_assoc in Hi3. exact Hi3.
  - destruct B as (-> & -> & Hr). injection H as <- <-. exists [], []. split; [reflexivity|]. rewrite app_nil_r. split; [apply GLnil, Hr|exact Hi].
Qed.
Lemma genLoop_complete on names e : infinite e -> okNames names -> forall t ps k, GenListRead t ps k -> forall a u,
  exists u', loopP (gpBody 59 (gset on names)) a e (mkst (t ++ k) u) = Ok (fold_left (addStep (on e) names gpName) ps a) (mkst k u').
Proof.
  intros HI Hn t ps k H. induction H as [k Hk|m t p ts ps k Mm Ht Hg IH]; intros a u; rewrite loopP_unfold by apply gp_progresses.
  - exists u. cbn [app]. unfold gpBody at 1. rewrite onRest_eq. destruct k as [|x k1] eqn:R; [reflexivity|]. rewrite <- R in *. destruct (IsOnlyCRLF k); [reflexivity|]. destruct (_ && _)%bool; [reflexivity|].
    destruct Hk as [Hk|(w & k' & Ek & Sw & Hk & Nk)]; [congruence|]. rewrite Ek. rewrite (mark_omit_no _ _ _ Sw Hk Nk). reflexivity.
  - rewrite <- !app_assoc. unfold gpBody at 1. rewrite onRest_eq. destruct (m ++ t ++ ts ++ k) as [|x r] eqn:R; [destruct m; [now apply mark_ne in Mm|discriminate]|].
    pose proof (mark_head _ _ _ _ _ Mm R) as Hx. rewrite <- negb_orb, Hx. cbn [negb]. rewrite <- R.
    assert (Eo : IsOnlyCRLF (m ++ t ++ ts ++ k) = false).
    { destruct (IsOnlyCRLF (m ++ t ++ ts ++ k)) eqn:Eo; [|reflexivity]. exfalso. apply onlyCRLF_sws in Eo as (Es & q & Eq). destruct Mm as (a0 & b & -> & Sa & _). apply skip_eq in Sa.
      rewrite <- app_assoc in Es, Eq. cbn [app] in Es, Eq. rewrite Sa in Es. rewrite <- Es in Eq. discriminate. }
    rewrite Eo, (mark_omit_yes _ _ _ Mm). rewrite goto_bind. cbn [used]. rewrite (bind_ok _ _ _ _ _ _ (rt_alloc e 8 _ _ HI)).
    destruct (ex_complete _ _ _ (exact_genParam e) HI _ _ _ (u + 8) Ht) as [u1 E1]. rewrite (bind_ok _ _ _ _ _ _ E1). unfold gset at 1, withEnv.
    destruct (rt_addParam (on e) names gpName a p e (ts ++ k) u1 HI) as [u2 E2]. unfold bind at 1. rewrite E2. unfold ret. destruct (IH (addStep (on e) names gpName a p) u2) as [u3 E3]. exists u3. exact E3.
Qed.
Lemma exact_genParams on names e : okNames names ->
  exact e (parseGenParams 59 on names) (fun t tp k => GenParamsRead e (on e) names t (fst tp) (snd tp) k).
Proof.
  intros Hn. split.
  - intros [r u] v s' H. destruct (genLoop_sound on names e Hn _ [] (None, []) r u v s' (le_n _) ltac:(left; unfold sorted; destruct (on e); reflexivity) H) as (t & ps & Er & Hg & Hi).
    exists t. split; [exact Er|]. apply GPSRead with (ps := ps); [exact Hg|]. now apply SortInv_Sorted in Hi.
  - intros HI t [kn others] k u H. cbn [fst snd] in H. inversion H as [t0 ps kn0 ot0 k0 Hg Hs]; subst. destruct (genLoop_complete on names e HI Hn _ _ _ Hg (None, []) u) as [u' E]. exists u'.
    unfold parseGenParams. change (loopP _ _) with (loopP (gpBody 59 (gset on names)) (None, [])). rewrite E. rewrite (fold_sorted _ _ _ _ Hn). now rewrite <- (Sorted_inf _ _ _ _ _ _ _ HI Hs).
Qed.

(** ** Addresses *)
Lemma tel4 a b c d : sameNoCase [a; b; c; d] (s2b "tel:") <-> (lc a 116 && (lc b 101 && lc c 108))%bool = true /\ d = 58.
Proof.
  unfold sameNoCase. change (map asciiLower (s2b "tel:")) with [116; 101; 108; 58]. cbn [map]. rewrite !andb_true_iff, !lc_iff, <- (colon_lower d) by (cbn; tauto). split; [intros [= -> -> -> ->]; auto|].
  intros [[-> [-> ->]] ->]. reflexivity.
Qed.
Definition schemeRead (sc : uscheme) (t : bytes) : Prop :=
  match sc with USip => SipScheme t false | USips => SipScheme t true | UTel => sameNoCase t (s2b "tel:") | _ => False end.
Lemma otherScheme_out e s sc s' : otherScheme e s = Ok sc s' -> sc = UAbsolute.
Proof.
  intros H. unfold otherScheme, onRest in H. destruct (rest s) as [|x r]; [discriminate|]. destruct (IsAlpha x); [|discriminate]. apply bind_inv in H as (t & s1 & _ & H). unfold onRest in H. destruct (rest s1) as [|y r2]; [discriminate|].
  destruct (negb (y =? 58)); [discriminate|]. apply bind_inv in H as (x0 & s2 & _ & H). injection H as <- _. reflexivity.
Qed.
Lemma scheme_sound e s sc s' : parseScheme e s = Ok sc s' -> sc = UUrn \/ sc = UAbsolute \/ exists t, rest s = t ++ rest s' /\ schemeRead sc t.
Proof.
  intros H. unfold parseScheme, onRest in H. destruct (rest s) as [|a [|b [|c [|d r]]]]; try (apply otherScheme_out in H; auto; fail).
  destruct (lc a 115 && (lc b 105 && lc c 112))%bool eqn:E1; cbn [andb] in H.
  - rewrite andb_assoc in E1. destruct (N.eqb_spec d 58) as [->|Hd].
    + apply bind_inv in H as (x0 & s2 & E & H). injection E as _ <-. injection H as <- <-. right. right. exists [a; b; c; 58]. split; [reflexivity|]. apply SchSip. now apply sip4.
    + destruct (lc d 115) eqn:E2; cbn [andb] in H.
      * destruct r as [|x r]; [discriminate|]. destruct (N.eqb_spec x 58) as [->|]; [|apply otherScheme_out in H; auto]. apply bind_inv in H as (x0 & s2 & E & H). injection E as _ <-. injection H as <- <-.
        right. right. exists [a; b; c; d; 58]. split; [reflexivity|]. apply SchSips. now apply sips5.
      * rewrite andb_false_r in H. rewrite andb_false_r in H. apply otherScheme_out in H. auto.
  - destruct (lc a 116 && (lc b 101 && lc c 108))%bool eqn:E2; cbn [andb] in H.
    + destruct (N.eqb_spec d 58) as [->|Hd].
      * apply bind_inv in H as (x0 & s2 & E & H). injection E as _ <-. injection H as <- <-. right. right. exists [a; b; c; 58]. split; [reflexivity|]. now apply tel4.
      * rewrite andb_false_r in H. apply otherScheme_out in H. auto.
    + destruct (lc a 117 && (lc b 114 && lc c 110) && (d =? 58))%bool; [|apply otherScheme_out in H; auto]. apply bind_inv in H as (x0 & s2 & E & H). injection H as <- _. auto.
Qed.
Lemma scheme_complete e sc t k u : schemeRead sc t -> parseScheme e (mkst (t ++ k) u) = Ok sc (mkst k u).
Proof.
  intros H. unfold parseScheme. rewrite onRest_eq. destruct sc; cbn in H; try contradiction.
  - inversion H as [t' Ht|]; subst. pose proof (same_length _ _ Ht) as L. destruct t as [|a [|b [|c [|d [|]]]]]; try discriminate. apply sip4 in Ht as [Ht ->]. cbn [app]. rewrite <- andb_assoc in Ht. rewrite Ht. reflexivity.
  - inversion H as [|t' Ht]; subst. pose proof (same_length _ _ Ht) as L. destruct t as [|a [|b [|c [|d [|x [|]]]]]]; try discriminate. apply sips5 in Ht as (Ht & Hd & ->). cbn [app]. rewrite <- andb_assoc in Ht. rewrite Ht, Hd.
    destruct (N.eqb_spec d 58) as [->|]; [discriminate|]. reflexivity.
  - pose proof (same_length _ _ H) as L. destruct t as [|a [|b [|c [|d [|]]]]]; try discriminate. apply tel4 in H as [H ->]. cbn [app]. rewrite H.
    assert (N1 : lc a 115 = false). { apply andb_prop in H as [H _]. destruct (lc a 115) eqn:E; [|reflexivity]. apply lc_iff in H, E; [congruence|cbn; tauto|cbn; tauto]. } rewrite N1. reflexivity.
Qed.
Lemma exact_seq_alloc {A} e n (p : P A) R : exact e p R -> exact e (allocStruct n ;;; p) R.
Proof.
  intros [S C]. split.
  - intros s v s' H. apply bind_inv in H as (x & s1 & E & H). apply alloc_inv in E as [E _]. apply S in H. now rewrite E in H.
  - intros HI t v k u H. rewrite (bind_ok _ _ _ _ _ _ (rt_alloc e n _ _ HI)). now apply C.
Qed.
Lemma exact_map {A B} e (p : P A) (f : A -> B) R : exact e p R -> exact e (x <- p ;; ret (f x)) (fun t v k => exists x, v = f x /\ R t x k).
Proof.
  intros [S C]. split.
  - intros s v s' H. apply bind_inv in H as (x & s1 & E & H). injection H as <- <-. apply S in E as (t & Er & H). exists t. eauto.
  - intros HI t v k u (x & -> & H). destruct (C HI _ _ _ u H) as [u' E]. exists u'. rewrite (bind_ok _ _ _ _ _ _ E). reflexivity.
Qed.
Definition specRead (e : env) (params : bool) (sc : uscheme) (t : bytes) (v : auri) (k : bytes) : Prop :=
  match sc with
  | USip | USips => exists u, v = ASip u /\ (if params then UriRead e (match sc with USips => true | _ => false end) t u k else UriBareRead e (match sc with USips => true | _ => false end) t u k)
  | UTel => exists u, v = ATel u /\ (if params then TelRead e t u k else TelBareRead t u k)
  | _ => False
  end.
Lemma exact_spec e params sc : exact e (parseSpec params sc) (specRead e params sc).
Proof.
  destruct sc; cbn [parseSpec].
  - apply exact_seq_alloc. destruct params; [apply (exact_map e _ ASip _ (exact_uriAfterScheme e false))|apply (exact_map e _ ASip _ (exact_uriBare e false))].
  - apply exact_seq_alloc. destruct params; [apply (exact_map e _ ASip _ (exact_uriAfterScheme e true))|apply (exact_map e _ ASip _ (exact_uriBare e true))].
  - apply exact_seq_alloc. destruct params; [apply (exact_map e _ ATel _ (exact_telAfterScheme e))|apply (exact_map e _ ATel _ (exact_telBare e))].
  - split; [discriminate|contradiction].
  - split; [discriminate|contradiction].
Qed.
Lemma auri_split e params t v k : AUriRead e params t v k <-> exists sc ts t', t = ts ++ t' /\ schemeRead sc ts /\ specRead e params sc t' v k.
Proof.
  split.
  - intros [ts sec t' u k' Hs Hu|ts t' u k' Hs Hu].
    + exists (if sec then USips else USip), ts, t'. split; [reflexivity|]. destruct sec; (split; [exact Hs|]); exists u; auto.
    + exists UTel, ts, t'. split; [reflexivity|]. split; [exact Hs|]. exists u. auto.
  - intros (sc & ts & t' & -> & Hs & Hu). destruct sc; cbn in Hs, Hu; try contradiction; destruct Hu as (u & -> & Hu).
    + now apply AUsip with (sec := false).
    + now apply AUsip with (sec := true).
    + now apply AUtel.
Qed.
(** The two steps together. *)
Lemma auri_sound e params s sc s1 v s2 : parseScheme e s = Ok sc s1 -> parseSpec params sc e s1 = Ok v s2 -> exists t, rest s = t ++ rest s2 /\ AUriRead e params t v (rest s2).
Proof.
  intros E1 E2. apply (ex_sound _ _ _ (exact_spec e params sc)) in E2 as (t & Er & Ht). apply scheme_sound in E1 as [-> |[-> |(ts & Es & Hs)]]; [contradiction|contradiction|].
  exists (ts ++ t). split; [rewrite Es, Er, app_assoc; reflexivity|]. apply auri_split. exists sc, ts, t. auto.
Qed.
Lemma auri_complete e params t v k u : infinite e -> AUriRead e params t v k ->
  exists sc s1 u', parseScheme e (mkst (t ++ k) u) = Ok sc s1 /\ parseSpec params sc e s1 = Ok v (mkst k u').
Proof.
  intros HI H. apply auri_split in H as (sc & ts & t' & -> & Hs & Ht). destruct (ex_complete _ _ _ (exact_spec e params sc) HI _ _ _ u Ht) as [u' E]. exists sc, (mkst (t' ++ k) u), u'.
  split; [|exact E]. rewrite <- app_assoc. now apply scheme_complete.
Qed.
Lemma exact_addrSpec e : exact e parseAddrSpec (fun t a k => exists u, a = mkaddr false None u /\ AUriRead e true t u k).
Proof.
  split.
  - intros s v s' H. apply bind_inv in H as (sc & s1 & E1 & H). apply bind_inv in H as (u & s2 & E2 & H). injection H as <- <-. destruct (auri_sound _ _ _ _ _ _ _ E1 E2) as (t & Er & Ht). exists t. eauto.
  - intros HI t v k u (x & -> & H). destruct (auri_complete _ _ _ _ _ u HI H) as (sc & s1 & u' & E1 & E2). exists u'. unfold parseAddrSpec. rewrite (bind_ok _ _ _ _ _ _ E1), (bind_ok _ _ _ _ _ _ E2). reflexivity.
Qed.
Lemma blanks_sound r r' : ParseLWS r = (r', true) -> exists w, r = w ++ r' /\ Blanks w r'.
Proof. intros H. apply (ex_sound _ _ _ (exact_lws (defaultEnv None)) (mkst r 0) tt (mkst r' 0)). unfold pLWS, liftB. cbn [rest used]. now rewrite H. Qed.
Lemma blanks_complete w r' : Blanks w r' -> ParseLWS (w ++ r') = (r', true).
Proof.
  intros H. destruct (ex_complete _ _ _ (exact_lws (defaultEnv None)) eq_refl w tt r' 0 H) as [u' E]. unfold pLWS, liftB in E. cbn [rest used] in E. destruct (ParseLWS (w ++ r')) as [r []]; [|discriminate].
  injection E as -> _. reflexivity.
Qed.
Lemma tokensBody_eq e r u : tokensBody tt e (mkst r u) =
  match r with [] => Ok (inr tt) (mkst r u) | x :: _ => if rfcToken x then match ParseLWS (snd (span (inset SIP_TOKEN) r)) with (r1, true) => Ok (inl tt) (mkst r1 u) | (_, false) => Fail (mkst r u) end else Ok (inr tt) (mkst r u) end.
Proof.
  unfold tokensBody. rewrite onRest_eq. destruct r as [|x r]; [reflexivity|]. unfold IsSipToken. rewrite token_rfc. destruct (rfcToken x); cbn [negb]; [|reflexivity]. destruct (ParseLWS _) as [r1 []]; reflexivity.
Qed.
Lemma tokensLoop_sound e : forall n r u s', (List.length r <= n)%nat -> loopP tokensBody tt e (mkst r u) = Ok tt s' -> exists t, r = t ++ rest s' /\ TokensRead t (rest s').
Proof.
  induction n as [|n IH]; intros r u s' Hn H; rewrite loopP_unfold in H by apply tok_progresses; rewrite tokensBody_eq in H; (destruct r as [|x r]; [injection H as <-; exists []; split; [reflexivity|now apply TkNil]|]); [cbn in Hn; lia|].
  destruct (rfcToken x) eqn:Hx; [|injection H as <-; exists []; split; [reflexivity|apply TkNil; cbn; now rewrite Hx]].
  destruct (span (inset SIP_TOKEN) (x :: r)) as [t q] eqn:Sp. cbn [snd] in H. destruct (ParseLWS q) as [r1 []] eqn:L; [|discriminate].
  pose proof (span_app _ _ _ _ Sp) as E1. pose proof (span_stops _ _ _ _ Sp) as E2. pose proof (span_all _ _ _ _ Sp) as E3. rewrite tokens_rfc in E3. rewrite stops_token in E2.
  assert (Ht : t <> []). { intros ->. cbn [app] in E1. rewrite <- E1 in E2. cbn in E2. now rewrite Hx in E2. }
  apply blanks_sound in L as (w & -> & Bw). destruct (IH r1 u s') as (ts & -> & Hts); [|exact H|].
  { apply (f_equal (@List.length N)) in E1. repeat rewrite app_length in E1. destruct t; [congruence|]. cbn [List.length] in *. lia. }
  exists (t ++ w ++ ts). split; [rewrite E1, <- !app_assoc; reflexivity|]. apply TkCons; [|exact Bw|exact Hts]. split; [exact Ht|]. split; [reflexivity|]. split; [exact E3|exact E2].
Qed.
Lemma tokensLoop_complete e t k u : TokensRead t k -> loopP tokensBody tt e (mkst (t ++ k) u) = Ok tt (mkst k u).
Proof.
  intros H. induction H as [k Hk|t w ts k Ht Bw Hts IH]; rewrite loopP_unfold by apply tok_progresses; rewrite tokensBody_eq.
  - cbn [app]. destruct k as [|x k]; [reflexivity|]. cbn in Hk. apply negb_true_iff in Hk. rewrite Hk. reflexivity.
  - rewrite <- !app_assoc. destruct Ht as (Hne & _ & F & St). rewrite (span_exact (inset SIP_TOKEN) t (w ++ ts ++ k)) by (rewrite ?tokens_rfc, ?stops_token; assumption). cbn [snd].
    rewrite (blanks_complete w (ts ++ k) Bw). destruct t as [|x t]; [congruence|]. cbn [app]. cbn in F. apply andb_prop in F as [-> _]. exact IH.
Qed.
Lemma storeSince_inv e r0 s v s' t : r0 = t ++ rest s -> storeSince r0 e s = Ok v s' -> v = t /\ rest s' = rest s.
Proof.
  intros E H. unfold storeSince, onRest, allocCString in H. destruct (leMem _ _); [|discriminate]. injection H as <- <-. split; [|reflexivity]. rewrite E, app_length, Nat.add_sub, firstn_app, Nat.sub_diag, firstn_all. cbn. now rewrite app_nil_r.
Qed.
Lemma exact_tokens e : exact e parseTokens (fun t v k => v = t /\ TokensRead t k).
Proof.
  split.
  - intros [r u] v s' H. unfold parseTokens in H. rewrite onRest_eq in H. apply bind_inv in H as ([] & s1 & E & H). apply tokensLoop_sound with (n := List.length r) in E as (t & Er & Ht); [|lia].
    destruct (storeSince_inv _ _ _ _ _ _ Er H) as [-> R]. rewrite R. cbn [rest]. exists t. auto.
  - intros HI t v k u [-> H]. unfold parseTokens. rewrite onRest_eq. rewrite (bind_ok _ _ _ _ _ _ (tokensLoop_complete e t k u H)). unfold storeSince. rewrite onRest_eq.
    replace (firstn _ _) with t; [rewrite rt_allocCString by exact HI; eexists; reflexivity|]. rewrite app_length, Nat.add_sub, firstn_app, Nat.sub_diag, firstn_all. cbn. now rewrite app_nil_r.
Qed.
Lemma TokensRead_head t k : t <> [] -> TokensRead t k -> exists x t', t = x :: t' /\ rfcToken x = true.
Proof. intros Hn H. destruct H as [k _|t w ts k Ht _ _]; [congruence|]. destruct (TokenRead_head _ _ _ Ht) as (x & t' & -> & Hx). exists x, (t' ++ w ++ ts). auto. Qed.
Lemma quoted_not_token x : ((x =? 34) || IsLwsChar x)%bool = true -> rfcToken x = false.
Proof. intros H. destruct (rfcToken x) eqn:T1; [|reflexivity]. exfalso. rewrite (token_lws x T1), orb_false_r in H. apply N.eqb_eq in H. subst x. discriminate. Qed.
Lemma display_sound e s v s' : rest s <> [] -> parseDisplayName e s = Ok v s' -> exists t, rest s = t ++ rest s' /\ DisplayRead t v (rest s').
Proof.
  intros Hn H. unfold parseDisplayName, onRest in H. destruct (rest s) as [|x r] eqn:R; [congruence|]. unfold IsSipToken in H. rewrite token_rfc in H. destruct (rfcToken x) eqn:Hx.
  - apply bind_inv in H as (n & s1 & E & H). injection H as <- <-. apply (ex_sound _ _ _ (exact_tokens e)) in E as (t & Er & -> & Ht). rewrite R in Er. exists t. split; [exact Er|]. apply DRtokens; [|exact Ht].
    intros ->. cbn [app] in Er. inversion Ht as [k Hk|t w ts k Hr _ _ E0]; subst.
    + rewrite <- Er in Hk. cbn in Hk. rewrite Hx in Hk. discriminate.
    + destruct (TokenRead_head _ _ _ Hr) as (y & t' & -> & _). discriminate.
  - apply bind_inv in H as (n & s1 & E & H). injection H as <- <-. apply (ex_sound _ _ _ (exact_quoted e)) in E as (t & Er & Ht). rewrite R in Er. exists t. split; [exact Er|]. now apply DRquoted.
Qed.
Lemma display_complete e t v k u : infinite e -> DisplayRead t v k -> exists u', parseDisplayName e (mkst (t ++ k) u) = Ok v (mkst k u').
Proof.
  intros HI [t' k' Hn Ht|t' n k' Hq]; unfold parseDisplayName; rewrite onRest_eq.
  - destruct (ex_complete _ _ _ (exact_tokens e) HI _ _ _ u (conj eq_refl Ht)) as [u' E]. exists u'. destruct (TokensRead_head _ _ Hn Ht) as (x & q & -> & Hx). cbn [app] in *. unfold IsSipToken. rewrite token_rfc, Hx.
    rewrite (bind_ok _ _ _ _ _ _ E). reflexivity.
  - destruct (ex_complete _ _ _ (exact_quoted e) HI _ _ _ u Hq) as [u' E]. exists u'. destruct (QuotedRead_head _ _ _ Hq) as (x & q & -> & Hx). cbn [app] in *. unfold IsSipToken. rewrite token_rfc, (quoted_not_token x Hx).
    rewrite (bind_ok _ _ _ _ _ _ E). reflexivity.
Qed.
Lemma display_head t v k : DisplayRead t v k -> exists x t', t = x :: t' /\ x <> 60.
Proof.
  intros [t' k' Hn Ht|t' n k' Hq].
  - destruct (TokensRead_head _ _ Hn Ht) as (x & q & -> & Hx). exists x, q. split; [reflexivity|]. intros ->. discriminate.
  - destruct (QuotedRead_head _ _ _ Hq) as (x & q & -> & Hx). exists x, q. split; [reflexivity|]. intros ->. discriminate.
Qed.
Lemma langle_sound r r' : ParseLeftAngleQuote r = (r', true) -> exists c, r = c ++ 60 :: r' /\ Skip c (60 :: r').
Proof.
  intros H. unfold ParseLeftAngleQuote in H. destruct r as [|x r]; [discriminate|]. destruct (sws_split (x :: r)) as (c & Ec & Sc). destruct (ParseSWS_2 (x :: r)) as [|y q]; [discriminate|].
  destruct (N.eqb_spec y 60) as [->|]; [|discriminate]. injection H as ->. eauto.
Qed.
Lemma langle_complete c r' : Skip c (60 :: r') -> ParseLeftAngleQuote (c ++ 60 :: r') = (r', true).
Proof.
  intros H. pose proof (skip_eq _ _ H) as E. unfold ParseLeftAngleQuote. rewrite E. destruct (c ++ 60 :: r') eqn:Q; [destruct c; discriminate|]. reflexivity.
Qed.
Lemma exact_rangle e : exact e pRightAngleQuote (fun t _ k => exists b, t = 62 :: b /\ Skip b k).
Proof.
  split.
  - intros s v s' H. unfold pRightAngleQuote, liftB, ParseRightAngleQuote in H. destruct (rest s) as [|x r]; [discriminate|]. destruct (N.eqb_spec x 62) as [->|]; [|discriminate]. injection H as _ <-. cbn [rest].
    destruct (sws_split r) as (b & Eb & Sb). exists (62 :: b). split; [cbn [app]; f_equal; exact Eb|]. eauto.
  - intros _ t [] k u (b & -> & Sb). exists u. unfold pRightAngleQuote, liftB, ParseRightAngleQuote. cbn [rest used app]. cbn [N.eqb Pos.eqb negb]. now rewrite (skip_eq _ _ Sb).
Qed.
Lemma exact_nameAddr e : exact e parseNameAddr (NameAddrRead e).
Proof.
  split.
  - intros s v s' H. apply bind_inv in H as (x0 & s0 & E & H). apply (ex_sound _ _ _ (exact_sws e)) in E as (a & Ea & Sa). apply bind_inv in H as (n & s1 & E & H).
    apply bind_inv in H as (sc & s2 & E1 & H). apply bind_inv in H as (u & s3 & E2 & H). destruct (auri_sound _ _ _ _ _ _ _ E1 E2) as (tu & Eu & Hu). clear E1 E2.
    apply bind_inv in H as (x1 & s4 & E3 & H). injection H as <- <-. apply (ex_sound _ _ _ (exact_rangle e)) in E3 as (tb & Eb & b & -> & Sb). cbn [app] in Eb. rewrite Eb in Hu, Eu.
    unfold onRest in E. destruct (rest s0) as [|x r1] eqn:R0; [discriminate|]. destruct (N.eqb_spec x 60) as [->|Hx]; cbn [negb] in E.
    + apply bind_inv in E as (x2 & s5 & E & E5). injection E as _ <-. injection E5 as <- <-. cbn [rest] in Eu. exists (a ++ 60 :: tu ++ 62 :: b). rewrite Eu in Ea, Sa. split; [rewrite Ea; repeat (rewrite <- app_assoc; cbn [app]); reflexivity|].
      apply NAnone; [exact Sa|exact Hu|exact Sb].
    + apply bind_inv in E as (d & s5 & E & E5). apply bind_inv in E5 as (x2 & s6 & E6 & E5). injection E5 as <- <-. apply display_sound in E as (td & Ed & Hd); [|rewrite R0; discriminate].
      unfold pLeftAngleQuote, liftB in E6. destruct (ParseLeftAngleQuote (rest s5)) as [r' []] eqn:L; [|discriminate]. injection E6 as _ <-. cbn [rest] in Eu. apply langle_sound in L as (c & Ec & Sc). subst r'.
      rewrite Ec in Hd, Ed. rewrite R0 in Ed. rewrite Ed in Ea, Sa. exists (a ++ td ++ c ++ 60 :: tu ++ 62 :: b). split; [rewrite Ea; repeat (rewrite <- app_assoc; cbn [app]); reflexivity|].
      apply NAname; [exact Sa|exact Hd|exact Sc|exact Hu|exact Sb].
  - intros HI t v k u H. destruct H as [a tu w b k Sa Hu Sb|a td n c tu w b k Sa Hd Sc Hu Sb]; repeat (rewrite <- app_assoc; cbn [app]); unfold parseNameAddr.
    + destruct (ex_complete _ _ _ (exact_sws e) HI _ tt _ u Sa) as [u1 E1]. rewrite (bind_ok _ _ _ _ _ _ E1). unfold bind at 1. rewrite onRest_eq. change (negb (60 =? 60)) with false. cbv iota. unfold bind at 1, goto. unfold ret at 1. cbn [used].
      destruct (auri_complete _ _ _ _ _ u1 HI Hu) as (sc & s1 & u2 & E2 & E3). rewrite (bind_ok _ _ _ _ _ _ E2), (bind_ok _ _ _ _ _ _ E3).
      destruct (ex_complete _ _ _ (exact_rangle e) HI (62 :: b) tt k u2 (ex_intro _ b (conj eq_refl Sb))) as [u3 E4]. cbn [app] in E4. exists u3. rewrite (bind_ok _ _ _ _ _ _ E4). reflexivity.
    + destruct (ex_complete _ _ _ (exact_sws e) HI _ tt _ u Sa) as [u1 E1]. rewrite (bind_ok _ _ _ _ _ _ E1). unfold bind at 1. rewrite onRest_eq.
      destruct (display_complete e td n (c ++ 60 :: tu ++ 62 :: b ++ k) u1 HI Hd) as [u2 E2]. destruct (display_head _ _ _ Hd) as (x & td' & -> & Hx). cbn [app] in *. rewrite (proj2 (N.eqb_neq x 60) Hx). cbn [negb].
      rewrite (bind_ok _ _ _ _ _ _ E2). unfold bind at 1. unfold pLeftAngleQuote, liftB. cbn [rest used]. rewrite (langle_complete _ _ Sc). unfold ret at 1.
      destruct (auri_complete _ _ _ _ _ u2 HI Hu) as (sc & s1 & u3 & E4 & E5). rewrite (bind_ok _ _ _ _ _ _ E4), (bind_ok _ _ _ _ _ _ E5).
      destruct (ex_complete _ _ _ (exact_rangle e) HI (62 :: b) tt k u3 (ex_intro _ b (conj eq_refl Sb))) as [u4 E6]. cbn [app] in E6. exists u4. rewrite (bind_ok _ _ _ _ _ _ E6). reflexivity.
Qed.
Lemma skip_lws a k : Skip a k -> a = [] \/ LWS a.
Proof.
  intros H. pose proof (skip_eq _ _ H) as E. destruct (ParseSWS_consumes (a ++ k)) as (w & Ew & Hw). rewrite E in Ew. apply app_inv_tail in Ew. now subst w.
Qed.
Lemma lws_chars w : w = [] \/ LWS w -> Forall (fun x => x <> 58) w.
Proof.
  assert (Y : forall w, Forall wsp w -> Forall (fun x => x <> 58) w) by (intros w0; apply Forall_impl; intros x [->| ->]; discriminate).
  intros [->|[w0 _ H|w1 w2 H1 _ H2]]; [constructor|auto|]. apply Forall_app. split; [auto|]. repeat (constructor; [discriminate|]). auto.
Qed.
Lemma blanks_chars w k : Blanks w k -> Forall (fun x => x <> 58) w.
Proof.
  assert (Y : forall w, Forall wsp w -> Forall (fun x => x <> 58) w) by (intros w0; apply Forall_impl; intros x [->| ->]; discriminate).
  intros [w0 k' H _ _|w1 w2 k' H1 _ H2 _]; [auto|]. apply Forall_app. split; [auto|]. repeat (constructor; [discriminate|]). auto.
Qed.
Lemma tokens_chars t k : TokensRead t k -> Forall (fun x => x <> 58) t.
Proof.
  intros H. induction H as [k _|t w ts k (_ & _ & F & _) Bw _ IH]; [constructor|]. apply Forall_app. split; [|apply Forall_app; split; [exact (blanks_chars _ _ Bw)|exact IH]].
  apply Forall_forall. intros x Hx ->. rewrite forallb_forall in F. apply F in Hx. discriminate.
Qed.
Lemma lc_alpha x v : In v [115; 116; 117] -> lc x v = true -> IsAlpha x = true.
Proof.
  intros Iv H. assert (Lx : x < 256). { unfold lc in H. apply N.eqb_eq in H. destruct (N.ltb_spec x 256) as [|G]; [assumption|]. pose proof (NameProofs.lor32_big x G). cbn in Iv. intuition lia. }
  pose proof (sweep (fun x => forallb (fun v => implb (lc x v) (IsAlpha x)) [115; 116; 117]) ltac:(vm_compute; reflexivity) x Lx) as S. cbv beta in S. rewrite forallb_forall in S. specialize (S v Iv). rewrite H in S. exact S.
Qed.
Lemma scheme_nonalpha e x r u : IsAlpha x = false -> exists s', parseScheme e (mkst (x :: r) u) = Fail s'.
Proof.
  intros H. assert (Ho : otherScheme e (mkst (x :: r) u) = Fail (mkst (x :: r) u)) by (unfold otherScheme; rewrite onRest_eq, H; reflexivity).
  assert (L : forall v, In v [115; 116; 117] -> lc x v = false) by (intros v Iv; destruct (lc x v) eqn:E; [apply (lc_alpha _ _ Iv) in E; congruence|reflexivity]).
  exists (mkst (x :: r) u). unfold parseScheme. rewrite onRest_eq. rewrite !L by (cbn; tauto). cbn [andb]. destruct r as [|b [|c [|d r]]]; exact Ho.
Qed.
Lemma lws_nonalpha x : IsLwsChar x = true -> IsAlpha x = false.
Proof.
  rewrite IsLwsChar_spec. intros H. apply orb_prop in H as [H|H]; [apply orb_prop in H as [H|H]; [apply isWsp_spec in H as [->| ->]|apply N.eqb_eq in H; subst x]|apply N.eqb_eq in H; subst x]; reflexivity.
Qed.
Lemma skip_ne_lws a k : Skip a k -> a <> [] -> exists x t, a = x :: t /\ IsLwsChar x = true.
Proof.
  intros H Hn. destruct a as [|x a]; [congruence|]. exists x, a. split; [reflexivity|]. destruct (IsLwsChar x) eqn:L; [reflexivity|]. exfalso. apply skip_eq in H. cbn [app] in H. rewrite ParseSWS_noop in H by (cbn; now rewrite L).
  apply (f_equal (@List.length N)) in H. cbn in H. rewrite app_length in H. lia.
Qed.
(** The scheme is tried first and fails on everything that starts with a display name. *)
Lemma nameAddr_noscheme e t a k u : infinite e -> NameAddrRead e t a k -> exists x r, t ++ k = x :: r /\ ((x = 60 \/ x = 34) \/ exists s', parseScheme e (mkst (t ++ k) u) = Fail s').
Proof.
  intros HI H. destruct H as [a tu w b k Sa Hu Sb|a td n c tu w b k Sa Hd Sc Hu Sb]; repeat (rewrite <- app_assoc; cbn [app]).
  - destruct a as [|x a]; [exists 60, (tu ++ 62 :: b ++ k); split; [reflexivity|]; auto|]. destruct (skip_ne_lws _ _ Sa ltac:(discriminate)) as (x' & t' & [= <- <-] & L). exists x, (a ++ 60 :: tu ++ 62 :: b ++ k). split; [reflexivity|].
    right. cbn [app]. now apply scheme_nonalpha, lws_nonalpha.
  - destruct a as [|x a].
    + cbn [app]. remember (c ++ 60 :: tu ++ 62 :: b ++ k) as k0 eqn:Ek0. destruct Hd as [td k' Hn Ht|td v k' Hq].
      * destruct (TokensRead_head _ _ Hn Ht) as (x & q & -> & Hx). exists x, (q ++ k'). split; [reflexivity|]. right. rewrite Ek0, app_assoc. apply scheme_name; [exact HI|]. apply Forall_app. split; [exact (tokens_chars _ _ Ht)|].
        apply lws_chars. exact (skip_lws _ _ Sc).
      * destruct (QuotedRead_head _ _ _ Hq) as (x & q & -> & Hx). exists x, (q ++ k'). split; [reflexivity|]. apply orb_prop in Hx as [Hx|Hx]; [apply N.eqb_eq in Hx; auto|].
        right. cbn [app]. now apply scheme_nonalpha, lws_nonalpha.
    + destruct (skip_ne_lws _ _ Sa ltac:(discriminate)) as (x' & t' & [= <- <-] & L). exists x, (a ++ td ++ c ++ 60 :: tu ++ 62 :: b ++ k). split; [reflexivity|]. right. cbn [app]. now apply scheme_nonalpha, lws_nonalpha.
Qed.
Lemma auri_head e params t v k : AUriRead e params t v k -> exists x t', t = x :: t' /\ x <> 60 /\ x <> 34.
Proof.
  assert (Q : forall ts c, sameNoCase ts c -> c = s2b "sip:" \/ c = s2b "sips:" \/ c = s2b "tel:" -> exists x t', ts = x :: t' /\ x <> 60 /\ x <> 34).
  { intros ts c H Hc. pose proof (same_length _ _ H) as L. destruct ts as [|x ts]; [destruct Hc as [->|[->| ->]]; discriminate|]. exists x, ts. split; [reflexivity|].
    split; intros ->; unfold sameNoCase in H; destruct Hc as [->|[->| ->]]; cbn in H; discriminate. }
  intros [ts sec t' u k' Hs Hu|ts t' u k' Hs Hu].
  - destruct Hs as [ts Hs|ts Hs]; apply Q in Hs as (x & q & -> & H); auto; exists x, (q ++ t'); auto.
  - apply Q in Hs as (x & q & -> & H); auto. exists x, (q ++ t'); auto.
Qed.
Lemma exact_addr e params : exact e (parseAddr params) (AddrRead e params).
Proof.
  split.
  - intros s v s' H. unfold parseAddr, onRest in H. destruct (rest s) as [|x r] eqn:R; [discriminate|]. destruct ((x =? 60) || (x =? 34))%bool.
    + apply (ex_sound _ _ _ (exact_nameAddr e)) in H as (t & Er & Ht). rewrite R in Er. exists t. split; [exact Er|]. now apply ARname.
    + apply bind_inv in H as (o & s1 & E & H). unfold orRestore in E. destruct (bind parseScheme (fun sc => ret (inl sc)) e s) as [o' s0|s0| |] eqn:E1; try discriminate.
      * injection E as -> ->. apply bind_inv in E1 as (sc & s2 & E2 & E1). injection E1 as <- <-. apply bind_inv in H as (u & s3 & E3 & H). injection H as <- <-.
        destruct (auri_sound _ _ _ _ _ _ _ E2 E3) as (t & Er & Ht). rewrite R in Er. exists t. split; [exact Er|]. now apply ARbare.
      * apply bind_inv in E as (a & s2 & E2 & E). injection E as <- <-. injection H as <- <-. apply (ex_sound _ _ _ (exact_nameAddr e)) in E2 as (t & Er & Ht). cbn [rest] in Er. rewrite R in Er.
        exists t. split; [exact Er|]. now apply ARname.
  - intros HI t v k u [t' a k' H|t' a k' H]; unfold parseAddr; rewrite onRest_eq.
    + destruct (auri_complete _ _ _ _ _ u HI H) as (sc & s1 & u' & E1 & E2). destruct (auri_head _ _ _ _ _ H) as (x & q & -> & H60 & H34). cbn [app] in *.
      rewrite (proj2 (N.eqb_neq x 60) H60), (proj2 (N.eqb_neq x 34) H34). cbn [orb]. exists u'. unfold bind at 1, orRestore. rewrite (bind_ok _ _ _ _ _ _ E1). unfold ret at 1. rewrite (bind_ok _ _ _ _ _ _ E2). reflexivity.
    + destruct (nameAddr_noscheme e t' a k' u HI H) as (x & q & Eq & Hx). destruct (ex_complete _ _ _ (exact_nameAddr e) HI _ _ _ u H) as [u1 E1]. rewrite Eq in *. destruct Hx as [Hx|[s' Hs]].
      * exists u1. replace ((x =? 60) || (x =? 34))%bool with true; [exact E1|]. destruct Hx as [->| ->]; reflexivity.
      * destruct ((x =? 60) || (x =? 34))%bool; [eauto|]. unfold bind at 1, orRestore. unfold bind at 1. rewrite Hs. cbn [rest used].
        destruct (ex_complete _ _ _ (exact_nameAddr e) HI _ _ _ (used s') H) as [u2 E2]. rewrite Eq in E2. exists u2. rewrite (bind_ok _ _ _ _ _ _ E2). reflexivity.
Qed.

(** ** Start line *)
Lemma exact_word e w : w <> 0 -> (18446744073709551616 mod w = 0) -> exact e (pUIntW w) (WordRead w).
Proof.
  intros Hw Hm. assert (M : forall n, (n mod 18446744073709551616) mod w = n mod w).
  { intros n. assert (X : 18446744073709551616 = w * (18446744073709551616 / w)) by (pose proof (N.div_mod 18446744073709551616 w Hw) as D; rewrite Hm, N.add_0_r in D; exact D).
    rewrite X at 1. assert (Q0 : 18446744073709551616 / w <> 0) by (intros Q; rewrite Q, N.mul_0_r in X; discriminate). rewrite N.mod_mul_r by assumption. rewrite N.mul_comm, N.mod_add by exact Hw. now apply N.mod_mod. }
  eapply exact_iff; [|apply (exact_map e pUInt (fun v => v mod w) _ (exact_uint e))]. intros t v k. cbv beta. unfold NumberRead, WordRead. split.
  - intros (x & -> & H1 & H2 & H3 & ->). rewrite M. auto.
  - intros (H1 & H2 & H3 & ->). exists (decVal t mod 18446744073709551616). rewrite M. auto.
Qed.
Lemma exact_method e : exact e parseMethod MethodRead.
Proof.
  split.
  - intros s m s' H. unfold parseMethod, onRest in H. destruct (GetSipMethodIndex (rest s)) as [[i mid]|] eqn:G; [|discriminate]. unfold SIP_METHOD_UNKNOWN in H. destruct (N.eqb_spec i 0) as [->|Hi].
    + apply bind_inv in H as (t & s1 & E & H). injection H as <- <-. destruct (method_skips _ _ _ G) as (p & Er & Fp). destruct (fromPos_inv _ p _ _ _ _ _ Er E) as (q & Et & Em & Fq & St & Hne).
      rewrite stops_token in St. exists t. split; [rewrite Er, Em, Et, app_assoc; reflexivity|]. apply MRother.
      * split; [exact Hne|]. split; [reflexivity|]. split; [|exact St]. rewrite Et, <- tokens_rfc, forallb_app, Fq, andb_true_r. exact Fp.
      * intros i I. assert (NE : nameEnds (rest s1)) by now apply nameEnds_stops. pose proof (method_complete _ _ _ I NE) as C. rewrite Et, <- app_assoc, <- Em, <- Er, G in C. injection C as C _. apply methodNames_nz in I. congruence.
      * intros R I. rewrite R, app_nil_r in Em. rewrite Em, <- Et in Er. apply method_panic in I. rewrite Er in G. congruence.
    + injection H as <- <-. assert (X : GetSipMethodIndex (rest s) = Some (i, mid) /\ i <> SIP_METHOD_UNKNOWN) by (split; [exact G|exact Hi]). apply method_spec in X as (name & I & Er & NE). cbn [rest].
      exists name. split; [exact Er|]. apply MRknown; [exact I|]. now apply nameEnds_stops.
  - intros HI t m k u H. destruct H as [name i k I St|t k (Tne & _ & Tf & St) Nm Np].
    + exists u. unfold parseMethod. rewrite onRest_eq. rewrite (method_complete _ _ k I) by now apply nameEnds_stops. rewrite (proj2 (N.eqb_neq i SIP_METHOD_UNKNOWN) (methodNames_nz _ _ I)). reflexivity.
    + destruct k as [|y k]; [|apply (rt_method e (MOther t) (y :: k) u HI); [split; [split; assumption|exact Nm]|discriminate|exact St]].
      rewrite app_nil_r. unfold parseMethod. rewrite onRest_eq. destruct (GetSipMethodIndex t) as [[i mid]|] eqn:G.
      * destruct (N.eqb_spec i SIP_METHOD_UNKNOWN) as [->|Hi].
        -- destruct (method_skips _ _ _ G) as (p & Ep & Fp). rewrite Ep in Tf, Tne. rewrite forallb_app in Tf. apply andb_prop in Tf as [_ Tf]. rewrite <- tokens_rfc in Tf.
           destruct (rt_fromPos e SIP_TOKEN p mid [] u HI Tf Tne eq_refl) as [u' E2]. rewrite app_nil_r in E2. rewrite <- Ep in E2. rewrite (bind_ok _ _ _ _ _ _ E2). eexists. reflexivity.
        -- exfalso. destruct (proj1 (method_spec _ _ _) (conj G Hi)) as (name & In1 & Er & Hr). destruct mid as [|z mid]; [rewrite app_nil_r in Er; subst name; exact (Nm _ In1)|].
           rewrite Er, forallb_app in Tf. apply andb_prop in Tf as [_ Tf]. cbn in Tf, Hr. unfold IsSipToken in Hr. rewrite token_rfc in Hr. rewrite Hr in Tf. discriminate.
      * exfalso. apply method_panic in G. exact (Np eq_refl G).
Qed.
Lemma digit_rfc x : IsDigit x = rfcDIGIT x. Proof. rewrite IsDigit_isDec. reflexivity. Qed.
Lemma digit_stops k : stops (inset DIGIT) k = stops rfcDIGIT k.
Proof. destruct k as [|x k]; cbn; [reflexivity|]. change (inset DIGIT x) with (IsDigit x). now rewrite digit_rfc. Qed.
Lemma versionDigits_sound e s v s' : (forall w, rest s = s2b "2.0" ++ w -> exists d w', w = d :: w' /\ IsDigit d = true) -> versionDigits (rest s) e s = Ok v s' -> exists t, rest s = t ++ rest s' /\ VersionRead t v (rest s').
Proof.
  intros N20. unfold versionDigits. destruct (span (inset DIGIT) (rest s)) as [ma r1] eqn:Sp. pose proof (span_app _ _ _ _ Sp) as E0. pose proof (span_all _ _ _ _ Sp) as Ha. destruct ma as [|a ma]; [discriminate|].
  destruct r1 as [|x mid]; [discriminate|]. destruct (N.eqb_spec x 46) as [->|]; [|discriminate]. cbn [negb]. intros H. apply bind_inv in H as (t & s1 & E & H). unfold onRest in H.
  destruct (Nat.leb_spec (List.length mid) (List.length (rest s1))) as [|Lt]; [discriminate|]. injection H as <- <-.
  destruct (fromPos_inv e ((a :: ma) ++ [46]) mid DIGIT s t s1) as (q & Et & Em & Fq & St & _); [rewrite E0, <- app_assoc; reflexivity|exact E|].
  rewrite <- app_assoc in Et. cbn [app] in Et. exists t. rewrite digit_stops in St. rewrite digits_rfc in Ha, Fq. split; [rewrite E0, Em, Et; cbn [app]; rewrite <- app_assoc; reflexivity|].
  assert (Hq : q <> []) by (intros ->; cbn [app] in Em; rewrite Em in Lt; lia). rewrite Et. change (a :: ma ++ 46 :: q) with ((a :: ma) ++ 46 :: q). apply VRother; auto; [discriminate|].
  intros H20. destruct (N20 (rest s1)) as (d & w' & Ew & Hd).
  - rewrite E0, Em. change (46 :: q ++ rest s1) with ((46 :: q) ++ rest s1). rewrite app_assoc, H20. reflexivity.
  - rewrite Ew in St. cbn in St. rewrite <- digit_rfc, Hd in St. discriminate.
Qed.
Lemma exact_versionAfter e : exact e parseVersionAfter VersionRead.
Proof.
  split.
  - intros s v s' H. unfold parseVersionAfter, onRest in H. destruct (rest s) as [|a r1] eqn:R; [discriminate|]. rewrite <- R in *.
    assert (D : (forall w, rest s = s2b "2.0" ++ w -> exists d w', w = d :: w' /\ IsDigit d = true) -> versionDigits (rest s) e s = Ok v s' -> exists t, rest s = t ++ rest s' /\ VersionRead t v (rest s')) by apply versionDigits_sound.
    destruct (N.eqb_spec a 50) as [->|Ha]; [|apply D; [|exact H]; intros w Ew; rewrite R in Ew; change (s2b "2.0" ++ w) with (50 :: 46 :: 48 :: w) in Ew; congruence].
    destruct r1 as [|b r2]; [discriminate|]. destruct (N.eqb_spec b 46) as [->|Hb]; [|apply D; [|exact H]; intros w Ew; rewrite R in Ew; change (s2b "2.0" ++ w) with (50 :: 46 :: 48 :: w) in Ew; congruence].
    destruct r2 as [|c r3]; [discriminate|]. destruct (N.eqb_spec c 48) as [->|Hc]; [|apply D; [|exact H]; intros w Ew; rewrite R in Ew; change (s2b "2.0" ++ w) with (50 :: 46 :: 48 :: w) in Ew; congruence].
    assert (V : stops rfcDIGIT r3 = true -> Ok V20 (mkst r3 (used s)) = Ok v s' -> exists t, rest s = t ++ rest s' /\ VersionRead t v (rest s')).
    { intros St [= <- <-]. exists (s2b "2.0"). split; [exact R|]. now apply VR20. }
    destruct r3 as [|d r4]; [apply V; [reflexivity|exact H]|]. destruct (IsDigit d) eqn:Hd; cbn [negb] in H; [apply D; [|exact H]; intros w Ew; rewrite R in Ew; change (s2b "2.0" ++ w) with (50 :: 46 :: 48 :: w) in Ew; injection Ew as <-; eauto|].
    apply V; [cbn; now rewrite <- digit_rfc, Hd|exact H].
  - intros HI t v k u H. destruct H as [k St|a b k Ha Hb Fa Fb St N20].
    + exact (rt_versionAfter e V20 k u HI Logic.I St).
    + assert (W : wfVersion (VOther (a ++ 46 :: b))) by (split; [exact N20|]; exists a, b; auto). exact (rt_versionAfter e (VOther (a ++ 46 :: b)) k u HI W St).
Qed.
Lemma sip4slash a b c d : sameNoCase [a; b; c; d] (s2b "SIP/") <-> (lc a 115 && lc b 105 && lc c 112)%bool = true /\ d = 47.
Proof.
  assert (SL : forall d, asciiLower d = 47 <-> d = 47).
  { intros z. split; [|intros ->; reflexivity]. unfold asciiLower. destruct (_ && _)%bool eqn:E; [|auto]. apply andb_prop in E as [E1 E2]. apply N.leb_le in E1, E2. lia. }
  unfold sameNoCase. change (map asciiLower (s2b "SIP/")) with [115; 105; 112; 47]. cbn [map]. rewrite !andb_true_iff, !lc_iff, <- (SL d) by (cbn; tauto). split; [intros [= -> -> -> ->]; auto|].
  intros [[[-> ->] ->] ->]. reflexivity.
Qed.
Lemma versionStart_sound r r' : versionStart r = Some r' -> exists ts, r = ts ++ r' /\ sameNoCase ts (s2b "SIP/").
Proof.
  intros H. unfold versionStart in H. destruct r as [|a [|b [|c [|d [|x [|y [|z r]]]]]]]; try discriminate. destruct (lc a 115 && lc b 105 && lc c 112)%bool eqn:E; [|discriminate]. cbn [andb] in H.
  destruct (N.eqb_spec d 47) as [->|]; [|discriminate]. injection H as <-. exists [a; b; c; 47]. split; [reflexivity|]. now apply sip4slash.
Qed.
Lemma versionStart_complete ts r' : sameNoCase ts (s2b "SIP/") -> (3 <= List.length r')%nat -> versionStart (ts ++ r') = Some r'.
Proof.
  intros H L3. pose proof (same_length _ _ H) as L. destruct ts as [|a [|b [|c [|d [|]]]]]; try discriminate. apply sip4slash in H as [H ->]. cbn [app]. unfold versionStart.
  destruct r' as [|x [|y [|z r]]]; cbn in L3; try lia. rewrite H. reflexivity.
Qed.
Lemma version_length t v k : VersionRead t v k -> (3 <= List.length t)%nat.
Proof. intros [k' _|a b k' Ha Hb _ _ _ _]; [cbn; lia|]. rewrite app_length. destruct a; [congruence|]. destruct b; [congruence|]. cbn. lia. Qed.
Lemma exact_version e : exact e parseVersion (fun t v k => exists ts tv, t = ts ++ tv /\ sameNoCase ts (s2b "SIP/") /\ VersionRead tv v k).
Proof.
  split.
  - intros s v s' H. unfold parseVersion, onRest in H. destruct (versionStart (rest s)) as [r4|] eqn:E; [|discriminate]. apply bind_inv in H as (x0 & s1 & E0 & H). injection E0 as _ <-.
    apply versionStart_sound in E as (ts & Es & Hs). apply (ex_sound _ _ _ (exact_versionAfter e)) in H as (tv & Ev & Hv). cbn [rest] in Ev. exists (ts ++ tv). split; [rewrite Es, Ev, app_assoc; reflexivity|]. eauto.
  - intros HI t v k u (ts & tv & -> & Hs & Hv). rewrite <- app_assoc. unfold parseVersion. rewrite onRest_eq. rewrite versionStart_complete; [|exact Hs|rewrite app_length; apply version_length in Hv; lia].
    rewrite goto_bind. cbn [used]. now apply (ex_complete _ _ _ (exact_versionAfter e) HI).
Qed.
Lemma exact_expect e c : exact e (expect c) (fun t _ k => t = [c]).
Proof.
  split.
  - intros s v s' H. unfold expect, onRest in H. destruct (rest s) as [|x r]; [discriminate|]. destruct (N.eqb_spec x c) as [->|]; [|discriminate]. injection H as _ <-. exists [c]. auto.
  - intros _ t [] k u ->. exists u. apply rt_expect.
Qed.
Lemma exact_crlf e : exact e pCRLF (fun t _ k => t = [13; 10]).
Proof.
  split.
  - intros s v s' H. unfold pCRLF, liftB, ParseCRLF in H. destruct (rest s) as [|a [|b r]]; try discriminate. destruct (N.eqb_spec a 13) as [->|]; [|discriminate]. destruct (N.eqb_spec b 10) as [->|]; [|discriminate].
    injection H as _ <-. exists [13; 10]. auto.
  - intros _ t [] k u ->. exists u. apply rt_CRLF.
Qed.
Lemma reason_rfc x : inset SIP_REASON_PHRASE x = reasonChar x.
Proof.
  destruct (N.ltb_spec x 256) as [H|H].
  - assert (Q : forallb (fun x => Bool.eqb (inset SIP_REASON_PHRASE x) (reasonChar x)) all256 = true) by (vm_compute; reflexivity). apply Bool.eqb_prop. exact (sweep _ Q x H).
  - destruct (inset SIP_REASON_PHRASE x) eqn:E1, (reasonChar x) eqn:E2; try reflexivity; exfalso.
    + apply inset_byte in E1. lia.
    + unfold reasonChar in E2. apply orb_prop in E2 as [E2|E2]; [|apply N.eqb_eq in E2; lia]. apply andb_prop in E2 as [E2 _].
      assert (Q : forall b, rfcReason b = true -> b < 256); [|apply Q in E2; lia]. clear. intros b Hb.
      assert (O : forall l, oneOf l b = true -> forallb (fun c => c <? 256) (s2b l) = true -> b < 256) by (intros l H1 H2; apply oneOf_lt in H1; assumption).
      unfold rfcReason in Hb. rewrite !orb_true_iff in Hb. destruct Hb as [[[[Hb|Hb]|Hb]|Hb]|Hb].
      * apply O in Hb; [exact Hb|reflexivity].
      * unfold rfcUnreserved in Hb. apply orb_true_iff in Hb as [Hb|Hb]; [unfold rfcAlphanum, rfcALPHA, rfcLOWER, rfcUPPER, rfcDIGIT, rng in Hb; lia|]. apply O in Hb; [exact Hb|reflexivity].
      * unfold rfcUTF8nonascii, rfcUTF8lead, rfcUTF8cont, rng in Hb. lia.
      * apply N.eqb_eq in Hb. lia.
      * apply N.eqb_eq in Hb. lia.
Qed.
(** Sequences: the relation of a composed parser is turned into a constructor of the grammar. *)
Ltac flat := repeat match goal with
  | H : exists _, _ |- _ => destruct H
  | H : _ /\ _ |- _ => destruct H
  end; subst; repeat (rewrite <- ?app_assoc in *; cbn [app] in *).
Lemma exact_request e : exact e parseRequestLine (fun t v k => exists tm m tu u ts tv w, t = tm ++ 32 :: tu ++ 32 :: ts ++ tv ++ [13; 10] /\ v = SRequest m (mkaddr false None u) w /\
  MethodRead tm m (32 :: tu ++ 32 :: ts ++ tv ++ 13 :: 10 :: k) /\ AUriRead e true tu u (32 :: ts ++ tv ++ 13 :: 10 :: k) /\ sameNoCase ts (s2b "SIP/") /\ VersionRead tv w (13 :: 10 :: k)).
Proof.
  split.
  - intros s v s' H. apply bind_inv in H as (m & s1 & E1 & H). apply (ex_sound _ _ _ (exact_method e)) in E1 as (tm & Em & Hm). apply bind_inv in H as (x0 & s2 & E2 & H).
    apply (ex_sound _ _ _ (exact_expect e 32)) in E2 as (t0 & E2 & ->). apply bind_inv in H as (a & s3 & E3 & H). apply (ex_sound _ _ _ (exact_addrSpec e)) in E3 as (tu & Eu & u & -> & Hu).
    apply bind_inv in H as (x1 & s4 & E4 & H). apply (ex_sound _ _ _ (exact_expect e 32)) in E4 as (t1 & E4 & ->). apply bind_inv in H as (w & s5 & E5 & H).
    apply (ex_sound _ _ _ (exact_version e)) in E5 as (t2 & E5 & ts & tv & -> & Hs & Hv). apply bind_inv in H as (x2 & s6 & E6 & H). apply (ex_sound _ _ _ (exact_crlf e)) in E6 as (t3 & E6 & ->). injection H as <- <-.
    cbn [app] in *. rewrite <- app_assoc in E5. rewrite E6 in *. rewrite E5 in *. rewrite E4 in *. rewrite Eu in *. rewrite E2 in *.
    exists (tm ++ 32 :: tu ++ 32 :: ts ++ tv ++ [13; 10]). split; [rewrite Em; repeat (rewrite <- app_assoc; cbn [app]); reflexivity|]. exists tm, m, tu, u, ts, tv, w. auto 8.
  - intros HI t v k u (tm & m & tu & x & ts & tv & w & -> & -> & Hm & Hu & Hs & Hv). repeat (rewrite <- app_assoc; cbn [app]). unfold parseRequestLine.
    destruct (ex_complete _ _ _ (exact_method e) HI _ _ _ u Hm) as [u1 E1]. rewrite (bind_ok _ _ _ _ _ _ E1), (bind_ok _ _ _ _ _ _ (rt_expect e 32 _ _)).
    destruct (ex_complete _ _ _ (exact_addrSpec e) HI _ _ _ u1 (ex_intro _ x (conj eq_refl Hu))) as [u2 E2]. rewrite (bind_ok _ _ _ _ _ _ E2), (bind_ok _ _ _ _ _ _ (rt_expect e 32 _ _)).
    destruct (ex_complete _ _ _ (exact_version e) HI _ _ _ u2 (ex_intro _ ts (ex_intro _ tv (conj eq_refl (conj Hs Hv))))) as [u3 E3]. rewrite <- app_assoc in E3. exists u3.
    rewrite (bind_ok _ _ _ _ _ _ E3), (bind_ok _ _ _ _ _ _ (rt_CRLF e _ _)). reflexivity.
Qed.
Lemma exact_status e : exact e parseStatusLine (fun t v k => exists tv w tc c tr r, t = tv ++ 32 :: tc ++ 32 :: tr ++ [13; 10] /\ v = SStatus w c r /\
  VersionRead tv w (32 :: tc ++ 32 :: tr ++ 13 :: 10 :: k) /\ WordRead 65536 tc c (32 :: tr ++ 13 :: 10 :: k) /\ EscRead reasonChar tr r (13 :: 10 :: k)).
Proof.
  pose proof (exact_word e 65536 ltac:(discriminate) eq_refl) as Xw. pose proof (exact_escapableEmpty SIP_REASON_PHRASE reasonChar e reason_rfc) as Xr. split.
  - intros s v s' H. apply bind_inv in H as (w & s1 & E1 & H). apply (ex_sound _ _ _ (exact_versionAfter e)) in E1 as (tv & Ev & Hv). apply bind_inv in H as (x0 & s2 & E2 & H).
    apply (ex_sound _ _ _ (exact_expect e 32)) in E2 as (t0 & E2 & ->). apply bind_inv in H as (c & s3 & E3 & H). apply (ex_sound _ _ _ Xw) in E3 as (tc & Ec & Hc).
    apply bind_inv in H as (x1 & s4 & E4 & H). apply (ex_sound _ _ _ (exact_expect e 32)) in E4 as (t1 & E4 & ->). apply bind_inv in H as (r & s5 & E5 & H).
    apply (ex_sound _ _ _ Xr) in E5 as (tr & E5 & Hr). apply bind_inv in H as (x2 & s6 & E6 & H). apply (ex_sound _ _ _ (exact_crlf e)) in E6 as (t3 & E6 & ->). injection H as <- <-.
    cbn [app] in *. rewrite E6 in *. rewrite E5 in *. rewrite E4 in *. rewrite Ec in *. rewrite E2 in *.
    exists (tv ++ 32 :: tc ++ 32 :: tr ++ [13; 10]). split; [rewrite Ev; repeat (rewrite <- app_assoc; cbn [app]); reflexivity|]. exists tv, w, tc, c, tr, r. auto 8.
  - intros HI t v k u (tv & w & tc & c & tr & r & -> & -> & Hv & Hc & Hr). repeat (rewrite <- app_assoc; cbn [app]). unfold parseStatusLine.
    destruct (ex_complete _ _ _ (exact_versionAfter e) HI _ _ _ u Hv) as [u1 E1]. rewrite (bind_ok _ _ _ _ _ _ E1), (bind_ok _ _ _ _ _ _ (rt_expect e 32 _ _)).
    destruct (ex_complete _ _ _ Xw HI _ _ _ u1 Hc) as [u2 E2]. rewrite (bind_ok _ _ _ _ _ _ E2), (bind_ok _ _ _ _ _ _ (rt_expect e 32 _ _)).
    destruct (ex_complete _ _ _ Xr HI _ _ _ u2 Hr) as [u3 E3]. exists u3. rewrite (bind_ok _ _ _ _ _ _ E3), (bind_ok _ _ _ _ _ _ (rt_CRLF e _ _)). reflexivity.
Qed.
Lemma method_token t m k : MethodRead t m k -> wfToken t.
Proof.
  intros [name i k' I _|t' k' (H1 & _ & H2 & _) _ _]; [|split; assumption].
  assert (F : forallb (fun q => negb (beq (fst q) []) && forallb rfcToken (fst q)) methodNames = true) by (vm_compute; reflexivity). rewrite forallb_forall in F. apply F in I. cbn [fst] in I. apply andb_prop in I as [I1 I2].
  split; [|exact I2]. intros ->. discriminate.
Qed.
Lemma exact_startLine e : exact e parseStartLine (StartLineRead e).
Proof.
  split.
  - intros s v s' H. unfold parseStartLine, onRest in H. destruct (versionStart (rest s)) as [r4|] eqn:E.
    + apply bind_inv in H as (x0 & s1 & E0 & H). injection E0 as _ <-. apply versionStart_sound in E as (ts & Es & Hs). apply (ex_sound _ _ _ (exact_status e)) in H as (t & Et & tv & w & tc & c & tr & r & -> & -> & Hv & Hc & Hr).
      cbn [rest] in Et. exists (ts ++ tv ++ 32 :: tc ++ 32 :: tr ++ [13; 10]). split; [rewrite Es, Et; repeat (rewrite <- app_assoc; cbn [app]); reflexivity|]. now apply SLstatus.
    + apply (ex_sound _ _ _ (exact_request e)) in H as (t & Et & tm & m & tu & u & ts & tv & w & -> & -> & Hm & Hu & Hs & Hv). exists (tm ++ 32 :: tu ++ 32 :: ts ++ tv ++ [13; 10]). split; [exact Et|]. now apply SLrequest.
  - intros HI t v k u H. unfold parseStartLine. rewrite onRest_eq. destruct H as [tm m tu x ts tv w k Hm Hu Hs Hv|ts tv w tc c tr r k Hs Hv Hc Hr].
    + pose proof (method_token _ _ _ Hm) as Wt. replace ((tm ++ 32 :: tu ++ 32 :: ts ++ tv ++ [13; 10]) ++ k) with (tm ++ 32 :: tu ++ 32 :: ts ++ tv ++ 13 :: 10 :: k) by (repeat (rewrite <- app_assoc; cbn [app]); reflexivity).
      rewrite (method_not_version tm _ Wt). replace (tm ++ 32 :: tu ++ 32 :: ts ++ tv ++ 13 :: 10 :: k) with ((tm ++ 32 :: tu ++ 32 :: ts ++ tv ++ [13; 10]) ++ k) by (repeat (rewrite <- app_assoc; cbn [app]); reflexivity).
      apply (ex_complete _ _ _ (exact_request e) HI). exists tm, m, tu, x, ts, tv, w. auto 8.
    + rewrite <- app_assoc. rewrite versionStart_complete; [|exact Hs|rewrite !app_length; apply version_length in Hv; lia]. rewrite goto_bind. cbn [used].
      apply (ex_complete _ _ _ (exact_status e) HI). exists tv, w, tc, c, tr, r. auto 8.
Qed.

(** ** Header values *)
Lemma known_names h : okNames (knownNames h). Proof. apply okNames_check; destruct h; vm_compute; reflexivity. Qed.
Lemma exact_params e h : exact e (parseParams h) (fun t tp k => ParamsRead e h t (fst tp) (snd tp) k).
Proof.
  pose proof (exact_genParams (knownOn h) (knownNames h) e (known_names h)) as X0. unfold ParamsRead. replace (recognise h e) with (knownOn h e) by (destruct h; reflexivity).
  replace (paramNames h) with (knownNames h) by (destruct h; reflexivity). exact X0.
Qed.
Lemma exact_addrParams {A B} e h (p : P A) (f : A -> known gparam -> list gparam -> B) R : exact e p R ->
  exact e (a <- p ;; tp <- parseParams h ;; ret (f a (fst tp) (snd tp))) (fun t v k => exists ta a tp kn ps, t = ta ++ tp /\ v = f a kn ps /\ R ta a (tp ++ k) /\ ParamsRead e h tp kn ps k).
Proof.
  intros Hp. eapply exact_iff; [|eapply exact_bind; [exact Hp|]; intros a; apply (exact_map e (parseParams h) (fun tp => f a (fst tp) (snd tp)) _ (exact_params e h))].
  intros t v k. split.
  - intros (ta & a & tp & -> & H1 & [kn ps] & -> & H2). exists ta, a, tp, kn, ps. auto.
  - intros (ta & a & tp & kn & ps & -> & -> & H1 & H2). exists ta, a, tp. split; [reflexivity|]. split; [exact H1|]. exists (kn, ps). auto.
Qed.
Lemma exact_seq {A B} e (p : P A) (q : P B) R1 R2 : exact e p R1 -> exact e q R2 -> exact e (p ;;; q) (fun t v k => exists t1 a t2, t = t1 ++ t2 /\ R1 t1 a (t2 ++ k) /\ R2 t2 v k).
Proof. intros H1 H2. exact (exact_bind e p (fun _ => q) R1 (fun _ => R2) H1 (fun _ => H2)). Qed.
Ltac fin := repeat match goal with
  | |- _ /\ _ => split
  | |- ?x = ?x => reflexivity
  | _ => first [eassumption | progress (rewrite <- ?app_assoc; cbn [app])]
  end.
Lemma sip20 a b c d x y z : sameNoCase [a; b; c; d; x; y; z] (s2b "SIP/2.0") <-> (lc a 115 && lc b 105 && lc c 112 && (d =? 47) && (x =? 50) && (y =? 46) && (z =? 48))%bool = true.
Proof.
  assert (SL : forall v w, In v [47; 50; 46; 48] -> asciiLower w = v <-> w = v).
  { intros v w Iv. split; [|intros ->; cbn in Iv; intuition (subst; reflexivity)]. unfold asciiLower. destruct (_ && _)%bool eqn:E; [|auto]. apply andb_prop in E as [E1 E2]. apply N.leb_le in E1, E2. cbn in Iv. intuition lia. }
  unfold sameNoCase. change (map asciiLower (s2b "SIP/2.0")) with [115; 105; 112; 47; 50; 46; 48]. cbn [map]. rewrite !andb_true_iff, !lc_iff, !N.eqb_eq by (cbn; tauto). split.
  - intros [= -> -> -> H1 H2 H3 H4]. rewrite SL in H1 by (cbn; tauto). rewrite SL in H2 by (cbn; tauto). rewrite SL in H3 by (cbn; tauto). rewrite SL in H4 by (cbn; tauto). subst. split; [|reflexivity]. split; [|reflexivity]. split; [|reflexivity]. split; [|reflexivity]. split; [|assumption || reflexivity]. split; assumption || reflexivity.
  - intros ((((((-> & ->) & ->) & ->) & ->) & ->) & ->). reflexivity.
Qed.
Definition proto20At (r : bytes) : option bytes :=
  match r with
  | a :: b :: c :: d :: x :: y :: z :: ((w :: _) as r7) => if (lc a 115 && lc b 105 && lc c 112 && (d =? 47) && (x =? 50) && (y =? 46) && (z =? 48) && negb (IsDigit w))%bool then Some r7 else None
  | _ => None
  end.
Lemma proto20_iff r r7 : proto20At r = Some r7 <-> exists t w q, r = t ++ r7 /\ r7 = w :: q /\ sameNoCase t (s2b "SIP/2.0") /\ rfcDIGIT w = false.
Proof.
  split.
  - intros H. unfold proto20At in H. destruct r as [|a [|b [|c [|d [|x [|y [|z [|w r]]]]]]]]; try discriminate. rewrite andb_comm in H. destruct (IsDigit w) eqn:Ew; [discriminate|].
    destruct (lc a 115 && lc b 105 && lc c 112 && (d =? 47) && (x =? 50) && (y =? 46) && (z =? 48))%bool eqn:E; [|discriminate]. injection H as <-. exists [a; b; c; d; x; y; z], w, r.
    split; [reflexivity|]. split; [reflexivity|]. split; [now apply sip20|]. now rewrite <- digit_rfc.
  - intros (t & w & q & -> & -> & H & Hw). pose proof (same_length _ _ H) as L. destruct t as [|a [|b [|c [|d [|x [|y [|z [|]]]]]]]]; try discriminate. apply sip20 in H. cbn [app proto20At]. rewrite H, digit_rfc, Hw. reflexivity.
Qed.
Lemma sentProtocol_eq e s : parseSentProtocol e s = match proto20At (rest s) with Some r7 => (pSWSMark 47 ;;; ret Proto20) e (mkst r7 (used s)) | None => otherProtocol e s end.
Proof.
  unfold parseSentProtocol, onRest, proto20At. destruct (rest s) as [|a [|b [|c [|d [|x [|y [|z [|w r]]]]]]]]; try reflexivity. destruct (_ && negb (IsDigit w))%bool; reflexivity.
Qed.
Lemma exact_other e : exact e otherProtocol (fun t v k => exists tn n m tv w m', t = tn ++ m ++ tv ++ m' /\ v = ProtoOther n w /\
  TokenRead tn n (m ++ tv ++ m' ++ k) /\ Mark 47 m (tv ++ m' ++ k) /\ TokenRead tv w (m' ++ k) /\ Mark 47 m' k).
Proof.
  unfold otherProtocol. apply exact_seq_alloc. eapply exact_iff; [|eapply exact_bind; [apply exact_token|]; intros n; eapply exact_seq; [apply exact_mark|]; eapply exact_bind; [apply exact_token|]; intros w;
    apply (exact_map e (pSWSMark 47) (fun _ => ProtoOther n w) _ (exact_mark e 47))].
  intros t v k. cbv beta. split.
  - intros (tn & n & t2 & -> & H1 & m & x0 & t3 & -> & H2 & tv & w & m' & -> & H3 & x1 & -> & H4). rewrite <- !app_assoc in *. exists tn, n, m, tv, w, m'. fin.
  - intros (tn & n & m & tv & w & m' & -> & -> & H1 & H2 & H3 & H4). exists tn, n, (m ++ tv ++ m'). rewrite <- !app_assoc. split; [reflexivity|]. split; [exact H1|]. exists m, tt, (tv ++ m'). rewrite <- !app_assoc.
    split; [reflexivity|]. split; [exact H2|]. exists tv, w, m'. split; [reflexivity|]. split; [exact H3|]. exists tt. auto.
Qed.
Lemma exact_proto e : exact e parseSentProtocol ProtoRead.
Proof.
  split.
  - intros s v s' H. rewrite sentProtocol_eq in H. destruct (proto20At (rest s)) as [r7|] eqn:E.
    + apply proto20_iff in E as (t & w & q & Er & _ & Ht & _). apply bind_inv in H as (x0 & s1 & E1 & H). injection H as <- <-. apply (ex_sound _ _ _ (exact_mark e 47)) in E1 as (m & Em & Hm). cbn [rest] in Em.
      exists (t ++ m). split; [rewrite Er, Em, app_assoc; reflexivity|]. now apply PR20.
    + apply (ex_sound _ _ _ (exact_other e)) in H as (t & Er & tn & n & m & tv & w & m' & -> & -> & H1 & H2 & H3 & H4). exists (tn ++ m ++ tv ++ m'). split; [exact Er|]. apply PRother; auto.
      intros t x r Eq Ht. destruct (rfcDIGIT x) eqn:Hx; [reflexivity|]. exfalso. rewrite <- !app_assoc in Er. rewrite Eq in Er. assert (Y : proto20At (rest s) = Some (x :: r)) by (apply proto20_iff; exists t, x, r; auto). congruence.
  - intros HI t v k u H. rewrite sentProtocol_eq. cbn [rest used]. destruct H as [t m k Ht Hm|tn n m tv w m' k H1 H2 H3 H4 Hn].
    + rewrite <- app_assoc. assert (E : proto20At (t ++ m ++ k) = Some (m ++ k)).
      { apply proto20_iff. destruct (m ++ k) as [|w q] eqn:Eq; [destruct m; [now apply mark_ne in Hm|discriminate]|]. exists t, w, q. split; [reflexivity|]. split; [reflexivity|]. split; [exact Ht|].
        pose proof (mark_head _ _ _ _ _ Hm Eq) as Hw. apply orb_prop in Hw as [Hw|Hw]; [apply N.eqb_eq in Hw; subst w; reflexivity|]. rewrite IsLwsChar_spec in Hw.
        apply orb_prop in Hw as [Hw|Hw]; [apply orb_prop in Hw as [Hw|Hw]; [apply isWsp_spec in Hw as [->| ->]|apply N.eqb_eq in Hw; subst w]|apply N.eqb_eq in Hw; subst w]; reflexivity. }
      rewrite E. destruct (ex_complete _ _ _ (exact_mark e 47) HI _ tt _ u Hm) as [u1 E1]. exists u1. rewrite (bind_ok _ _ _ _ _ _ E1). reflexivity.
    + destruct (proto20At ((tn ++ m ++ tv ++ m') ++ k)) as [r7|] eqn:E.
      * exfalso. apply proto20_iff in E as (t & x & q & Er & -> & Ht & Hx). rewrite <- !app_assoc in Er. rewrite (Hn _ _ _ Er Ht) in Hx. discriminate.
      * apply (ex_complete _ _ _ (exact_other e) HI). exists tn, n, m, tv, w, m'. fin.
Qed.
Lemma exact_word32 e : exact e (pUIntW two32) (WordRead 4294967296). Proof. apply exact_word; [discriminate|reflexivity]. Qed.
Lemma exact_word8 e : exact e (pUIntW two8) (WordRead 256). Proof. apply exact_word; [discriminate|reflexivity]. Qed.
Lemma exact_callWord e : exact e (paCString SIP_WORD) (RunRead callChar). Proof. apply exact_cstring, word_rfc. Qed.
Lemma exact_fromTo e h : exact e (parseFromTo h) (fun t v k => exists ta a tp kn ps, t = ta ++ tp /\ v = VAddr a kn ps /\ AddrRead e false ta a (tp ++ k) /\ ParamsRead e h tp kn ps k).
Proof. apply (exact_addrParams e h (parseAddr false) VAddr), exact_addr. Qed.
Lemma exact_route e h : exact e (parseRoute h) (fun t v k => exists ta a tp kn ps, t = ta ++ tp /\ v = VAddr a kn ps /\ NameAddrRead e ta a (tp ++ k) /\ ParamsRead e h tp kn ps k).
Proof. apply (exact_addrParams e h parseNameAddr VAddr), exact_nameAddr. Qed.
Lemma exact_pai e : exact e parsePai (fun t v k => exists a, v = VAddr a None [] /\ AddrRead e false t a k).
Proof. apply (exact_map e (parseAddr false) (fun a => VAddr a None [])), exact_addr. Qed.
Lemma exact_num e w R : exact e (pUIntW w) R -> exact e (parseNum w) (fun t v k => exists n, v = VNum n /\ R t n k).
Proof. intros H. apply (exact_map e (pUIntW w) VNum), H. Qed.
Lemma exact_disp e : exact e parseContentDisposition (fun t v k => exists ta a tp kn ps, t = ta ++ tp /\ v = VDisp a kn ps /\ TokenRead ta a (tp ++ k) /\ ParamsRead e KContentDisposition tp kn ps k).
Proof. apply (exact_addrParams e KContentDisposition (paCString SIP_TOKEN) VDisp), exact_token. Qed.
Lemma exact_type e : exact e parseContentType (fun t v k => exists t1 m s t2 n tp kn ps, t = t1 ++ s ++ t2 ++ tp /\ v = VType m n kn ps /\
  TokenRead t1 m (s ++ t2 ++ tp ++ k) /\ Mark 47 s (t2 ++ tp ++ k) /\ TokenRead t2 n (tp ++ k) /\ ParamsRead e KContentType tp kn ps k).
Proof.
  eapply exact_iff; [|eapply exact_bind; [apply exact_token|]; intros m; eapply exact_seq; [apply exact_mark|]; apply (exact_addrParams e KContentType (paCString SIP_TOKEN) (VType m)), exact_token].
  intros t v k. cbv beta. split.
  - intros (t1 & m & t2 & -> & H1 & s & x0 & t3 & -> & H2 & ta & a & tp & kn & ps & -> & -> & H3 & H4). rewrite <- !app_assoc in *. exists t1, m, s, ta, a, tp, kn, ps. fin.
  - intros (t1 & m & s & t2 & n & tp & kn & ps & -> & -> & H1 & H2 & H3 & H4). exists t1, m, (s ++ t2 ++ tp). rewrite <- !app_assoc. split; [reflexivity|]. split; [exact H1|]. exists s, tt, (t2 ++ tp). rewrite <- !app_assoc.
    split; [reflexivity|]. split; [exact H2|]. exists t2, n, tp, kn, ps. auto.
Qed.
Lemma exact_via e : exact e parseVia (fun t v k => exists t1 p tt0 tr w th h tp kn ps, t = t1 ++ tt0 ++ w ++ th ++ tp /\ v = VVia p tr h kn ps /\
  ProtoRead t1 p (tt0 ++ w ++ th ++ tp ++ k) /\ TokenRead tt0 tr (w ++ th ++ tp ++ k) /\ Blanks w (th ++ tp ++ k) /\ HostPortRead e th h (tp ++ k) /\ ParamsRead e KVia tp kn ps k).
Proof.
  eapply exact_iff; [|eapply exact_bind; [apply exact_proto|]; intros p; eapply exact_bind; [apply exact_token|]; intros tr; eapply exact_seq; [apply exact_lws|]; apply (exact_addrParams e KVia parseHostPort (VVia p tr)), exact_hostPort].
  intros t v k. cbv beta. split.
  - intros (t1 & p & t2 & -> & H1 & tt0 & tr & t3 & -> & H2 & w & x0 & t4 & -> & H3 & th & h & tp & kn & ps & -> & -> & H4 & H5). rewrite <- !app_assoc in *. exists t1, p, tt0, tr, w, th, h, tp, kn, ps. fin.
  - intros (t1 & p & tt0 & tr & w & th & h & tp & kn & ps & -> & -> & H1 & H2 & H3 & H4 & H5). exists t1, p, (tt0 ++ w ++ th ++ tp). rewrite <- !app_assoc. split; [reflexivity|]. split; [exact H1|].
    exists tt0, tr, (w ++ th ++ tp). rewrite <- !app_assoc. split; [reflexivity|]. split; [exact H2|]. exists w, tt, (th ++ tp). rewrite <- !app_assoc. split; [reflexivity|]. split; [exact H3|]. exists th, h, tp, kn, ps. auto.
Qed.
Lemma exact_cseq e : exact e parseCSeq (fun t v k => exists t1 n w tm m, t = t1 ++ w ++ tm /\ v = VCSeq n m /\ WordRead 4294967296 t1 n (w ++ tm ++ k) /\ Blanks w (tm ++ k) /\ MethodRead tm m k).
Proof.
  eapply exact_iff; [|eapply exact_bind; [apply exact_word32|]; intros n; eapply exact_seq; [apply exact_lws|]; apply (exact_map e parseMethod (VCSeq n)), exact_method].
  intros t v k. cbv beta. split.
  - intros (t1 & n & t2 & -> & H1 & w & x0 & tm & -> & H2 & m & -> & H3). rewrite <- !app_assoc in *. exists t1, n, w, tm, m. fin.
  - intros (t1 & n & w & tm & m & -> & -> & H1 & H2 & H3). exists t1, n, (w ++ tm). rewrite <- !app_assoc. split; [reflexivity|]. split; [exact H1|]. exists w, tt, tm. split; [reflexivity|]. split; [exact H2|]. exists m. auto.
Qed.
Lemma exact_rack e : exact e parseRAck (fun t v k => exists t1 r w t2 c w2 tm m, t = t1 ++ w ++ t2 ++ w2 ++ tm /\ v = VRAck r c m /\ WordRead 4294967296 t1 r (w ++ t2 ++ w2 ++ tm ++ k) /\ Blanks w (t2 ++ w2 ++ tm ++ k) /\
  WordRead 4294967296 t2 c (w2 ++ tm ++ k) /\ Blanks w2 (tm ++ k) /\ MethodRead tm m k).
Proof.
  eapply exact_iff; [|eapply exact_bind; [apply exact_word32|]; intros r; eapply exact_seq; [apply exact_lws|]; eapply exact_bind; [apply exact_word32|]; intros c; eapply exact_seq; [apply exact_lws|];
    apply (exact_map e parseMethod (VRAck r c)), exact_method].
  intros t v k. cbv beta. split.
  - intros (t1 & r & t2 & -> & H1 & w & x0 & t3 & -> & H2 & tc & c & t4 & -> & H3 & w2 & x1 & tm & -> & H4 & m & -> & H5). rewrite <- !app_assoc in *. exists t1, r, w, tc, c, w2, tm, m. fin.
  - intros (t1 & r & w & t2 & c & w2 & tm & m & -> & -> & H1 & H2 & H3 & H4 & H5). exists t1, r, (w ++ t2 ++ w2 ++ tm). rewrite <- !app_assoc. split; [reflexivity|]. split; [exact H1|].
    exists w, tt, (t2 ++ w2 ++ tm). rewrite <- !app_assoc. split; [reflexivity|]. split; [exact H2|]. exists t2, c, (w2 ++ tm). rewrite <- !app_assoc. split; [reflexivity|]. split; [exact H3|].
    exists w2, tt, tm. split; [reflexivity|]. split; [exact H4|]. exists m. auto.
Qed.
Lemma exact_contact e : exact e parseContact (ValueRead e KContact).
Proof.
  split.
  - intros s v s' H. apply bind_inv in H as (x0 & s1 & E & H). apply (ex_sound _ _ _ (exact_sws e)) in E as (a & Ea & Sa). unfold onRest in H. destruct (rest s1) as [|x r1] eqn:R1; [discriminate|]. destruct (N.eqb_spec x 42) as [->|Hx].
    + apply bind_inv in H as (x1 & s2 & E & H). injection E as _ <-. apply bind_inv in H as (x2 & s3 & E & H). injection H as <- <-. apply (ex_sound _ _ _ (exact_sws e)) in E as (b & Eb & Sb). cbn [rest] in Eb. rewrite Eb in Ea, Sa.
      exists (a ++ 42 :: b). split; [rewrite Ea; rewrite <- app_assoc; reflexivity|]. now apply VRstar.
    + apply (ex_sound _ _ _ (exact_fromTo e KContact)) in H as (t & Et & ta & a0 & tp & kn & ps & -> & -> & H1 & H2). rewrite R1 in Et. rewrite Et in Ea, Sa. rewrite <- app_assoc in Et, Sa.
      exists (a ++ ta ++ tp). split; [rewrite Ea, <- !app_assoc; reflexivity|]. apply VRcontact; [exact Sa| |exact H1|exact H2]. rewrite <- Et. intros k' [= Y _]. congruence.
  - intros HI t v k u H. inversion H as [h ta a tp kn ps k0 Q|h ta a tp kn ps k0 Q|?|a b k0 Sa Sb|s ta a tp kn ps k0 Sa Nk H1 H2|?|?|?|h t0 n k0 Q|?|?|?|?|?]; subst; try discriminate.
    + rewrite <- app_assoc. cbn [app]. unfold parseContact. destruct (ex_complete _ _ _ (exact_sws e) HI _ tt _ u Sa) as [u1 E1]. rewrite (bind_ok _ _ _ _ _ _ E1), onRest_eq. change (42 =? 42) with true. cbv iota. rewrite goto_bind. cbn [used].
      destruct (ex_complete _ _ _ (exact_sws e) HI _ tt _ u1 Sb) as [u2 E2]. exists u2. rewrite (bind_ok _ _ _ _ _ _ E2). reflexivity.
    + rewrite <- !app_assoc. unfold parseContact. destruct (ex_complete _ _ _ (exact_sws e) HI _ tt _ u Sa) as [u1 E1]. rewrite (bind_ok _ _ _ _ _ _ E1), onRest_eq.
      assert (Hf : exists u2, parseFromTo KContact e (mkst (ta ++ tp ++ k) u1) = Ok (VAddr a kn ps) (mkst k u2)).
      { destruct (ex_complete _ _ _ (exact_fromTo e KContact) HI (ta ++ tp) (VAddr a kn ps) k u1) as [u2 E2]; [exists ta, a, tp, kn, ps; auto|]. rewrite <- app_assoc in E2. eauto. }
      destruct Hf as [u2 E2]. destruct (ta ++ tp ++ k) as [|x r] eqn:R.
      * exfalso. assert (N0 : parseFromTo KContact e (mkst [] u1) = Fail (mkst [] u1)) by reflexivity. congruence.
      * exists u2. destruct (N.eqb_spec x 42) as [->|]; [exfalso; eapply Nk; reflexivity|exact E2].
    + cbn in Q. intuition discriminate.
Qed.
Lemma exact_call e : exact e parseCallID (ValueRead e KCallID).
Proof.
  split.
  - intros s v s' H. apply bind_inv in H as (w & s1 & E & H). apply (ex_sound _ _ _ (exact_callWord e)) in E as (t & Et & Ht). unfold onRest in H. destruct (rest s1) as [|x r1] eqn:R1.
    + injection H as <- <-. rewrite R1. exists t. split; [exact Et|]. apply VRcall; [exact Ht|apply notNext_nil].
    + destruct (N.eqb_spec x 64) as [->|Hx].
      * apply bind_inv in H as (x1 & s2 & E & H). injection E as _ <-. apply bind_inv in H as (w2 & s3 & E & H). injection H as <- <-. apply (ex_sound _ _ _ (exact_callWord e)) in E as (t2 & Et2 & Ht2). cbn [rest] in Et2. rewrite Et2 in *.
        exists (t ++ 64 :: t2). split; [rewrite Et, <- app_assoc; reflexivity|]. now apply VRcall2.
      * injection H as <- <-. rewrite R1. exists t. split; [exact Et|]. apply VRcall; [exact Ht|]. intros k' [= Y _]. congruence.
  - intros HI t v k u H. unfold parseCallID. inversion H as [h ta a tp kn ps k0 Q|h ta a tp kn ps k0 Q|?|?|?|?|?|?|h t0 n k0 Q|?|?|?|t0 w k0 H1 Nk|t0 w t2 w2 k0 H1 H2]; subst; try discriminate.
    + cbn in Q. intuition discriminate.
    + destruct (ex_complete _ _ _ (exact_callWord e) HI _ _ _ u H1) as [u1 E1]. exists u1. rewrite (bind_ok _ _ _ _ _ _ E1), onRest_eq. destruct k as [|x k]; [reflexivity|]. destruct (N.eqb_spec x 64) as [->|]; [exfalso; eapply Nk; reflexivity|reflexivity].
    + destruct (ex_complete _ _ _ (exact_callWord e) HI _ _ _ u H1) as [u1 E1]. destruct (ex_complete _ _ _ (exact_callWord e) HI _ _ _ u1 H2) as [u2 E2]. exists u2. rewrite <- app_assoc. cbn [app].
      rewrite (bind_ok _ _ _ _ _ _ E1), onRest_eq. change (64 =? 64) with true. cbv iota. rewrite goto_bind. cbn [used]. rewrite (bind_ok _ _ _ _ _ _ E2). reflexivity.
Qed.
Ltac inv_value H := inversion H; subst; try discriminate;
  try (match goal with Q : In ?h [KRSeq; KExpires; KContentLength] |- _ => exfalso; cbn in Q; intuition discriminate end).
Lemma exact_value e h : exact e (parseHVal h) (ValueRead e h).
Proof.
  destruct h; cbn [parseHVal]; try (apply exact_contact || apply exact_call);
    (eapply exact_iff; [|first [apply exact_fromTo | apply exact_via | apply exact_route | apply exact_pai | apply exact_cseq | apply exact_rack | apply (exact_num e _ _ (exact_word32 e)) | apply (exact_num e _ _ (exact_word8 e)) | apply exact_type | apply exact_disp]]);
    intros t v k; cbv beta; split; intros H.
  all: try (decompose [ex and] H; subst;
    first [eapply VRaddr; solve [eassumption | reflexivity] | eapply VRroute; solve [eassumption | reflexivity] | eapply VRpai; solve [eassumption] | eapply VRvia; solve [eassumption] | eapply VRcseq; solve [eassumption]
      | eapply VRrack; solve [eassumption] | eapply VRhops; solve [eassumption] | eapply VRnum; solve [eassumption | cbn; auto] | eapply VRtype; solve [eassumption] | eapply VRdisp; solve [eassumption]]).
  all: inv_value H; repeat match goal with |- exists _, _ => eexists end; repeat (split; [reflexivity|]); repeat (split; [eassumption|]); try eassumption.
Qed.
