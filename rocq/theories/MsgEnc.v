(** Encode of a message, and reading the result back. *)
From Verif Require Import Base Charset CharsetSpec CharsetProofs BaseLemmas Num NumSpec NumProofs Lws LwsSpec LwsProofs Str StrSpec StrProofs Monad Good Rt Seq GoodAuto Inv
  IndexTree IndexProofs MethodTree HeaderTree Lookup NameSpec NameProofs Room Host HostSpec HostProofs Uri UriSpec UriGood UriProofs Tel TelSpec TelProofs GenParam GenParamSpec GenParamProofs Addr AddrSpec AddrProofs
  StartLine StartLineSpec StartLineProofs Headers HeadersSpec HeadersProofs RawHeaders RawSpec RawProofs Msg MsgSpec MsgProofs MsgRt P10_Headers.

(** ** Decimal lengths *)
Lemma canonical_low ds : canonical ds -> (1 < List.length ds)%nat -> 10 ^ N.of_nat (List.length ds - 1) <= decVal ds.
Proof.
  intros (Hne & Hd & Hz) L. destruct ds as [|d t]; [congruence|]. cbn [decVal List.length]. cbn in Hd. apply andb_prop in Hd as [Hd _]. unfold isDec in Hd. apply andb_prop in Hd as [H1 H2]. apply N.leb_le in H1, H2.
  assert (d <> 48) by (intros ->; specialize (Hz t eq_refl); subst; cbn in L; lia). replace (S (List.length t) - 1)%nat with (List.length t) by lia. nia.
Qed.
Lemma canonical_high ds : canonical ds -> decVal ds < 10 ^ N.of_nat (List.length ds).
Proof. intros (_ & Hd & _). now apply canonical_inj_len. Qed.
Lemma noLonger_digits n0 n : n0 < two64 -> n < two64 -> noLonger n0 n -> (List.length (encUInt n0) <= List.length (encUInt n))%nat.
Proof.
  intros H0 H Hl. destruct (encUInt_canonical n0 H0) as [C0 V0]. destruct (encUInt_canonical n H) as [C V]. assert (L1 : (1 <= List.length (encUInt n))%nat) by (destruct C as (Hne & _); destruct (encUInt n); [congruence|cbn; lia]).
  destruct (Nat.le_gt_cases (List.length (encUInt n0)) 1) as [L|L]; [lia|]. pose proof (canonical_low _ C0 L) as Lo. pose proof (canonical_high _ C) as Hi. rewrite V0 in Lo. rewrite V in Hi.
  set (a := List.length (encUInt n0)) in *. set (b := List.length (encUInt n)) in *. destruct Hl as [Hl|(k & K1 & K2)].
  - exfalso. assert (10 ^ 1 <= 10 ^ N.of_nat (a - 1)) by (apply N.pow_le_mono_r; lia). cbn in *. lia.
  - assert (A : N.of_nat (a - 1) < k) by (apply (N.pow_lt_mono_r_iff 10); lia). assert (B : k < N.of_nat b + 1).
    { apply (N.pow_lt_mono_r_iff 10); [lia|]. rewrite N.pow_add_r, N.pow_1_r. lia. }
    lia.
Qed.
Lemma encContentLength_eq n : n < two64 -> encContentLength n = repeat 32%N (10 - List.length (encUInt n)) ++ encUInt n.
Proof.
  intros H. assert (Hp : n < 10 ^ N.of_nat 32) by (eapply N.lt_trans; [exact H|reflexivity]). unfold encContentLength, EncodeUIntWithWidth. destruct (EncodeWithWidth_spec 32 n 10 Hp) as (ds & -> & C & V).
  destruct (encUInt_canonical n H) as [C2 V2]. assert (ds = encUInt n) as -> by (apply canonical_unique; congruence). unfold blanks. f_equal. f_equal. lia.
Qed.
Lemma digits10 n : n < two32 -> (1 <= List.length (encUInt n) <= 10)%nat.
Proof.
  intros H. assert (H64 : n < two64) by (eapply N.lt_trans; [exact H|reflexivity]). destruct (encUInt_canonical n H64) as [C V]. split; [destruct C as (Hne & _); destruct (encUInt n); [congruence|cbn; lia]|].
  destruct (Nat.le_gt_cases (List.length (encUInt n)) 10) as [L|L]; [exact L|]. exfalso. pose proof (canonical_low _ C ltac:(lia)) as Lo. rewrite V in Lo.
  assert (10 ^ 10 <= 10 ^ N.of_nat (List.length (encUInt n) - 1)) by (apply N.pow_le_mono_r; lia). assert (two32 < 10 ^ 10) by reflexivity. lia.
Qed.
Lemma patch_length A B n0 n : n0 < two32 -> n < two32 -> noLonger n0 n ->
  patch (A ++ encContentLength n0 ++ B) (List.length (A ++ encContentLength n0)) (encUInt n) = A ++ encContentLength n ++ B.
Proof.
  intros H0 H Hl. assert (B32 : two32 < two64) by reflexivity. pose proof (digits10 n0 H0) as D0. pose proof (digits10 n H) as D. pose proof (noLonger_digits n0 n ltac:(lia) ltac:(lia) Hl) as Ld.
  rewrite !encContentLength_eq by lia. set (d0 := encUInt n0) in *. set (d := encUInt n) in *. unfold patch. rewrite !app_length, repeat_length. 
  replace (A ++ (repeat 32%N (10 - List.length d0) ++ d0) ++ B) with ((A ++ repeat 32%N (10 - List.length d)) ++ (repeat 32%N (List.length d - List.length d0) ++ d0) ++ B).
  2:{ rewrite <- !app_assoc. f_equal. rewrite (app_assoc (repeat 32%N (10 - _)) (repeat 32%N _)). rewrite <- repeat_app. f_equal. f_equal. lia. }
  replace (List.length A + (10 - List.length d0 + List.length d0) - List.length d)%nat with (List.length (A ++ repeat 32%N (10 - List.length d)) + 0)%nat by (rewrite app_length, repeat_length; lia).
  rewrite firstn_app_2. cbn [firstn]. rewrite app_nil_r, <- !app_assoc. do 3 f_equal.
  replace (List.length A + (10 - List.length d0 + List.length d0))%nat with (List.length (A ++ repeat 32%N (10 - List.length d) ++ repeat 32%N (List.length d - List.length d0) ++ d0)) by (rewrite !app_length, !repeat_length; lia).
  rewrite !app_assoc. rewrite skipn_app, skipn_all, Nat.sub_diag. reflexivity.
Qed.

(** ** The text of a message *)
Lemma encSlot_mem m e iv : encSlot (withMem m e) iv = encSlot e iv.
Proof.
  assert (V : forall i v, encSlotValue (withMem m e) i v = encSlotValue e i v) by (intros i v; unfold encSlotValue; destruct (hiKind _); [apply encHVal_mem|reflexivity]).
  destruct iv as [i [|v vs]]; unfold encSlot; cbn [fst snd]; [reflexivity|]. rewrite V. f_equal. f_equal. f_equal. f_equal. destruct (hiMulti _); [|reflexivity]. unfold encMore. apply flat_map_ext. intros w. now rewrite V.
Qed.
Lemma encHdrs_mem m o e h : encHdrs o (withMem m e) h = encHdrs o e h.
Proof. unfold encHdrs. f_equal. apply flat_map_ext. intros iv. apply encSlot_mem. Qed.
Lemma encMultipart_mem m e b bs : encMultipart (withMem m e) b bs = encMultipart e b bs.
Proof. unfold encMultipart. f_equal. apply flat_map_ext. intros x. unfold encBody. now rewrite encHdrs_mem. Qed.
Lemma wfHdrs_mem m o e h : wfHdrs o e h -> wfHdrs o (withMem m e) h.
Proof.
  intros (L & H0 & Ws & Wr). split; [exact L|]. split; [exact H0|]. split; [|exact Wr]. eapply Forall_impl; [|exact Ws]. intros iv [W|(k & m0 & R & Wv & Hm)]; [left; exact W|].
  right. exists k, m0. split; [exact R|]. split; [|exact Hm]. eapply Forall_impl; [|exact Wv]. intros v [W1 W2]. split; [now apply wf_mem|exact W2].
Qed.
Lemma common19 h e : wfHdrs OMsg e h -> List.length (hsCommon h) = 19%nat. Proof. intros (L & _). exact L. Qed.
(** Content-Length is written once, and the recorded end is its end. *)
Lemma encHdrs_length e h : List.length (hsCommon h) = 19%nat -> exists A B, forall n,
  encHdrs OMsg e (withLength n h) = A ++ encContentLength n ++ B /\ forall pre, lengthEnd e pre (withLength n h) = List.length ((pre ++ A) ++ encContentLength n).
Proof.
  intros L. destruct h as [cs rs]. cbn [hsCommon] in L. do 19 (destruct cs as [|? cs]; [discriminate L|]). destruct cs; [|discriminate L].
  exists (flat_map (encSlot e) [(SIP_HDR_VIA, l0); (SIP_HDR_ROUTE, l1); (SIP_HDR_CONTACT, l2); (SIP_HDR_FROM, l3); (SIP_HDR_TO, l4); (SIP_HDR_CALL_ID, l5)] ++ s2b "Content-Length: ").
  exists (CRLF ++ flat_map (encSlot e) [(SIP_HDR_CSEQ, l7); (SIP_HDR_RECORD_ROUTE, l8); (SIP_HDR_CONTENT_TYPE, l9); (SIP_HDR_MAX_FORWARDS, l10); (SIP_HDR_CONTENT_DISPOSITION, l11); (SIP_HDR_EXPIRES, l12); (SIP_HDR_PATH, l13);
    (SIP_HDR_SERVICE_ROUTE, l14); (SIP_HDR_RSEQ, l15); (SIP_HDR_RACK, l16); (SIP_HDR_P_ASSERTED_IDENTITY, l17)] ++ encRawHeaders rs).
  intros n. split.
  - unfold encHdrs, withLength. cbn [hsCommon hsRaw setNth slotIndexes combine tl flat_map]. rewrite <- !app_assoc. do 6 f_equal. 
    unfold encSlot at 1. cbn [fst snd]. change (hiName (slotInfo SIP_HDR_CONTENT_LENGTH)) with (s2b "Content-Length"). change (hiMulti (slotInfo SIP_HDR_CONTENT_LENGTH)) with false. cbv iota.
    change (encSlotValue e SIP_HDR_CONTENT_LENGTH (VNum n)) with (encContentLength n). rewrite <- !app_assoc. reflexivity.
  - intros pre. unfold lengthEnd, withLength, contentLengthOf. cbn [hsCommon hsRaw setNth slotIndexes combine tl firstn nth hd_error]. change (hiName (slotInfo SIP_HDR_CONTENT_LENGTH)) with (s2b "Content-Length").
    change (encSlotValue e SIP_HDR_CONTENT_LENGTH (VNum n)) with (encContentLength n). f_equal. rewrite <- !app_assoc. reflexivity.
Qed.
Lemma slot_of_wf o e h j i : wfHdrs o e h -> nth_error (slotIndexes o) j = Some i -> wfSlot o e (i, nth j (hsCommon h) []).
Proof.
  intros (L & _ & Ws & _) Hj. rewrite Forall_forall in Ws. apply Ws. assert (Lj : (j < List.length (slotIndexes o))%nat) by (apply nth_error_Some; congruence).
  rewrite <- (nth_error_nth _ _ 0 Hj). rewrite <- combine_nth by (now symmetry). apply nth_In. rewrite combine_length. lia.
Qed.
(** A structured header of a well-formed message, by its array index. *)
Lemma slot7_wf e h : wfHdrs OMsg e h -> nth 7 (hsCommon h) [] = [] \/ exists n, nth 7 (hsCommon h) [] = [VNum n] /\ n < two32.
Proof.
  intros W. pose proof (slot_of_wf OMsg e h 7 SIP_HDR_CONTENT_LENGTH W eq_refl) as W7. apply slot_cases in W7. destruct W7 as [H|(x & k & Hx & Hk & _ & Wv & Hm)]; cbn [fst snd] in *; [left; exact H|right]. vm_compute in Hx. injection Hx as <-. cbn [hiKind] in Hk. injection Hk as <-.
  specialize (Hm eq_refl). destruct (nth 7 (hsCommon h) []) as [|v [|? ?]]; try discriminate. inversion Wv as [|? ? [Wv1 _] _]; subst. destruct v; try contradiction. exists n. split; [reflexivity|exact Wv1].
Qed.
Lemma slot10_wf e h : wfHdrs OMsg e h -> nth 10 (hsCommon h) [] = [] \/ exists m s t ps, nth 10 (hsCommon h) [] = [VType m s t ps] /\ wfHVal e KContentType (VType m s t ps).
Proof.
  intros W. pose proof (slot_of_wf OMsg e h 10 SIP_HDR_CONTENT_TYPE W eq_refl) as W10. apply slot_cases in W10. destruct W10 as [H|(x & k & Hx & Hk & _ & Wv & Hm)]; cbn [fst snd] in *; [left; exact H|right]. vm_compute in Hx. injection Hx as <-. cbn [hiKind] in Hk. injection Hk as <-.
  specialize (Hm eq_refl). destruct (nth 10 (hsCommon h) []) as [|v [|? ?]]; try discriminate. inversion Wv as [|? ? [Wv1 _] _]; subst. destruct v; try contradiction. eauto 7.
Qed.
Lemma Forall_combine_set {A B} (Q : A * B -> Prop) (l : list A) : forall (m : list B) j x, Forall Q (combine l m) -> (forall i, nth_error l j = Some i -> Q (i, x)) -> Forall Q (combine l (setNth m j x)).
Proof.
  induction l as [|a l IH]; intros m j x F H; [constructor|]. destruct m as [|b m]; [destruct j; constructor|]. cbn [combine] in F. inversion F; subst. destruct j as [|j]; cbn [setNth combine]; constructor; auto.
Qed.
Lemma wf_setSlot o e h j i v x k : wfHdrs o e h -> (0 < j)%nat -> nth_error (slotIndexes o) j = Some i -> infoOf i = Some x -> hiKind x = Some k -> needParse o e i <> None -> wfHVal e k v -> delimited e v ->
  wfHdrs o e (mkhset (setNth (hsCommon h) j [v]) (hsRaw h)).
Proof.
  intros (L & H0 & Ws & Wr) Hj Hi Hx Hk Np Wv Bv. split; [cbn [hsCommon]; now rewrite setNth_len|]. split; [cbn [hsCommon]; rewrite setNth_nth_ne by lia; exact H0|]. split; [|exact Wr]. cbn [hsCommon]. apply Forall_combine_set; [exact Ws|].
  intros i' Hi'. assert (i' = i) by congruence. subst i'. apply slot_cases. right. exists x, k. cbn [fst snd]. do 3 (split; [assumption|]). split; [constructor; auto|reflexivity].
Qed.
Lemma needLength o e : needParse o e SIP_HDR_CONTENT_LENGTH <> None.
Proof. unfold needParse. destruct (fHeaderAsRaw e), o; vm_compute; discriminate. Qed.
Lemma needType e : needParse OMsg e SIP_HDR_CONTENT_TYPE <> None.
Proof. unfold needParse. destruct (fHeaderAsRaw e); vm_compute; discriminate. Qed.
Lemma wf_withLength e h n : wfHdrs OMsg e h -> n < two32 -> wfHdrs OMsg e (withLength n h).
Proof. intros W Hn. apply (wf_setSlot OMsg e h 7 SIP_HDR_CONTENT_LENGTH (VNum n) (mkinfo (s2b "Content-Length") false (Some KContentLength)) KContentLength); auto; [lia|apply needLength|exact I]. Qed.
Lemma lengthSlot_wf e h : wfHdrs OMsg e h -> lengthSlot h.
Proof. intros W. split; [exact (common19 _ _ W)|exact (slot7_wf _ _ W)]. Qed.
Lemma stated_lt h : lengthSlot h -> statedLength h < two32.
Proof. intros [_ W]. unfold statedLength. destruct W as [->|(n & -> & H)]; [reflexivity|exact H]. Qed.
Lemma ensureLength_ok e h s h1 s1 : lengthSlot h -> ensureLength h e s = Ok h1 s1 -> h1 = withLength (statedLength h) h.
Proof.
  intros [_ W]. unfold ensureLength, contentLengthOf, statedLength, withLength. destruct W as [E|(n & E & _)]; rewrite E; cbn [hd_error].
  - unfold bind, allocStruct. destruct (leMem _ _); [|discriminate]. intros [= <- _]. reflexivity.
  - intros [= <- _]. rewrite <- E, setNth_same. destruct h; reflexivity.
Qed.
Lemma allocC_ok e b s a s' : allocCString b e s = Ok a s' -> a = b.
Proof. unfold allocCString. destruct (leMem _ _); [|discriminate]. now intros [= <- _]. Qed.
Lemma default_wf ps : fContentTypeKnown ps = true -> forall l, wfGenParams true [s2b "boundary"] None l -> wfGenParams true [s2b "boundary"] (Some [Some (mkgp (s2b "boundary") (Some (GQuoted defaultBoundary)))]) l.
Proof.
  intros _ l [[W1 _] W2]. split; [|exact W2]. split; [exact W1|]. split; [reflexivity|]. split; [discriminate|]. constructor; [|constructor]. split; [reflexivity|]. split; [split; [discriminate|reflexivity]|].
  cbn [gpValue wfGenValue]. unfold quotable. assert (F : forallb qdChar defaultBoundary = true) by (vm_compute; reflexivity). clear -F. induction defaultBoundary as [|x b IH]; [constructor|]. cbn in F. apply andb_prop in F as [F1 F2]. constructor; auto.
Qed.
Lemma boundary_slots e h s h2 b s2 : findOrCreateBoundary h e s = Ok (h2, b) s2 -> hsRaw h2 = hsRaw h /\ forall j, j <> 10%nat -> nth j (hsCommon h2) [] = nth j (hsCommon h) [].
Proof.
  unfold findOrCreateBoundary. intros E. apply bind_inv in E as (v & s1 & _ & E). apply bind_inv in E as (vb & s3 & _ & E). injection E as <- _ _. cbn [hsRaw hsCommon]. split; [reflexivity|]. intros j Hj. apply setNth_nth_ne. congruence.
Qed.
Lemma boundary_ok e h s h2 b s2 : wfHdrs OMsg e h -> fContentTypeKnown e = true -> (noType h \/ exists m st t ps, nth 10 (hsCommon h) [] = [VType m st t ps] /\ sameNoCase m (s2b "multipart")) ->
  findOrCreateBoundary h e s = Ok (h2, b) s2 -> wfHdrs OMsg e h2 /\ multipartType h2 b.
Proof.
  intros W Hk Hn. assert (L : (10 < List.length (hsCommon h))%nat) by (rewrite (common19 _ _ W); lia). unfold findOrCreateBoundary, contentTypeOf. intros E. apply bind_inv in E as (v & s1 & Ev & E).
  assert (V : wfHVal e KContentType v /\ exists m st t ps, v = VType m st t ps /\ sameNoCase m (s2b "multipart")).
  { destruct Hn as [Hn|(m & st & t & ps & Hn & Hm)].
    - unfold noType in Hn. rewrite Hn in Ev. cbn [hd_error] in Ev. apply bind_inv in Ev as (? & ? & _ & Ev). apply bind_inv in Ev as (m & ? & Em & Ev). apply bind_inv in Ev as (st & ? & Es & Ev). apply allocC_ok in Em, Es. injection Ev as <- _.
      rewrite Em, Es. split; [|exists (s2b "multipart"), (s2b "mixed"), None, []; split; reflexivity]. cbn [wfHVal]. repeat split; try discriminate; try reflexivity; [intros _ p n []|constructor].
    - rewrite Hn in Ev. cbn [hd_error] in Ev. injection Ev as <- _. split; [|eauto 7]. destruct (slot10_wf e h W) as [E0|(m' & s' & t' & p' & E0 & Wt)]; [congruence|]. rewrite Hn in E0. injection E0 as -> -> -> ->. exact Wt. }
  destruct V as (Wv & m & st & t & ps & -> & Hm). apply bind_inv in E as (vb & s3 & Eb & E). injection E as <- <- _. cbn [boundaryParam] in Eb.
  assert (G : wfHVal e KContentType (fst vb) /\ exists t' p x, fst vb = VType m st t' ps /\ t' = Some [Some p] /\ gpValue p = Some x /\ match x with GToken y | GQuoted y | GBracket y => y = snd vb end).
  { destruct Wv as (Wm & Wst & Wt). pose proof Wt as [[Wt1 Wt2] Wt3]. destruct t as [tbl|].
    - destruct Wt2 as (_ & Hpr & F2). cbn [paramNames] in F2. inversion F2 as [|? o ? tl Ho Ft E1 E2]; subst. inversion Ft; subst. destruct o as [p|]; [|exfalso; apply Hpr; reflexivity]. cbn [nth] in Eb.
      destruct (gpValue p) as [x|] eqn:Ex; cbn [gvalueText] in Eb; [|discriminate]. assert (Y : exists y, vb = (VType m st (Some [Some p]) ps, y) /\ match x with GToken z | GQuoted z | GBracket z => z = y end).
      { destruct x; injection Eb as <- _; eexists; split; reflexivity. }
      destruct Y as (y & -> & Hy). cbn [fst snd]. split; [split; [exact Wm|]; split; [exact Wst|exact Wt]|]. exists (Some [Some p]), p, x. auto.
    - assert (Eb' : setBoundary (VType m st None ps) e s1 = Ok vb s3) by exact Eb. clear Eb. unfold setBoundary in Eb'. apply bind_inv in Eb' as (? & ? & _ & Eb). apply bind_inv in Eb as (? & ? & _ & Eb). apply bind_inv in Eb as (nm & ? & En & Eb).
      apply bind_inv in Eb as (bb & ? & Ebb & Eb). apply allocC_ok in En, Ebb. injection Eb as <- _. rewrite En, Ebb. cbn [fst snd]. split.
      + split; [exact Wm|]. split; [exact Wst|]. unfold wfParams. cbn [recognise paramNames]. rewrite Hk. apply (default_wf e Hk). unfold wfParams in Wt. cbn [recognise paramNames] in Wt. now rewrite Hk in Wt.
      + eexists. eexists. eexists. repeat split; reflexivity. }
  destruct G as (Wf & t' & p & x & Ef & Et & Ex & Hx). split.
  - apply (wf_setSlot OMsg e h 10 SIP_HDR_CONTENT_TYPE (fst vb) (mkinfo (s2b "Content-Type") false (Some KContentType)) KContentType); auto; [lia|apply needType|rewrite Ef; exact I].
  - unfold multipartType. cbn [hsCommon]. rewrite setNth_nth by exact L. rewrite Ef. exists m, st, t', ps, p, x. auto.
Qed.
(** The text after the empty line. *)
Definition bodyText (e : env) (b : bytes) (bs : list body) : bytes := match bs with [] => [] | [x] => bData x | _ => encMultipart e b bs end.
Definition mimeText (m : msg) (h : hset) : bytes :=
  if hasMulti m then match getHeaderByIndex h SIP_HDR_MIME_VERSION with None => s2b "MIME-Version: 1.0" ++ CRLF | Some _ => [] end else [].
Lemma withLength_id n h : nth 7 (hsCommon h) [] = [VNum n] -> withLength n h = h.
Proof. intros E. unfold withLength. rewrite <- E, setNth_same. destruct h; reflexivity. Qed.
Lemma encMsg_text e pre m s text m' s' : lengthSlot (mHdrs m) -> encMsg pre m e s = Ok (text, m') s' ->
  exists b, mStart m' = mStart m /\ nth 7 (hsCommon (mHdrs m')) [] = [VNum (statedLength (mHdrs m))] /\ List.length (hsCommon (mHdrs m')) = 19%nat /\
    (if hasMulti m then exists s1 s2, findOrCreateBoundary (withLength (statedLength (mHdrs m)) (mHdrs m)) e s1 = Ok (mHdrs m', b) s2 else mHdrs m' = withLength (statedLength (mHdrs m)) (mHdrs m)) /\
    let body := bodyText e b (mBodies m) in
    (mBodies m = [] -> text = pre ++ encStartLine e (mStart m) ++ encHdrs OMsg e (mHdrs m') ++ mimeText m (mHdrs m') ++ CRLF) /\
    (mBodies m <> [] -> len body < two32 -> noLonger (statedLength (mHdrs m)) (len body) ->
      text = pre ++ encStartLine e (mStart m) ++ encHdrs OMsg e (withLength (len body) (mHdrs m')) ++ mimeText m (mHdrs m') ++ CRLF ++ body).
Proof.
  intros W E. unfold encMsg, withEnv in E. apply bind_inv in E as (h1 & s1 & E1 & E). apply (ensureLength_ok _ _ _ _ _ W) in E1. set (n0 := statedLength (mHdrs m)) in *. pose proof (stated_lt _ W) as Hn0. fold n0 in Hn0.
  assert (L1 : List.length (hsCommon h1) = 19%nat) by (rewrite E1; unfold withLength; cbn [hsCommon]; rewrite setNth_len; exact (proj1 W)).
  assert (S1 : nth 7 (hsCommon h1) [] = [VNum n0]) by (rewrite E1; unfold withLength; cbn [hsCommon]; apply setNth_nth; rewrite (proj1 W); lia).
  apply bind_inv in E as ((h & b) & s2 & Eh & E). cbn [fst snd] in E.
  assert (Sh : nth 7 (hsCommon h) [] = [VNum n0] /\ List.length (hsCommon h) = 19%nat).
  { destruct (hasMulti m); [|injection Eh as <- _ _; auto]. split; [destruct (boundary_slots _ _ _ _ _ _ Eh) as [_ Sl]; rewrite Sl by discriminate; exact S1|].
    unfold findOrCreateBoundary in Eh. apply bind_inv in Eh as (? & ? & _ & Eh). apply bind_inv in Eh as (? & ? & _ & Eh). injection Eh as <- _ _. cbn [hsCommon]. now rewrite setNth_len. }
  destruct Sh as [Sh Lh]. exists b.
  assert (E' : match mBodies m with
    | [] => ret (pre ++ encStartLine e (mStart m) ++ encHdrs OMsg e h ++ mimeText m h ++ CRLF, mkmsg (mStart m) h [])
    | bs => ret (patch ((pre ++ encStartLine e (mStart m) ++ encHdrs OMsg e h ++ mimeText m h ++ CRLF) ++ (if hasMulti m then encMultipart e b bs else encSingle bs)) (lengthEnd e (pre ++ encStartLine e (mStart m)) h)
                   (encUInt (len (if hasMulti m then encMultipart e b bs else encSingle bs))), mkmsg (mStart m) h (if hasMulti m then map fixLength bs else bs))
    end e s2 = Ok (text, m') s') by exact E. clear E. rename E' into E. destruct (mBodies m) as [|b1 bs] eqn:Eb.
  - unfold ret in E. assert (Q := f_equal (fun r => match r with Ok (t, x) _ => (t, x) | _ => (text, m') end) E). cbv beta iota in Q. apply pair_equal_spec in Q as [<- <-]. cbn [mStart mHdrs mBodies]. split; [reflexivity|]. split; [exact Sh|]. split; [exact Lh|]. split.
    + destruct (hasMulti m) eqn:Em; [rewrite <- E1; eauto|]. injection Eh as <- _ _. exact E1.
    + cbv zeta. split; [intros _; now rewrite <- ?app_assoc|congruence].
  - unfold ret in E. assert (Q := f_equal (fun r => match r with Ok (t, x) _ => (t, x) | _ => (text, m') end) E). cbv beta iota in Q. apply pair_equal_spec in Q as [<- <-]. cbn [mStart mHdrs mBodies]. split; [reflexivity|]. split; [exact Sh|]. split; [exact Lh|]. split.
    + destruct (hasMulti m) eqn:Em; [rewrite <- E1; eauto|]. injection Eh as <- _ _. exact E1.
    + cbv zeta. split; [discriminate|]. intros _ Hl Hd.
      assert (Et : (if hasMulti m then encMultipart e b (b1 :: bs) else encSingle (b1 :: bs)) = bodyText e b (b1 :: bs)) by (unfold hasMulti, bodyText; rewrite Eb; destruct bs; reflexivity). rewrite Et.
      set (body := bodyText e b (b1 :: bs)) in *. destruct (encHdrs_length e h Lh) as (A & B & HAB). pose proof (withLength_id _ _ Sh) as Id.
      destruct (HAB n0) as [H1 H2]. rewrite Id in H1, H2. rewrite H1, (H2 (pre ++ encStartLine e (mStart m))). destruct (HAB (len body)) as [H3 _]. rewrite H3. rewrite <- !app_assoc.
      transitivity (patch ((pre ++ encStartLine e (mStart m) ++ A) ++ encContentLength n0 ++ B ++ mimeText m h ++ CRLF ++ body) (List.length ((pre ++ encStartLine e (mStart m) ++ A) ++ encContentLength n0)) (encUInt (len body))).
      { rewrite <- !app_assoc. subst body. rewrite <- Et. reflexivity. }
      rewrite patch_length by assumption. rewrite <- !app_assoc. reflexivity.
Qed.
