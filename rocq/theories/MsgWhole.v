(** Reading the text of a whole message back. *)
From Verif Require Import Base Charset CharsetSpec CharsetProofs BaseLemmas Num NumSpec NumProofs Lws LwsSpec LwsProofs Str StrSpec StrProofs Monad Good Rt Seq GoodAuto Inv
  IndexTree IndexProofs MethodTree HeaderTree Lookup NameSpec NameProofs Room Host HostSpec HostProofs Uri UriSpec UriGood UriProofs Tel TelSpec TelProofs GenParam GenParamSpec GenParamProofs Addr AddrSpec AddrProofs
  StartLine StartLineSpec StartLineProofs Headers HeadersSpec HeadersProofs RawHeaders RawSpec RawProofs Msg Thrift MsgSpec MsgProofs MsgRt MsgEnc Nine NineParse P10_Headers.

Lemma rt_whole e l h t bs r u : infinite e -> eUriNoEscape e = false -> wfStartLine e l -> wfHdrs OMsg e h ->
  (forall u, exists u', parseMsgBody (hdrsAsWritten e h) e (mkst t u) = Ok bs (mkst r u')) ->
  exists u', parseMsg e (mkst (encStartLine e l ++ encHdrs OMsg e h ++ CRLF ++ t) u) = Ok (mkmsg l (hdrsAsWritten e h) bs) (mkst r u').
Proof.
  intros HI He Wl Wh HB. unfold parseMsg. destruct (rt_startLine e l (encHdrs OMsg e h ++ CRLF ++ t) u HI He Wl) as [u1 E1]. rewrite (bind_ok _ _ _ _ _ _ E1). rewrite onRest_eq.
  destruct (rt_headers e OMsg h t u1 HI He Wh) as [u2 E2]. destruct (HB u2) as [u3 E3]. exists u3.
  destruct (encHdrs OMsg e h ++ CRLF ++ t) as [|x q] eqn:Ex; [exfalso; destruct (encHdrs OMsg e h); discriminate|]. rewrite (bind_ok _ _ _ _ _ _ E2). rewrite (bind_ok _ _ _ _ _ _ E3). reflexivity.
Qed.
Lemma reads e text m r u : (exists u', parseMsg (withMem None e) (mkst text u) = Ok m (mkst r u')) -> readsAs e text m r u.
Proof.
  intros [u' E]. exists u'. pose proof (gd_msg e (mkst text u)) as G. split.
  - pose proof (end_any _ _ _ _ _ G None) as A. pose proof (msg_used _ _ _ _ E) as B. rewrite E in A. cbn [rest used] in A, B. lia.
  - intros [n|] Hn; [|exact E]. apply th_msg with (1 := E). exact Hn.
Qed.
Lemma wfStart_mem m e l : wfStartLine e l -> wfStartLine (withMem m e) l.
Proof. destruct l; exact (fun H => H). Qed.
Lemma hdrs_mem m e h : hdrsAsWritten (withMem m e) h = hdrsAsWritten e h. Proof. reflexivity. Qed.
Lemma aw_type e h m s t ps : nth 10 (hsCommon h) [] = [VType m s t ps] -> nth 10 (hsCommon (hdrsAsWritten e h)) [] = [VType m s t ps].
Proof. intros E. unfold hdrsAsWritten. cbn [hsCommon]. change (@nil hval) with (map (asWritten e) []). rewrite map_nth, E. reflexivity. Qed.
Lemma aw_none e h : noType h -> nth 10 (hsCommon (hdrsAsWritten e h)) [] = [].
Proof. intros E. unfold hdrsAsWritten. cbn [hsCommon]. change (@nil hval) with (map (asWritten e) []). rewrite map_nth, E. reflexivity. Qed.
Lemma aw_length e h n : nth 7 (hsCommon h) [] = [VNum n] -> nth 7 (hsCommon (hdrsAsWritten e h)) [] = [VNum n].
Proof. intros E. unfold hdrsAsWritten. cbn [hsCommon]. change (@nil hval) with (map (asWritten e) []). rewrite map_nth, E. reflexivity. Qed.
Lemma body_none e h t u : noType h -> parseMsgBody (hdrsAsWritten e h) e (mkst t u) = Ok [] (mkst t u).
Proof. intros H. unfold parseMsgBody, contentTypeOf. rewrite (aw_none e h H). reflexivity. Qed.
Lemma not_multi m : ~ sameNoCase m (s2b "multipart") -> CStringEqualNoCase m (s2b "multipart") = Some false.
Proof.
  intros H. pose proof (CStringEqualNoCase_total m (s2b "multipart") ltac:(discriminate)) as T. destruct (CStringEqualNoCase m _) as [[]|] eqn:E; [|reflexivity|congruence].
  apply CStringEqualNoCase_spec in E; [contradiction|discriminate].
Qed.
Lemma body_single e h n t u : infinite e -> singleType h -> nth 7 (hsCommon h) [] = [VNum n] ->
  exists u', parseMsgBody (hdrsAsWritten e h) e (mkst t u) = Ok (if N.min n (len t) =? 0 then [] else [mkbody (emptyHdrs OBody) (firstn (N.to_nat (N.min n (len t))) t)]) (mkst t u').
Proof.
  intros HI (m & s & ty & ps & Ht & Hm) Hn. unfold parseMsgBody, contentTypeOf. rewrite (aw_type e h _ _ _ _ Ht). cbn [hd_error]. rewrite not_multi by exact Hm. unfold parseSingleBody. rewrite onRest_eq. unfold contentLengthOf. rewrite (aw_length e h n Hn). cbn [hd_error].
  destruct (_ =? 0); [exists u; reflexivity|]. rewrite (bind_ok _ _ _ _ _ _ (rt_alloc e 16 _ u HI)). unfold allocCString, bind, leMem. rewrite HI. eexists. reflexivity.
Qed.
Lemma body_multi e h b bs t u : infinite e -> eUriNoEscape e = false -> multipartType h b -> ~ In 13 b -> Forall (wfPart e b) bs -> Forall (fun x => len (bData x) < two32) bs ->
  exists u', parseMsgBody (hdrsAsWritten e h) e (mkst (encMultipart e b bs ++ t) u) = Ok (map (fun x => partAsWritten e (partWithLength x)) bs) (mkst t u').
Proof.
  intros HI He (m & s & ty & ps & p & v & Ht & Hm & -> & Hp & Hv) Hb W HL. unfold parseMsgBody, contentTypeOf. rewrite (aw_type e h _ _ _ _ Ht). cbn [hd_error].
  rewrite (proj2 (CStringEqualNoCase_spec m (s2b "multipart") ltac:(discriminate)) Hm). cbn [boundaryParam nth]. rewrite Hp.
  replace (match gvalueText (Some v) with Some b0 => b0 | None => [] end) with b by (destruct v; subst; reflexivity). now apply rt_multipart.
Qed.
(** The MIME-Version header. *)
Lemma findKnown_exists hs i : findKnownRaw hs i = None <-> existsb (fun x => rId x =? i) hs = false.
Proof. induction hs as [|h hs IH]; cbn [findKnownRaw existsb]; [tauto|]. destruct (rId h =? i); cbn [orb]; [split; discriminate|exact IH]. Qed.
Lemma findCommon_notin i : forall l, ~ In i (map fst l) -> findCommon l i = None.
Proof. induction l as [|[j [|v vs]] l IH]; cbn [findCommon map fst In]; intros H; auto. destruct (N.eqb_spec j i) as [E|E]; [exfalso; tauto|]. apply IH. tauto. Qed.
Lemma mime_notslot h : findCommon (combine (slotIndexes OMsg) (hsCommon h)) SIP_HDR_MIME_VERSION = None.
Proof. apply findCommon_notin. intros H. apply in_map_iff in H as ([j v] & E & H). cbn [fst] in E. subst j. apply in_combine_l in H. vm_compute in H. intuition discriminate. Qed.
Lemma mime_text e m h : hasMulti m = true -> encHdrs OMsg e h ++ mimeText m h = encHdrs OMsg e (withMime h).
Proof.
  intros Hm. unfold mimeText. rewrite Hm. unfold getHeaderByIndex. rewrite mime_notslot. unfold encHdrs, withMime. cbn [hsCommon hsRaw].
  pose proof (findKnown_exists (hsRaw h) SIP_HDR_MIME_VERSION) as F. destruct (findKnownRaw _ _) as [x|].
  - destruct (existsb _ _); [now rewrite !app_nil_r|]. exfalso. destruct F as [_ F]. discriminate F. reflexivity.
  - rewrite (proj1 F eq_refl). unfold encRawHeaders. rewrite flat_map_app, <- app_assoc. reflexivity.
Qed.
Lemma wf_withMime e h : wfHdrs OMsg e h -> wfHdrs OMsg e (withMime h).
Proof.
  intros (L & H0 & Ws & Wr). unfold withMime. split; [exact L|]. split; [exact H0|]. split; [exact Ws|]. cbn [hsRaw]. apply Forall_app. split; [exact Wr|]. destruct (existsb _ _); constructor; [|constructor]. split.
  - split; [|vm_compute; tauto]. split; [discriminate|]. split; [|split].
    + intros a b E. exfalso. cbn [rValue] in E. assert (H : In 10 (s2b "1.0")) by (rewrite E; apply in_or_app; right; left; reflexivity). vm_compute in H. intuition discriminate.
    + intros (x & t & E & Hw). cbn [rValue] in E. vm_compute in E. injection E as <- _. destruct Hw; discriminate.
    + intros (t & E). cbn [rValue] in E. vm_compute in E. discriminate.
  - apply not_read. cbn [rId]. unfold needParse. destruct (fHeaderAsRaw e); reflexivity.
Qed.
(** The boundary. *)
Lemma boundary_exact e h s h2 b s2 : wfHdrs OMsg e h -> fContentTypeKnown e = true -> findOrCreateBoundary h e s = Ok (h2, b) s2 -> h2 = withBoundary h /\ b = boundaryOf h.
Proof.
  intros W Hk E. unfold findOrCreateBoundary, contentTypeOf in E. unfold withBoundary, boundaryOf. destruct (slot10_wf e h W) as [E0|(m & st & t & ps & E0 & Wt)]; rewrite E0 in *; cbn [hd_error] in E.
  - apply bind_inv in E as (v & s1 & Ev & E). apply bind_inv in Ev as (? & ? & _ & Ev). apply bind_inv in Ev as (m & ? & Em & Ev). apply bind_inv in Ev as (st & ? & Es & Ev). apply allocC_ok in Em, Es. injection Ev as <- _. subst m st.
    cbn [boundaryParam] in E. apply bind_inv in E as (vb & s3 & Eb & E). unfold setBoundary in Eb. apply bind_inv in Eb as (? & ? & _ & Eb). apply bind_inv in Eb as (? & ? & _ & Eb). apply bind_inv in Eb as (nm & ? & En & Eb).
    apply bind_inv in Eb as (bb & ? & Ebb & Eb). apply allocC_ok in En, Ebb. subst nm bb. unfold ret in Eb. assert (Q := f_equal (fun r => match r with Ok x _ => x | _ => vb end) Eb). cbv beta iota in Q. subst vb.
    unfold ret in E. assert (Q := f_equal (fun r => match r with Ok (x, y) _ => (x, y) | _ => (h2, b) end) E). cbv beta iota in Q. apply pair_equal_spec in Q as [<- <-]. split; reflexivity.
  - apply bind_inv in E as (v & s1 & Ev & E). unfold ret in Ev. injection Ev as <- _. apply bind_inv in E as (vb & s3 & Eb & E). destruct Wt as (Wm & Wst & Wt). pose proof Wt as [[Wt1 Wt2] Wt3]. cbn [boundaryParam] in Eb. destruct t as [tbl|].
    + destruct Wt2 as (_ & Hpr & F2). cbn [paramNames] in F2. inversion F2 as [|? o ? tl Ho Ft E1 E2]; subst. inversion Ft; subst. destruct o as [p|]; [|exfalso; apply Hpr; reflexivity]. cbn [nth] in Eb.
      destruct (gpValue p) as [x|] eqn:Ex; cbn [gvalueText] in Eb; [|discriminate]. assert (Y : vb = (VType m st (Some [Some p]) ps, match x with GToken z | GQuoted z | GBracket z => z end)) by (destruct x; injection Eb as <- _; reflexivity). subst vb. cbn [fst snd] in E.
      injection E as <- <- _. split; [|reflexivity]. rewrite <- E0, setNth_same. destruct h; reflexivity.
    + assert (Eb' : setBoundary (VType m st None ps) e s1 = Ok vb s3) by exact Eb. clear Eb. unfold setBoundary in Eb'. apply bind_inv in Eb' as (? & ? & _ & Eb). apply bind_inv in Eb as (? & ? & _ & Eb). apply bind_inv in Eb as (nm & ? & En & Eb).
      apply bind_inv in Eb as (bb & ? & Ebb & Eb). apply allocC_ok in En, Ebb. subst nm bb. unfold ret in Eb. assert (Q := f_equal (fun r => match r with Ok x _ => x | _ => vb end) Eb). cbv beta iota in Q. subst vb.
      unfold ret in E. assert (Q := f_equal (fun r => match r with Ok (x, y) _ => (x, y) | _ => (h2, b) end) E). cbv beta iota in Q. apply pair_equal_spec in Q as [<- <-]. split; reflexivity.
Qed.
