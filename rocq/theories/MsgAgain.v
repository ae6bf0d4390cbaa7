(** Encoding what comes back when an encoding is read gives the same text. *)
From Verif Require Import Base Charset CharsetSpec CharsetProofs BaseLemmas Num NumSpec NumProofs Lws LwsSpec LwsProofs Str StrSpec StrProofs Monad Good Rt Seq GoodAuto Inv
  IndexTree IndexProofs MethodTree HeaderTree Lookup NameSpec NameProofs Room Host HostSpec HostProofs Uri UriSpec UriGood UriProofs Tel TelSpec TelProofs GenParam GenParamSpec GenParamProofs Addr AddrSpec AddrProofs
  StartLine StartLineSpec StartLineProofs Headers HeadersSpec HeadersProofs RawHeaders RawSpec RawProofs Msg MsgSpec MsgProofs MsgRt MsgEnc MsgWhole MsgSound P12_Messages ParsedSpec ParsedWf P20_Stable ParsedMsg RelEnc.

Lemma nth_aw e h j : nth j (hsCommon (hdrsAsWritten e h)) [] = map (asWritten e) (nth j (hsCommon h) []).
Proof. unfold hdrsAsWritten. cbn [hsCommon]. exact (map_nth (map (asWritten e)) (hsCommon h) [] j). Qed.
Lemma aw_relVal e i v : relVal e i v (asWritten e v).
Proof. split; [destruct v; cbn; try exact Logic.I; repeat split; apply sameKnown_refl|]. unfold encSlotValue. destruct (hiKind _); [symmetry; apply asWritten_enc|reflexivity]. Qed.
Lemma aw_rel o e h : relHdrs o e h (hdrsAsWritten e h).
Proof.
  split; [reflexivity|]. split; [unfold hdrsAsWritten; cbn [hsCommon]; now rewrite map_length|]. intros j. rewrite nth_aw. induction (nth j (hsCommon h) []); constructor; [apply aw_relVal|assumption].
Qed.
Lemma aw_length e n h : hdrsAsWritten e (withLength n h) = withLength n (hdrsAsWritten e h).
Proof. unfold hdrsAsWritten, withLength. cbn [hsCommon hsRaw]. f_equal. revert h. intros [cs rs]. cbn [hsCommon]. generalize 7%nat. induction cs as [|c cs IH]; intros [|k]; cbn [setNth map]; try reflexivity. now rewrite IH. Qed.
(** A message whose Content-Length is right and which has what a message with several bodies needs is written as it is. *)
Lemma boundary_there e h b s : multipartType h b -> findOrCreateBoundary h e s = Ok (h, b) s.
Proof.
  intros (m & st & t & ps & p & v & E & _ & -> & Ev & Hb). unfold findOrCreateBoundary, contentTypeOf. rewrite E. cbn [hd_error]. unfold bind, ret. cbn [boundaryParam nth]. rewrite Ev. cbn [gvalueText].
  destruct v; subst b; cbn [fst snd]; rewrite <- E, setNth_same; destruct h; reflexivity.
Qed.
Lemma enc_again e y n b s : List.length (hsCommon (mHdrs y)) = 19%nat -> nth 7 (hsCommon (mHdrs y)) [] = [VNum n] -> n < two32 ->
  (hasMulti y = true -> multipartType (mHdrs y) b /\ existsb (fun x => rId x =? SIP_HDR_MIME_VERSION) (hsRaw (mHdrs y)) = true) -> (mBodies y <> [] -> n = len (bodyText e b (mBodies y))) ->
  exists y', encMsg [] y e s = Ok (encStartLine e (mStart y) ++ encHdrs OMsg e (mHdrs y) ++ CRLF ++ bodyText e b (mBodies y), y') s.
Proof.
  intros L E7 Hn Hm Hb. assert (Hs : lengthSlot (mHdrs y)) by (split; [exact L|right; eauto]). assert (St : statedLength (mHdrs y) = n) by (unfold statedLength; now rewrite E7). pose proof (withLength_id _ _ E7) as Wid.
  assert (EE : exists text y', encMsg [] y e s = Ok (text, y') s).
  { unfold encMsg, withEnv. unfold bind at 1. unfold ensureLength, contentLengthOf. rewrite E7. cbn [hd_error]. unfold ret at 1. unfold bind at 1. destruct (hasMulti y) eqn:M; [rewrite (boundary_there e _ b s) by (apply Hm; reflexivity)|unfold ret at 1]; destruct (mBodies y); unfold ret; eauto. }
  destruct EE as (text & y' & EE). exists y'. rewrite EE. f_equal. f_equal. destruct (encMsg_text e [] y s text y' s Hs EE) as (b' & _ & S7 & _ & Hh & Et0 & Et1). cbv zeta in Et1. rewrite St, Wid in *. cbn [app] in *.
  assert (M : mHdrs y' = mHdrs y /\ mimeText y (mHdrs y') = [] /\ bodyText e b' (mBodies y) = bodyText e b (mBodies y)).
  { unfold mimeText. destruct (hasMulti y) eqn:M.
    - destruct (Hm eq_refl) as [Mt Me]. destruct Hh as (s1 & s2 & Hh). rewrite (boundary_there e _ b s1 Mt) in Hh. injection Hh as <- <- _. split; [reflexivity|]. split; [|reflexivity]. unfold getHeaderByIndex. rewrite mime_notslot. pose proof (findKnown_exists (hsRaw (mHdrs y)) SIP_HDR_MIME_VERSION) as F. destruct (findKnownRaw _ _); [reflexivity|]. rewrite (proj1 F eq_refl) in Me. discriminate.
    - split; [exact Hh|]. split; [reflexivity|]. unfold hasMulti in M. destruct (mBodies y) as [|x [|z bs]]; [reflexivity|reflexivity|discriminate]. }
  destruct M as (M1 & M2 & M3). destruct (mBodies y) as [|x bs] eqn:Eb.
  - rewrite (Et0 eq_refl), M1, <- M1, M2, M1. cbn [bodyText]. now rewrite app_nil_r.
  - assert (Hne : x :: bs <> []) by discriminate. specialize (Hb Hne). rewrite M3 in Et1. rewrite (Et1 Hne); [|now rewrite <- Hb|rewrite <- Hb; apply C36_smaller; lia]. rewrite M2, M1, <- Hb, Wid. reflexivity.
Qed.
Lemma nth7_aw e n h : List.length (hsCommon h) = 19%nat -> nth 7 (hsCommon (hdrsAsWritten e (withLength n h))) [] = [VNum n].
Proof. intros L. rewrite nth_aw. unfold withLength. cbn [hsCommon]. rewrite setNth_nth by lia. reflexivity. Qed.
Lemma len_aw e h : List.length (hsCommon (hdrsAsWritten e h)) = List.length (hsCommon h). Proof. unfold hdrsAsWritten. cbn [hsCommon]. apply map_length. Qed.
Lemma len_wl n h : List.length (hsCommon (withLength n h)) = List.length (hsCommon h). Proof. unfold withLength. cbn [hsCommon]. apply setNth_len. Qed.

Lemma again_no_body e m s text m' s' : lengthSlot (mHdrs m) -> mBodies m = [] -> encMsg [] m e s = Ok (text, m') s' ->
  forall n s3, exists y', encMsg [] (mkmsg (mStart m) (hdrsAsWritten e (withLength (statedLength (mHdrs m)) (mHdrs m))) []) (withMem n e) s3 = Ok (text, y') s3.
Proof.
  intros Hs Hb E n s3. destruct (encMsg_text e [] m s text m' s' Hs E) as (b & _ & S7 & L19 & Hh & Et & _). specialize (Et Hb). unfold mimeText, hasMulti in *. rewrite Hb in *. rewrite Hh in Et. cbn [app] in Et.
  destruct (enc_again (withMem n e) (mkmsg (mStart m) (hdrsAsWritten e (withLength (statedLength (mHdrs m)) (mHdrs m))) []) (statedLength (mHdrs m)) [] s3) as [y' E'].
  - cbn [mHdrs]. rewrite len_aw, len_wl. exact (proj1 Hs).
  - cbn [mHdrs]. apply nth7_aw. exact (proj1 Hs).
  - now apply stated_lt.
  - discriminate.
  - intros H. exfalso. now apply H.
  - exists y'. rewrite E'. f_equal. f_equal. cbn [mStart mHdrs mBodies bodyText]. rewrite app_nil_r, encStartLine_mem, encHdrs_mem. rewrite <- (hdrs_rel _ _ _ _ (aw_rel OMsg e _)). rewrite Et. reflexivity.
Qed.
Lemma again_one_body e m b s text m' s' : lengthSlot (mHdrs m) -> mBodies m = [b] -> len (bData b) < two32 -> noLonger (statedLength (mHdrs m)) (len (bData b)) -> encMsg [] m e s = Ok (text, m') s' ->
  forall n s3, exists y', encMsg [] (mkmsg (mStart m) (hdrsAsWritten e (withLength (len (bData b)) (mHdrs m))) [mkbody (emptyHdrs OBody) (bData b)]) (withMem n e) s3 = Ok (text, y') s3.
Proof.
  intros Hs Hb Hlt Hd E n s3. destruct (encMsg_text e [] m s text m' s' Hs E) as (b' & _ & S7 & L19 & Hh & _ & Et). cbv zeta in Et. unfold mimeText, hasMulti in *. rewrite Hb in *. cbn [bodyText app] in Et. specialize (Et ltac:(discriminate) Hlt Hd). rewrite Hh, withLength_twice in Et.
  destruct (enc_again (withMem n e) (mkmsg (mStart m) (hdrsAsWritten e (withLength (len (bData b)) (mHdrs m))) [mkbody (emptyHdrs OBody) (bData b)]) (len (bData b)) [] s3) as [y' E'].
  - cbn [mHdrs]. rewrite len_aw, len_wl. exact (proj1 Hs).
  - cbn [mHdrs]. apply nth7_aw. exact (proj1 Hs).
  - exact Hlt.
  - discriminate.
  - reflexivity.
  - exists y'. rewrite E'. f_equal. f_equal. cbn [mStart mHdrs mBodies bodyText bData]. rewrite encStartLine_mem, encHdrs_mem. rewrite <- (hdrs_rel _ _ _ _ (aw_rel OMsg e _)). rewrite Et. reflexivity.
Qed.
Lemma part_rel e x : len (bData x) < two32 -> relBody e (fixLength x) (fixLength (partAsWritten e (partWithLength x))).
Proof.
  intros H. assert (R : relBody e (fixLength x) (partAsWritten e (fixLength x))) by (split; [apply aw_rel|reflexivity]). apply (fix_rel e) in R. rewrite fixLength_twice in R.
  assert (P : partWithLength x = fixLength x) by (unfold partWithLength, fixLength; rewrite N.mod_small by exact H; reflexivity). rewrite P. exact R.
Qed.
Lemma again_multi e m s text m' s' : let b := boundaryOf (mHdrs m) in let body := encMultipart e b (mBodies m) in
  fContentTypeKnown e = true -> wfHdrs OMsg e (mHdrs m) -> (2 <= List.length (mBodies m))%nat -> manyType (mHdrs m) ->
  len body < two32 -> noLonger (statedLength (mHdrs m)) (len body) -> encMsg [] m e s = Ok (text, m') s' ->
  forall n s3, exists y', encMsg [] (mkmsg (mStart m) (hdrsAsWritten e (withMime (withLength (len body) (withBoundary (mHdrs m))))) (map (fun x => partAsWritten e (partWithLength x)) (mBodies m))) (withMem n e) s3 = Ok (text, y') s3.
Proof.
  intros b body Hk Wh H2 Hty Hlt Hd E n s3. pose proof (lengthSlot_wf e _ Wh) as Hs. destruct (encMsg_text e [] m s text m' s' Hs E) as (b' & _ & S7 & L19 & Hh & _ & Et). cbv zeta in Et.
  assert (Hm : hasMulti m = true) by (unfold hasMulti; destruct (mBodies m) as [|? [|? ?]]; cbn in H2; [lia|lia|reflexivity]). rewrite Hm in Hh. destruct Hh as (s1 & s2 & Hh). set (n0 := statedLength (mHdrs m)) in *.
  assert (W0 : wfHdrs OMsg e (withLength n0 (mHdrs m))) by (apply wf_withLength; [exact Wh|now apply stated_lt]).
  assert (Ty : noType (withLength n0 (mHdrs m)) \/ exists ma st ty ps, nth 10 (hsCommon (withLength n0 (mHdrs m))) [] = [VType ma st ty ps] /\ sameNoCase ma (s2b "multipart")) by (unfold noType; rewrite withLength_type; exact Hty).
  destruct (boundary_exact e _ _ _ _ _ W0 Hk Hh) as [Eh Eb]. destruct (boundary_ok e _ _ _ _ _ W0 Hk Ty Hh) as [Wm' Tm']. rewrite boundaryOf_length in Eb. fold b in Eb. subst b'.
  assert (BT : forall f bs, (2 <= List.length bs)%nat -> bodyText f b bs = encMultipart f b bs) by (intros f bs; unfold bodyText; destruct bs as [|? [|? ?]]; cbn; [lia|lia|reflexivity]).
  rewrite (BT e _ H2) in Et. fold body in Et. specialize (Et ltac:(destruct (mBodies m); [cbn in H2; lia|discriminate]) Hlt Hd). cbn [app] in Et.
  assert (Em : mimeText m (mHdrs m') = mimeText m (withLength (len body) (mHdrs m'))) by (unfold mimeText; destruct (hasMulti m); [|reflexivity]; unfold getHeaderByIndex; now rewrite !mime_notslot). rewrite Em in Et.
  assert (Eh2 : withLength (len body) (mHdrs m') = withLength (len body) (withBoundary (mHdrs m))) by (rewrite Eh; apply withLength_boundary). rewrite <- Eh2. set (h := withLength (len body) (mHdrs m')) in *.
  set (bs := map (fun x => partAsWritten e (partWithLength x)) (mBodies m)).
  assert (Eb : encMultipart (withMem n e) b bs = body).
  { rewrite encMultipart_mem. unfold body. rewrite <- (encMultipart_fix e b (mBodies m)), <- (encMultipart_fix e b bs). symmetry. apply multipart_rel. unfold bs. rewrite map_map.
    assert (A : forall x, In x (mBodies m) -> len (bData x) < two32) by (intros x Hx; pose proof (data_le e b x _ Hx); fold body in H; lia). clear - A. induction (mBodies m) as [|x xs IH]; cbn [map]; constructor; [apply part_rel, A; now left|apply IH; intros; apply A; now right]. }
  assert (Lb : (2 <= List.length bs)%nat) by (unfold bs; rewrite map_length; exact H2).
  destruct (enc_again (withMem n e) (mkmsg (mStart m) (hdrsAsWritten e (withMime h)) bs) (len body) b s3) as [y' E'].
  - cbn [mHdrs]. rewrite len_aw. unfold withMime. cbn [hsCommon]. unfold h. rewrite len_wl. exact L19.
  - cbn [mHdrs]. rewrite nth_aw. unfold withMime. cbn [hsCommon]. unfold h, withLength. cbn [hsCommon]. rewrite setNth_nth by lia. reflexivity.
  - exact Hlt.
  - intros _. cbn [mHdrs]. split.
    + destruct Tm' as (ma & st & ty & ps & p & v & T1 & T2). exists ma, st, ty, ps, p, v. split; [|exact T2]. apply aw_type. unfold withMime. cbn [hsCommon]. unfold h. now rewrite withLength_type.
    + unfold hdrsAsWritten, withMime. cbn [hsRaw]. rewrite existsb_app. destruct (existsb _ (hsRaw h)); reflexivity.
  - intros _. cbn [mBodies]. rewrite (BT _ _ Lb), Eb. reflexivity.
  - exists y'. rewrite E'. f_equal. f_equal. cbn [mStart mHdrs mBodies]. rewrite (BT _ _ Lb), Eb, encStartLine_mem, encHdrs_mem. rewrite <- (hdrs_rel _ _ _ _ (aw_rel OMsg e _)). rewrite Et. rewrite <- (mime_text e m h Hm). rewrite <- !app_assoc. reflexivity.
Qed.
