(** A message that was read satisfies the round-trip predicates, once the recognised parameter names are in the table's spelling. *)
From Verif Require Import Base Charset CharsetSpec CharsetProofs BaseLemmas Num NumSpec NumProofs Lws LwsSpec LwsProofs Str StrSpec StrProofs Monad Good Rt Seq GoodAuto Inv
  IndexTree IndexProofs MethodTree HeaderTree Lookup NameSpec NameProofs Room Host HostSpec HostProofs Uri UriSpec UriGood UriProofs UriSound Tel TelSpec TelProofs TelSound GenParam GenParamSpec GenParamProofs Addr AddrSpec AddrProofs
  StartLine StartLineSpec StartLineProofs Headers HeadersSpec HeadersProofs RawHeaders RawSpec RawProofs Msg MsgSpec MsgProofs MsgRt MsgEnc MsgWhole MsgSound P12_Messages ParsedSpec ParsedWf P20_Stable.

(** ** Names and values of raw headers *)
Lemma tokenCR_clean p : forallb tokenOrCR p = true -> ~ In 13 p -> forallb IsSipToken p = true.
Proof.
  induction p as [|x p IH]; [reflexivity|]. cbn. intros Hp H. apply andb_prop in Hp as [Hx Hp]. rewrite IH; [|exact Hp|tauto]. rewrite andb_true_r.
  unfold tokenOrCR in Hx. apply orb_prop in Hx as [Hx|Hx]; [exact Hx|]. apply N.eqb_eq in Hx. exfalso. apply H. left. now symmetry.
Qed.
Definition nameOut (n : option bytes) (i : N) : Prop := match n with Some x => i = SIP_HDR_UNKNOWN /\ (~ In 13 x -> wfToken x /\ unknownName x) | None => i <> SIP_HDR_UNKNOWN end.
Lemma name_out e s n i s' : parseHeaderName e s = Ok (n, i) s' -> nameOut n i.
Proof.
  unfold parseHeaderName, onRest. destruct (GetSipHeaderIndex (rest s)) as [[j mid]|] eqn:E; [|discriminate]. pose proof (header_skips _ _ _ E) as (p & Ep & Hp).
  destruct (N.eqb_spec j SIP_HDR_UNKNOWN) as [->|Hj]; unfold bind at 1.
  - unfold bind at 1. destruct (paCStringFromPos mid SIP_TOKEN e s) as [tok s1|s1| |] eqn:E1; try discriminate. cbn [ret]. unfold bind. destruct (pHcolon e s1) as [x s2|s2| |] eqn:E2; try discriminate.
    intros [= <- <- <-]. split; [reflexivity|]. intros H13. apply fromPos_ok in E1 as (pre & q & Er & Em & -> & Hne & Hq & Hst); [|exists p; exact Ep]. assert (pre = p) by (rewrite Er in Ep; now apply app_inv_tail in Ep). subst pre.
    apply Hcolon_inv in E2 as (w & t & Ew & Hw & Es & _).
    assert (Tk : forallb IsSipToken (p ++ q) = true).
    { apply tokenCR_clean; [|exact H13]. rewrite forallb_app, Hp. cbn [andb]. revert Hq. clear. induction q as [|x q IH]; cbn; [reflexivity|]. intros H. apply andb_prop in H as [H1 H2]. rewrite IH by exact H2. unfold tokenOrCR, IsSipToken. rewrite H1. reflexivity. }
    split; [split; [exact Hne|now rewrite <- tokens_Is]|].
    intros name k Ik Sk. rewrite Er, Em, app_assoc in E. rewrite (header_complete name k (p ++ q) (rest s1) Ik Sk) in E; [|rewrite Ew; apply (colon_ends w t Hw)]. injection E as E _. exact (recognised_nz _ _ Ik E).
  - rewrite goto_bind. cbn [ret]. unfold bind. destruct (pHcolon e (mkst mid (used s))) as [x s2|s2| |]; try discriminate. intros [= <- <- <-]. exact Hj.
Qed.
Lemma cut_folded line v : folded line -> cutCR line v -> folded v.
Proof.
  intros Fl [[-> _]|[-> _]]; [|exact Fl]. intros a b E. destruct (Fl a (b ++ [13])) as (x & q & E2 & Hx); [rewrite E, <- app_assoc; reflexivity|].
  destruct b as [|y b]; cbn [app] in E2; injection E2 as E2 E3; subst x; [destruct Hx; discriminate|]. exists y, b. auto.
Qed.

(** ** Header blocks *)
Definition slotOut (o : owner) (e : env) (iv : N * list hval) : Prop :=
  snd iv = [] \/ exists k several, needParse o e (fst iv) = Some (k, several) /\ Forall (fun v => exists s s', parseHVal k e s = Ok v s') (snd iv) /\ (several = false -> List.length (snd iv) = 1%nat).
Definition rawOut (o : owner) (e : env) (x : raw) : Prop := needParse o e (rId x) = None /\ nameOut (rName x) (rId x) /\ folded (rValue x).
Definition hdrsOut (o : owner) (e : env) (h : hset) : Prop :=
  List.length (hsCommon h) = List.length (slotIndexes o) /\ Forall (slotOut o e) (combine (slotIndexes o) (hsCommon h)) /\ Forall (rawOut o e) (hsRaw h).
Lemma need_slot o e i k m : needParse o e i = Some (k, m) -> nth_error (slotIndexes o) (slotOf o i) = Some i.
Proof.
  assert (T : forall o i, slotOf o i <> O -> nth_error (slotIndexes o) (slotOf o i) = Some i).
  { clear. intros o i H. pose proof (slotOf_in o i H) as Hi. destruct o; cbn [slotTable In] in Hi; repeat (destruct Hi as [Hi|Hi]; [injection Hi as <- E; rewrite <- E; reflexivity|]); contradiction. }
  unfold needParse. destruct (fHeaderAsRaw e).
  - destruct (contentHdr i) eqn:E; [|discriminate]. unfold contentHdr in E. intros _. apply orb_prop in E as [E|E]; [apply orb_prop in E as [E|E]|]; apply N.eqb_eq in E; subst i; destruct o; reflexivity.
  - destruct (Nat.eqb_spec (slotOf o i) 0) as [|N0]; [discriminate|]. intros _. now apply T.
Qed.
Lemma combine_at {A B} (l : list A) : forall (m : list B) j i d, nth_error l j = Some i -> (j < List.length m)%nat -> In (i, nth j m d) (combine l m).
Proof. induction l as [|a l IH]; intros m [|j] i d E L; try discriminate; destruct m as [|b m]; cbn in L; try lia; cbn in *; [injection E as ->; now left|right; apply IH; [exact E|lia]]. Qed.
Lemma set_out o e i k multi h v s s' : hdrsOut o e h -> needParse o e i = Some (k, multi) -> parseHVal k e s = Ok v s' -> hdrsOut o e (setCommon o i multi h v).
Proof.
  intros (L & F & R) Np Ev. split; [unfold setCommon; cbn [hsCommon]; now rewrite setNth_len|]. split; [|exact R]. unfold setCommon. cbn [hsCommon]. apply Forall_combine_set; [exact F|].
  pose proof (need_slot _ _ _ _ _ Np) as Hn. intros i' Hi. rewrite Hn in Hi. injection Hi as <-. right. exists k, multi. cbn [fst snd]. split; [exact Np|]. destruct multi; [|split; [constructor; eauto|reflexivity]]. split; [|discriminate].
  apply Forall_app. split; [|constructor; eauto]. rewrite Forall_forall in F. assert (Lj : (slotOf o i < List.length (hsCommon h))%nat) by (rewrite L; apply slot_bound).
  destruct (F _ (combine_at _ _ _ _ [] Hn Lj)) as [E|(k' & m' & Np' & Fv & _)]; cbn [fst snd] in *; [rewrite E; constructor|]. rewrite Np in Np'. injection Np' as <- <-. exact Fv.
Qed.
Lemma sipX_val k e s v s' : parseSipX k e s = Ok v s' -> exists s1, parseHVal k e s1 = Ok v s'.
Proof. unfold parseSipX. intros E. apply bind_inv in E as (u0 & s1 & _ & E). eauto. Qed.
Lemma one_out o e h n i s h' s' : hdrsOut o e h -> nameOut n i -> oneHeader o h n i e s = Ok h' s' -> hdrsOut o e h'.
Proof.
  intros H Hn. unfold oneHeader, withEnv. destruct (needParse o e i) as [[k multi]|] eqn:Np.
  - intros E. apply bind_inv in E as (v & s1 & Ev & E). apply sipX_val in Ev as (s0 & Ev). destruct multi.
    + apply (loopP_rule (multiBody k (setCommon o i true)) e (fun st _ => hdrsOut o e (fst st) /\ exists s3 s4, parseHVal k e s3 = Ok (snd st) s4) (fun b _ => hdrsOut o e b) (multi_progresses _ _)) with (3 := E).
      2:{ split; [exact H|]. exists s0, s1. exact Ev. }
      intros [a v1] s2 x s3 (Ha & (s4 & s5 & Hv)) Eb. cbn [fst snd] in *. pose proof (set_out o e i k true a v1 s4 s5 Ha Np Hv) as Ha'. unfold multiBody, onRest in Eb. cbn [fst snd] in Eb.
      destruct (rest s2) as [|y r1]; [injection Eb as <- _; exact Ha'|]. cbv zeta in Eb. destruct (IsOnlyCRLF (y :: r1)); [rewrite goto_bind in Eb; injection Eb as <- _; exact Ha'|].
      assert (C : (pCRLF ;;; ret (@inr (hset * hval) hset (setCommon o i true a v1))) e s2 = Ok x s3 -> match x with inl _ => False | inr b => hdrsOut o e b end).
      { intros Ec. apply bind_inv in Ec as (u0 & s6 & _ & Ed). injection Ed as <- _. exact Ha'. }
      destruct (ParseSWSMarkCanOmmit 44 (y :: r1)) as [[r' []] []]; try (specialize (C Eb); destruct x; tauto).
      rewrite goto_bind in Eb. apply bind_inv in Eb as (w & s6 & Ew & Eb). injection Eb as <- _. cbn [fst snd]. split; [exact Ha'|]. apply sipX_val in Ew as (s7 & Ew). eauto.
    + apply bind_inv in E as (u0 & s2 & _ & E). injection E as <- _. exact (set_out o e i k false h v _ _ H Np Ev).
  - intros E. apply bind_inv in E as (r & s1 & Er & E). injection E as <- _. apply rawHeader_ok in Er as (E1 & E2 & line & (_ & Fl & _) & Ev). destruct H as (L & F & R). split; [exact L|]. split; [exact F|]. unfold addRaw. cbn [hsRaw]. apply Forall_app. split; [exact R|].
    constructor; [|constructor]. split; [now rewrite E2|]. split; [now rewrite E1, E2|]. eapply cut_folded; eauto.
Qed.
Lemma empty_out o e : hdrsOut o e (emptyHdrs o).
Proof.
  split; [apply repeat_length|]. split; [|constructor]. rewrite Forall_forall. intros [i vs] Hi. apply in_combine_r in Hi. unfold emptyHdrs in Hi. cbn [hsCommon] in Hi. apply repeat_spec in Hi. left. exact Hi.
Qed.
Lemma headers_out o e s h s' : parseHeaders o e s = Ok h s' -> hdrsOut o e h.
Proof.
  unfold parseHeaders. intros E. apply (loopP_rule (headersBody (oneHeader o)) e (fun h _ => hdrsOut o e h) (fun h _ => hdrsOut o e h) (one_progresses o)) with (3 := E); [|apply empty_out].
  intros a s1 x s2 Ha Eb. unfold headersBody, onRest in Eb. destruct (rest s1) as [|y r1]; [injection Eb as <- _; exact Ha|]. destruct (IsCRLF (y :: r1)); [rewrite goto_bind in Eb; injection Eb as <- _; exact Ha|].
  apply bind_inv in Eb as ((n & i) & s3 & En & Eb). apply bind_inv in Eb as (a' & s4 & Eo & Eb). injection Eb as <- _. apply name_out in En. cbn [fst snd] in Eo. eapply one_out; eauto.
Qed.

(** ** The library's own spelling *)
Definition canonAt (i : N) (v : hval) : hval := match hiKind (slotInfo i) with Some k => canonHVal k v | None => v end.
Definition mapHdrs (g : N -> hval -> hval) (o : owner) (h : hset) : hset := mkhset (map (fun iv => map (g (fst iv)) (snd iv)) (combine (slotIndexes o) (hsCommon h))) (hsRaw h).
Definition canonHdrs (o : owner) (h : hset) : hset := mapHdrs canonAt o h.
Definition canonBody (b : body) : body := mkbody (canonHdrs OBody (bHdrs b)) (bData b).
Definition canonMsg (m : msg) : msg := mkmsg (canonLine (mStart m)) (canonHdrs OMsg (mHdrs m)) (map canonBody (mBodies m)).
Lemma need_kind o e i k m : needParse o e i = Some (k, m) -> hiKind (slotInfo i) = Some k.
Proof. unfold needParse, slotInfo. destruct (if fHeaderAsRaw e then _ else _); [|discriminate]. destruct (infoOf i) as [x|]; [|discriminate]. destruct (hiKind x) as [k'|] eqn:Ek; [|discriminate]. intros [= <- _]. reflexivity. Qed.
Lemma combine_map {A B C} (f : A * B -> C) (l : list A) : forall m, combine l (map f (combine l m)) = map (fun ab => (fst ab, f ab)) (combine l m).
Proof. induction l as [|a l IH]; intros [|b m]; cbn; try reflexivity. now rewrite IH. Qed.
Lemma canonHdrs_wf o e h : netGood e -> hdrsOut o e h -> plainHdrs o e h -> wfHdrs o e (canonHdrs o h).
Proof.
  intros NG (L & F & R) (P0 & Ps & Pr). unfold canonHdrs, mapHdrs. split; [cbn [hsCommon]; rewrite map_length, combine_length; lia|]. split; [|split].
  - cbn [hsCommon]. destruct (hsCommon h) as [|v0 cs]; [destruct (slotIndexes o); reflexivity|]. cbn in P0. subst v0. destruct o; reflexivity.
  - cbn [hsCommon]. rewrite combine_map. rewrite Forall_map. rewrite Forall_forall in *. intros [i vs] Hi. specialize (F _ Hi). cbn [fst snd] in *. destruct F as [F|(k & m & Np & Fv & Hm)]; cbn [fst snd] in *; [left; cbn [fst snd]; rewrite F; reflexivity|].
    right. exists k, m. cbn [fst snd]. apply readAs_need in Np as Rd. split; [exact Rd|]. split; [|rewrite map_length; exact Hm]. rewrite Forall_map. specialize (Ps _ _ _ _ Hi (proj1 Rd)). rewrite Forall_forall in *. intros v Hv. destruct (Fv _ Hv) as (s & s' & Ev). destruct (Ps _ Hv) as [P1 P2].
    unfold canonAt. rewrite (need_kind _ _ _ _ _ Np). split; [exact (proj1 (hval_out _ _ _ _ _ NG Ev P1))|exact (canon_delimited _ _ _ _ _ NG Ev P2)].
  - cbn [hsRaw]. rewrite Forall_forall in *. intros x Hx. destruct (R _ Hx) as (R1 & R2 & R3). destruct (Pr _ Hx) as (Q1 & Q2 & Q3 & Q4). split; [|now apply not_read]. split; [split; [exact Q1|split; [exact R3|auto]]|].
    unfold nameOut in R2. destruct (rName x) as [n|]; [|exact Q4]. destruct R2 as [R2 R4]. split; [exact R2|]. exact (R4 Q4).
Qed.
Lemma canonHdrs_same o e h : netGood e -> hdrsOut o e h -> plainHdrs o e h -> sameHdrs (hdrsAsWritten e h) (hdrsAsWritten e (canonHdrs o h)).
Proof.
  intros NG (L & F & R) (P0 & Ps & Pr). split; [|reflexivity]. unfold hdrsAsWritten, canonHdrs, mapHdrs. cbn [hsCommon]. revert F Ps L. generalize (slotIndexes o) as l. generalize (hsCommon h) as cs. clear P0. intros cs l. revert cs.
  induction l as [|i l IH]; intros [|vs cs] F Ps L; try discriminate; [constructor|]. cbn [combine map fst snd]. inversion F as [|iv0 l0 F1 F2]; subst. constructor; [|apply IH; [exact F2|intros j k m ws Hj; apply (Ps j k m ws); now right|cbn in L; lia]].
  destruct F1 as [F1|(k & m & Np & Fv & _)]; cbn [fst snd] in *; [rewrite F1; constructor|]. apply readAs_need in Np as Rd. specialize (Ps _ _ _ _ (or_introl eq_refl) (proj1 Rd)). pose proof (need_kind _ _ _ _ _ Np) as Hk.
  clear - NG Fv Ps Hk. induction vs as [|v vs IH]; [constructor|]. inversion Fv as [|v0 l0 (s & s' & Ev) Fv']; subst. inversion Ps as [|v0 l0 [P1 P2] Ps']; subst. cbn [map]. constructor; [|now apply IH]. unfold canonAt. rewrite Hk. apply asWritten_same. exact (proj2 (hval_out _ _ _ _ _ NG Ev P1)).
Qed.
