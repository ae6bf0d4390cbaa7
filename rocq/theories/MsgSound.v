(** What an accepted message looks like. *)
From Verif Require Import Base Charset CharsetSpec CharsetProofs BaseLemmas Num NumSpec NumProofs Lws LwsSpec LwsProofs Str StrSpec StrProofs Monad Good Rt Seq GoodAuto Inv
  IndexTree IndexProofs MethodTree HeaderTree Lookup NameSpec NameProofs Room Host HostSpec HostProofs Uri UriSpec UriGood UriProofs Tel TelSpec TelProofs GenParam GenParamSpec GenParamProofs Addr AddrSpec AddrProofs
  StartLine StartLineSpec StartLineProofs Headers HeadersSpec HeadersProofs RawHeaders RawSpec RawProofs Msg MsgSpec MsgProofs MsgRt MsgEnc.

Lemma loopP_rule {A B} (body : A -> P (A + B)) e (Q : A -> st -> Prop) (R : B -> st -> Prop) : progresses body ->
  (forall a s x s', Q a s -> body a e s = Ok x s' -> match x with inl a' => Q a' s' | inr b => R b s' end) ->
  forall a s b s', Q a s -> loopP body a e s = Ok b s' -> R b s'.
Proof.
  intros Pr Hb a s. remember (List.length (rest s)) as n eqn:En. revert a s En. induction n as [n IH] using lt_wf_ind. intros a s -> b s' HQ E. rewrite loopP_unfold in E by exact Pr.
  destruct (body a e s) as [[a'|b'] s1|s1| |] eqn:Eb; try discriminate.
  - apply (IH (List.length (rest s1)) (Pr _ _ _ _ _ Eb) a' s1 eq_refl); [exact (Hb _ _ _ _ HQ Eb)|exact E].
  - injection E as <- <-. exact (Hb _ _ _ _ HQ Eb).
Qed.
(** Content-Type and Content-Length entries hold values of these types. *)
Definition entryOk (j : nat) (vs : list hval) : Prop :=
  vs = [] \/ (exists v, vs = [v] /\ (j = 7%nat -> exists n, v = VNum n /\ n < two32) /\ (j = 10%nat -> exists m s t ps, v = VType m s t ps)) \/ (j <> 7%nat /\ j <> 10%nat).
Definition entriesOk (h : hset) : Prop := List.length (hsCommon h) = 19%nat /\ forall j, entryOk j (nth j (hsCommon h) []).
Lemma slotOf_in o i : slotOf o i <> O -> In (i, slotOf o i) (slotTable o).
Proof.
  unfold slotOf. induction (slotTable o) as [|[j n] l IH]; cbn [lookupSlot]; [congruence|]. destruct (N.eqb_spec i j) as [->|]; intros H; [left; reflexivity|right; auto].
Qed.
Lemma slot_msg i j : slotOf OMsg i = j -> (j = 7%nat -> i = SIP_HDR_CONTENT_LENGTH) /\ (j = 10%nat -> i = SIP_HDR_CONTENT_TYPE).
Proof.
  intros <-. split; intros H; pose proof (slotOf_in OMsg i ltac:(rewrite H; discriminate)) as Hi; rewrite H in Hi; cbn [slotTable In] in Hi;
    repeat (destruct Hi as [Hi|Hi]; [first [discriminate Hi|injection Hi as <-; reflexivity]|]); contradiction.
Qed.
Lemma num_shape w e s v s' : 0 < w -> parseNum w e s = Ok v s' -> exists n, v = VNum n /\ n < w.
Proof.
  intros Hw E. unfold parseNum in E. apply bind_inv in E as (n & s1 & E1 & E). injection E as <- _. exists n. split; [reflexivity|]. unfold pUIntW in E1. apply bind_inv in E1 as (x & s2 & _ & E1).
  unfold ret in E1. injection E1 as <- _. apply N.mod_lt. lia.
Qed.
Lemma val_shape k e s v s' : parseSipX k e s = Ok v s' -> (k = KContentLength -> exists n, v = VNum n /\ n < two32) /\ (k = KContentType -> exists m st t ps, v = VType m st t ps).
Proof.
  unfold parseSipX. intros E. apply bind_inv in E as (? & s1 & _ & E). split; intros ->; cbn [parseHVal] in E.
  - eapply num_shape; [reflexivity|exact E].
  - unfold parseContentType in E. apply bind_inv in E as (m & ? & _ & E). apply bind_inv in E as (? & ? & _ & E). apply bind_inv in E as (st & ? & _ & E). apply bind_inv in E as (tp & ? & _ & E). unfold ret in E. injection E as <- _. eauto.
Qed.
(** The position after a header line: the end of the input, or after a line feed. *)
Definition lineEnd (r0 r : bytes) : Prop := r = [] \/ exists p, r0 = p ++ 10 :: r.
Lemma lineEnd_suffix r0 r1 r : suffix r1 r0 -> lineEnd r1 r -> lineEnd r0 r.
Proof. intros [q ->] [->|(p & ->)]; [left; reflexivity|right]. exists (q ++ p). now rewrite <- app_assoc. Qed.
Lemma CRLF_end e s a s' : pCRLF e s = Ok a s' -> lineEnd (rest s) (rest s').
Proof.
  unfold pCRLF, liftB, ParseCRLF. destruct (rest s) as [|x [|y r]]; try discriminate. destruct (_ && _)%bool eqn:E; [|discriminate]. intros [= _ <-]. apply andb_prop in E as [_ E]. apply N.eqb_eq in E. subst. right. exists [x]. reflexivity.
Qed.
Lemma raw_end n i e s h s' : rawHeader n i e s = Ok h s' -> lineEnd (rest s) (rest s').
Proof.
  unfold rawHeader. intros E. apply bind_inv in E as (? & s1 & E1 & E). apply alloc_inv in E1 as [E1 _]. rewrite <- E1. apply bind_inv in E as (v & s2 & E2 & E). unfold ret in E. injection E as _ <-. unfold rawValue, onRest in E2.
  destruct (FindCrlf (rest s1)) as [[t r']|] eqn:F; [|rewrite goto_bind in E2; discriminate]. rewrite goto_bind in E2. unfold allocCString in E2. destruct (leMem _ _); [|discriminate]. injection E2 as _ <-. cbn [rest].
  apply FindCrlf_spec in F as (line & (-> & _) & _). right. exists line. reflexivity.
Qed.
Lemma entries_set i k multi e s v s' h : entriesOk h -> needParse OMsg e i = Some (k, multi) -> parseSipX k e s = Ok v s' -> entriesOk (setCommon OMsg i multi h v).
Proof.
  intros [L H] Np Ev. apply val_shape in Ev as [V1 V2]. unfold setCommon, entriesOk. cbn [hsCommon]. rewrite setNth_len. split; [exact L|]. intros j. destruct (Nat.eq_dec (slotOf OMsg i) j) as [Ej|Ej].
  - destruct (slot_msg i j Ej) as [S7 S10]. assert (Lj : (j < List.length (hsCommon h))%nat) by (rewrite L; subst j; apply (slot_bound OMsg i)). rewrite Ej, setNth_nth by exact Lj.
    destruct (Nat.eq_dec j 7) as [E7|N7]; [|destruct (Nat.eq_dec j 10) as [E10|N10]; [|right; right; auto]].
    + rewrite (S7 E7) in Np. assert (Nq : needParse OMsg e SIP_HDR_CONTENT_LENGTH = Some (KContentLength, false)) by (unfold needParse; destruct (fHeaderAsRaw e); reflexivity). rewrite Nq in Np. injection Np as <- <-. cbv iota. right. left. exists v. split; [reflexivity|]. split; [auto|lia].
    + rewrite (S10 E10) in Np. assert (Nq : needParse OMsg e SIP_HDR_CONTENT_TYPE = Some (KContentType, false)) by (unfold needParse; destruct (fHeaderAsRaw e); reflexivity). rewrite Nq in Np. injection Np as <- <-. cbv iota. right. left. exists v. split; [reflexivity|]. split; [lia|auto].
  - rewrite setNth_nth_ne by exact Ej. apply H.
Qed.
Lemma one_sound e h n i s h' s' : entriesOk h -> oneHeader OMsg h n i e s = Ok h' s' -> entriesOk h' /\ lineEnd (rest s) (rest s').
Proof.
  intros H. unfold oneHeader, withEnv. destruct (needParse OMsg e i) as [[k multi]|] eqn:Np.
  - intros E. apply bind_inv in E as (v & s1 & Ev & E). pose proof (RawProofs.good_suffix 26 204 _ _ _ _ _ (gd_sipX 26 k e s ltac:(lia)) Ev) as Su. destruct multi.
    + assert (Q : entriesOk h' /\ lineEnd (rest s1) (rest s')).
      { apply (loopP_rule (multiBody k (setCommon OMsg i true)) e (fun st s2 => entriesOk (fst st) /\ (exists s3 s4, parseSipX k e s3 = Ok (snd st) s4) /\ suffix (rest s2) (rest s1)) (fun b s2 => entriesOk b /\ lineEnd (rest s1) (rest s2)) (multi_progresses _ _)) with (3 := E).
        2:{ split; [exact H|]. split; [exists s, s1; exact Ev|apply suffix_refl]. }
        intros [a v1] s2 x s3 (Ha & (s4 & s5 & Hv) & Hs) Eb. cbn [fst snd] in *. pose proof (entries_set i k true e s4 v1 s5 a Ha Np Hv) as Ha'. unfold multiBody, onRest in Eb. cbn [fst snd] in Eb.
        destruct (rest s2) as [|y r1] eqn:R2; [injection Eb as <- <-; split; [exact Ha'|left; exact R2]|]. cbv zeta in Eb. destruct (IsOnlyCRLF (y :: r1)) eqn:Ei.
        - apply IsOnlyCRLF_len in Ei as (t & Ei). injection Ei as -> ->. rewrite goto_bind in Eb. injection Eb as <- <-. split; [exact Ha'|]. cbn [rest tl]. apply (lineEnd_suffix _ _ _ Hs). right. exists [13]. reflexivity.
        - assert (C : (pCRLF ;;; ret (@inr (hset * hval) hset (setCommon OMsg i true a v1))) e s2 = Ok x s3 -> match x with inl _ => False | inr b => entriesOk b /\ lineEnd (rest s1) (rest s3) end).
          { intros Ec. apply bind_inv in Ec as (? & s6 & Ec & Ed). unfold ret in Ed. injection Ed as <- <-. split; [exact Ha'|]. apply CRLF_end in Ec. rewrite R2 in Ec. exact (lineEnd_suffix _ _ _ Hs Ec). }
          pose proof (ParseSWSMarkCanOmmit_suffix 44 (y :: r1)) as Sm. destruct (ParseSWSMarkCanOmmit 44 (y :: r1)) as [[r' []] []]; cbn [fst] in Sm; try (specialize (C Eb); destruct x; tauto).
          rewrite goto_bind in Eb. apply bind_inv in Eb as (w & s6 & Ew & Eb). unfold ret in Eb. injection Eb as <- <-. cbn [fst snd]. split; [exact Ha'|]. split; [eauto|]. pose proof (RawProofs.good_suffix 26 204 _ _ _ _ _ (gd_sipX 26 k e _ ltac:(lia)) Ew) as Sw. cbn [rest] in Sw.
          exact (suffix_trans _ _ _ Sw (suffix_trans _ _ _ Sm Hs)). }
      destruct Q as [Q1 Q2]. split; [exact Q1|exact (lineEnd_suffix _ _ _ Su Q2)].
    + apply bind_inv in E as (? & s2 & Ec & E). unfold ret in E. injection E as <- <-. split; [exact (entries_set i k false e s v s1 h H Np Ev)|]. exact (lineEnd_suffix _ _ _ Su (CRLF_end _ _ _ _ Ec)).
  - intros E. apply bind_inv in E as (r & s1 & Er & E). unfold ret in E. injection E as <- <-. split; [exact H|]. exact (raw_end _ _ _ _ _ _ Er).
Qed.
(** Where the headers end: at the end of the input, or after an empty line. *)
Definition blockEnd (r0 r : bytes) : Prop := r = [] \/ exists p, r0 = p ++ 13 :: 10 :: r /\ (p = [] \/ exists q, p = q ++ [10]).
Lemma headers_sound e s h s' : parseHeaders OMsg e s = Ok h s' -> entriesOk h /\ blockEnd (rest s) (rest s').
Proof.
  unfold parseHeaders. intros E. apply (loopP_rule (headersBody (oneHeader OMsg)) e (fun h s1 => entriesOk h /\ (rest s1 = [] \/ exists p, rest s = p ++ rest s1 /\ (p = [] \/ exists q, p = q ++ [10]))) (fun h s1 => entriesOk h /\ blockEnd (rest s) (rest s1)) (one_progresses OMsg)) with (3 := E).
  - intros a s1 x s2 [Ha Hp] Eb. unfold headersBody, onRest in Eb. destruct (rest s1) as [|y r1] eqn:R; [injection Eb as <- <-; split; [exact Ha|left; exact R]|]. destruct Hp as [Hp|(p & Hp & Hq)]; [discriminate|].
    destruct (IsCRLF (y :: r1)) eqn:Ec.
    + apply IsCRLF_spec in Ec as (t & Ec). injection Ec as -> ->. rewrite goto_bind in Eb. injection Eb as <- <-. split; [exact Ha|]. right. exists p. cbn [rest tl]. split; [exact Hp|exact Hq].
    + apply bind_inv in Eb as (ni & s3 & En & Eb). apply bind_inv in Eb as (a' & s4 & Eo & Eb). unfold ret in Eb. injection Eb as <- <-. apply one_sound in Eo as [Ha' He]; [|exact Ha]. split; [exact Ha'|].
      pose proof (RawProofs.good_suffix 1 3 _ _ _ _ _ (gd_headerName 1 e s1 ltac:(lia)) En) as Sn. pose proof (lineEnd_suffix _ _ _ Sn He) as [Z|(q & Z)]; [left; exact Z|right]. rewrite R in Z. exists (p ++ q ++ [10]). split; [rewrite Hp, Z, <- !app_assoc; reflexivity|].
      right. exists (p ++ q). now rewrite app_assoc.
  - split; [|right; exists []; auto]. split; [reflexivity|]. intros j. left. unfold emptyHdrs. cbn [hsCommon]. apply nth_repeat.
Qed.
Lemma startLine_end e s l s' : parseStartLine e s = Ok l s' -> lineEnd (rest s) (rest s').
Proof.
  unfold parseStartLine, onRest. destruct (versionStart (rest s)) as [r4|] eqn:V.
  - rewrite goto_bind. unfold parseStatusLine. intros E. apply versionStart_inv in V as [Hne Su]. apply (lineEnd_suffix _ _ _ Su). 
    apply bind_inv in E as (v & s1 & E1 & E). apply bind_inv in E as (? & s2 & E2 & E). apply bind_inv in E as (c & s3 & E3 & E). apply bind_inv in E as (? & s4 & E4 & E). apply bind_inv in E as (t & s5 & E5 & E).
    apply bind_inv in E as (? & s6 & E6 & E). unfold ret in E. injection E as _ <-. assert (S5 : suffix (rest s5) r4).
    { assert (G : goodAt 25 85 (v <- parseVersionAfter ;; expect 32 ;;; (c <- pUIntW 65536 ;; expect 32 ;;; paEscapableEmpty SIP_REASON_PHRASE)) e (mkst r4 (used s))) by good.
      apply (RawProofs.good_suffix 25 85 _ _ _ t s5 G). unfold bind. now rewrite E1, E2, E3, E4. }
    exact (lineEnd_suffix _ _ _ S5 (CRLF_end _ _ _ _ E6)).
  - unfold parseRequestLine. intros E. apply bind_inv in E as (m & s1 & E1 & E). apply bind_inv in E as (? & s2 & E2 & E). apply bind_inv in E as (a & s3 & E3 & E). apply bind_inv in E as (? & s4 & E4 & E). apply bind_inv in E as (v & s5 & E5 & E).
    apply bind_inv in E as (? & s6 & E6 & E). unfold ret in E. injection E as _ <-. assert (S5 : suffix (rest s5) (rest s)).
    { assert (G : goodAt 25 85 (m <- parseMethod ;; expect 32 ;;; (a <- parseAddrSpec ;; expect 32 ;;; parseVersion)) e s) by good.
      apply (RawProofs.good_suffix 25 85 _ _ _ v s5 G). unfold bind. now rewrite E1, E2, E3, E4. }
    exact (lineEnd_suffix _ _ _ S5 (CRLF_end _ _ _ _ E6)).
Qed.
(** The message up to the body: it ends at an empty line or with the input. *)
Lemma msg_sound e s m s' : parseMsg e s = Ok m s' -> entriesOk (mHdrs m) /\ exists s1, parseMsgBody (mHdrs m) e s1 = Ok (mBodies m) s' /\
  (rest s1 = [] \/ exists q, rest s = q ++ [10] ++ CRLF ++ rest s1).
Proof.
  unfold parseMsg. intros E. apply bind_inv in E as (l & s1 & E1 & E). unfold onRest in E. destruct (rest s1) as [|x r] eqn:R; [discriminate|]. apply bind_inv in E as (h & s2 & E2 & E). apply bind_inv in E as (bs & s3 & E3 & E). unfold ret in E. injection E as <- <-. cbn [mHdrs mBodies].
  apply headers_sound in E2 as [He Hb]. split; [exact He|]. exists s2. split; [exact E3|]. destruct Hb as [Hb|(p & Hb & Hq)]; [left; exact Hb|right]. apply startLine_end in E1 as [E1|(q & E1)]; [congruence|]. rewrite E1, Hb. destruct Hq as [->|(q' & ->)].
  - exists q. reflexivity.
  - exists (q ++ 10 :: q'). now rewrite <- !app_assoc.
Qed.
Lemma entries_length h : entriesOk h -> lengthSlot h.
Proof. intros [L H]. split; [exact L|]. destruct (H 7%nat) as [E|[(v & E & V & _)|[N _]]]; [left; exact E|right|congruence]. destruct (V eq_refl) as (n & -> & Hn). eauto. Qed.
Lemma entries_type h : entriesOk h -> noType h \/ exists m s t ps, nth 10 (hsCommon h) [] = [VType m s t ps].
Proof. intros [L H]. destruct (H 10%nat) as [E|[(v & E & _ & V)|[_ N]]]; [left; exact E|right|congruence]. destruct (V eq_refl) as (m & s & t & ps & ->). eauto. Qed.
