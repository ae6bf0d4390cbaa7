(** SipMsg.Encode on the arena. *)
From Verif Require Import Base Charset BaseLemmas Num Lws Str Monad MethodTree HeaderTree Lookup NameSpec NameProofs Host Uri Tel GenParam Addr StartLine Headers RawHeaders Msg Arena ArenaProofs ArenaOpsProofs StrProofs ArenaTop Layout Mem MemSim MemTac MemUri MemRep MemList Inv MemHostProofs MemParamProofs MemUriProofs MemSipUriProofs MemEnc MemEncProofs MemTel MemTelProofs MemGen MemGenProofs MemAddr MemAddrProofs MemSteps MemStart MemStartProofs MemHdr MemHdrProofs MemBlocks MemMsg MemMsgProofs MemHeadersProofs MemBodyProofs MemLine MemMsgEnc MemMsgEncProofs MsgEnc MsgWhole Extension.

(** ** Messages whose Content-Length may have been created by Encode: then it is at [c] *)
Definition slot7 (this : N) : N := slotAt OMsg this 7.
Definition hdrsC (m : N -> N) (this lo hi : N) (c : option N) (h : hset) : Prop :=
  match c with
  | None => HInv OMsg m this lo hi h
  | Some c => g16 m (slot7 this) = c /\ List.length (hsCommon h) = 19%nat /\ (exists n, nth 7 (hsCommon h) [] = [VNum n] /\ g32 m c = n) /\
      HInv OMsg (p16 m (slot7 this) NILPTR) this lo hi (mkhset (setNth (hsCommon h) 7 []) (hsRaw h))
  end.
Definition repMsgC (m : N -> N) (this lo hi : N) (c : option N) (x : msg) : Prop :=
  exists q1 q2 prev, lo <= q1 /\ q1 <= q2 /\ zeros m (this + 58) 6 /\ repLine m this lo q1 (mStart x) /\ hdrsC m this q1 q2 c (mHdrs x) /\ bodiesInv m q2 hi (g16 m (this + 66)) prev (mBodies x).
(** The place of a created Content-Length: apart from the struct and from the data. *)
Definition placed (this lo hi u : N) (c : option N) : Prop :=
  match c with None => True | Some c => 8 <= c /\ c + 8 <= u /\ (c + 8 <= this \/ this + 68 <= c) /\ (c + 8 <= lo \/ hi <= c) end.
Definition own (this lo hi : N) (c : option N) (i : N) : Prop :=
  this <= i < this + 68 \/ lo <= i < hi \/ match c with Some c => c <= i < c + 8 | None => False end.
Lemma repMsg_C m this lo hi x : repMsg m this lo hi x -> repMsgC m this lo hi None x.
Proof. intros (q1 & q2 & prev & L1 & L2 & H0 & H1 & H2). exists q1, q2, prev. do 3 (split; [assumption|]). split; [now apply repStartLine_line|exact H2]. Qed.

Lemma p16_agree m m' p v i : m' i = m i -> p16 m' p v i = p16 m p v i.
Proof. intros H. unfold p16, upd. destruct (N.eqb i (p + 1)); [reflexivity|]. destruct (N.eqb i p); [reflexivity|exact H]. Qed.
Lemma slot7_off this : slot7 this = this + 34. Proof. unfold slot7, slotAt. cbn [slotsOff]. lia. Qed.
Lemma hdrsC_frame m m' this lo hi c h : agreeR m m' this (this + 68) -> agreeR m m' lo hi -> (forall d, c = Some d -> agreeR m m' d (d + 8)) -> hdrsC m this lo hi c h -> hdrsC m' this lo hi c h.
Proof.
  intros A1 A2 A3. assert (G : forall i, this <= i -> i + 2 <= this + 68 -> g16 m' i = g16 m i) by (intros i M1 M2; unfold g16; rewrite !A1 by lia; reflexivity).
  pose proof (slot7_off this) as E7. unfold hdrsC. destruct c as [c|].
  - intros (H1 & H2 & (n & H3 & H4) & H5). rewrite G by lia. split; [exact H1|]. split; [exact H2|]. split.
    + exists n. split; [exact H3|]. rewrite <- H4. apply (g32_agree m m' c 8); [apply A3; reflexivity|lia|lia].
    + assert (P : forall i, m' i = m i -> p16 m' (slot7 this) NILPTR i = p16 m (slot7 this) NILPTR i) by (intros i Ei; now apply p16_agree).
      eapply HInv_frame; [| | |exact H5].
      * intros i Hi. apply P, A2. lia.
      * intros s Hs. unfold slotAt. cbn [slotsOff slotsNum] in *. unfold g16. rewrite !P by (apply A1; lia). reflexivity.
      * cbn [rawOff]. unfold g16. rewrite !P by (apply A1; lia). reflexivity.
  - intros H. eapply HInv_frame; [exact A2| | |exact H].
    + intros s Hs. unfold slotAt. cbn [slotsOff slotsNum] in *. apply G; lia.
    + cbn [rawOff]. apply G; lia.
Qed.
Lemma repMsgC_frame m m' this lo hi c x : agreeR m m' this (this + 68) -> agreeR m m' lo hi -> (forall d, c = Some d -> agreeR m m' d (d + 8)) -> repMsgC m this lo hi c x -> repMsgC m' this lo hi c x.
Proof.
  intros A1 A2 A3 (q1 & q2 & prev & L1 & L2 & H0 & H1 & H2 & H3). pose proof (bodiesInv_le _ _ _ _ _ _ H3) as L3. exists q1, q2, prev. split; [exact L1|]. split; [exact L2|].
  split; [eapply zeros_frame; [eapply agreeR_sub; [exact A1|lia|lia]|exact H0]|].
  split; [eapply repLine_frame; [| |exact H1]; [eapply agreeR_sub; [exact A1|lia|lia]|eapply agreeR_sub; [exact A2|lia|lia]]|].
  split; [eapply hdrsC_frame; [exact A1|eapply agreeR_sub; [exact A2|lia|lia]|exact A3|exact H2]|].
  replace (g16 m' (this + 66)) with (g16 m (this + 66)) by (unfold g16; rewrite !A1 by lia; reflexivity). eapply bodiesInv_frame; [|exact H3]. eapply agreeR_sub; [exact A2|lia|lia].
Qed.
Lemma hdrsC_len m this lo hi c h : hdrsC m this lo hi c h -> List.length (hsCommon h) = 19%nat.
Proof. destruct c as [c|]; [intros (_ & H & _); exact H|apply HInv_len]. Qed.
Lemma hdrsC_agree m this lo hi : this + 68 <= lo -> agreeR (p16 m (slot7 this) NILPTR) m lo hi.
Proof. intros L i Hi. rewrite p16_other; [reflexivity|]. rewrite slot7_off. unfold inR. lia. Qed.
Lemma hdrsC_slot m this lo hi c h s k multi : this + 68 <= lo -> hdrsC m this lo hi c h -> (s < 19)%nat -> s <> 7%nat -> slotKind OMsg s = Some (k, multi) ->
  slotRep m lo hi k multi (g16 m (slotAt OMsg this s)) (nth s (hsCommon h) []).
Proof.
  intros Hl H Hs H7 Ek. destruct c as [c|]; [|now apply (HInv_slot OMsg)]. destruct H as (_ & _ & _ & H). pose proof (HInv_slot OMsg _ _ _ _ _ s k multi H Hs Ek) as R. cbn [hsCommon] in R. rewrite nth_setNth_other in R by congruence.
  rewrite g16_write in R by (rewrite slot7_off; unfold slotAt; cbn [slotsOff]; lia). eapply slotRep_frame; [apply hdrsC_agree; exact Hl| |exact R]. intros ->. eapply multi_next; eauto.
Qed.
Lemma hdrsC_raw m this lo hi c h : this + 68 <= lo -> hdrsC m this lo hi c h -> rawRep m lo hi (g16 m (this + 64)) (hsRaw h).
Proof.
  intros Hl H. destruct c as [c|]; [|exact (HInv_raw OMsg _ _ _ _ _ H)]. destruct H as (_ & _ & _ & H). pose proof (HInv_raw OMsg _ _ _ _ _ H) as R. cbn [hsRaw rawOff] in R.
  rewrite g16_write in R by (rewrite slot7_off; lia). eapply rawRep_frame; [apply hdrsC_agree; exact Hl|exact R].
Qed.
(** The Content-Length. *)
Lemma hdrsC_length m this lo hi c h : hdrsC m this lo hi c h ->
  (nth 7 (hsCommon h) [] = [] /\ c = None /\ g16 m (slot7 this) = NILPTR) \/
  (exists n, nth 7 (hsCommon h) [] = [VNum n] /\ g32 m (g16 m (slot7 this)) = n /\ (c = Some (g16 m (slot7 this)) \/ (c = None /\ lo <= g16 m (slot7 this) /\ g16 m (slot7 this) + 8 <= hi))).
Proof.
  destruct c as [c|].
  - intros (E & _ & (n & H1 & H2) & _). right. exists n. rewrite E. auto.
  - intros H. pose proof (HInv_slot OMsg _ _ _ _ _ 7%nat KContentLength false H ltac:(cbn; lia) ltac:(reflexivity)) as R. unfold slotRep in R. destruct R as [(E1 & E2)|(v & E1 & (q & L1 & L2 & L3 & HV))]; [left; auto|].
    destruct (cl_value _ _ _ _ _ _ eq_refl HV) as (n & -> & Hn). cbn [hvalSize] in *. right. exists n. split; [exact E1|]. split; [exact Hn|]. right. unfold slot7. split; [reflexivity|]. lia.
Qed.
(** The word encodeEnd is not part of the representation. *)
Lemma hdrsC_end m this lo hi c h v : this + 68 <= lo -> placed this lo hi (g16 m (slot7 this) + 8) c -> hdrsC m this lo hi c h -> nth 7 (hsCommon h) [] <> [] ->
  hdrsC (p32 m (g16 m (slot7 this) + 4) v) this lo hi c h.
Proof.
  intros Hl Hp H Hne. destruct (hdrsC_length _ _ _ _ _ _ H) as [(E & _)|(n & E1 & E2 & [Ec|(Ec & L1 & L2)])]; [congruence| |].
  - subst c. unfold placed in Hp. destruct H as (H1 & H2 & (n' & H3 & H4) & H5). set (cl := g16 m (slot7 this)) in *. pose proof (slot7_off this) as E7.
    split; [rewrite g16_p32 by lia; reflexivity|]. split; [exact H2|]. split; [exists n'; split; [exact H3|rewrite g32_p32_other by lia; exact H4]|].
    assert (P : forall i, ~ (cl + 4 <= i < cl + 8) -> p16 (p32 m (cl + 4) v) (slot7 this) NILPTR i = p16 m (slot7 this) NILPTR i).
    { intros i Hi. assert (Ei : p32 m (cl + 4) v i = m i) by (apply p32_other; unfold inR; lia). now apply p16_agree. }
    eapply HInv_frame; [| | |exact H5].
    + intros i Hi. apply P. lia.
    + intros s Hs. unfold slotAt. cbn [slotsOff slotsNum] in *. unfold g16. rewrite !P by lia. reflexivity.
    + cbn [rawOff]. unfold g16. rewrite !P by lia. reflexivity.
  - subst c. cbn [hdrsC] in *. assert (Eh : mkhset (setNth (hsCommon h) 7 [VNum n]) (hsRaw h) = h) by (rewrite <- E1, setNth_same; destruct h; reflexivity). rewrite <- Eh.
    unfold slot7 in *. eapply HInv_upd; [exact H|cbn; lia|reflexivity|exact E1| | | |].
    + intros i Hi Hr. apply p32_other. unfold inR in *. lia.
    + intros s' Hs'. apply g16_p32. unfold slotAt at 1 3. cbn [slotsOff slotsNum] in *. lia.
    + apply g16_p32. cbn [rawOff]. lia.
    + rewrite g32_p32_other by lia. exact E2.
Qed.
(** A message without Content-Length gets one. *)
Lemma hdrsC_create m this lo hi h d n : this + 68 <= lo -> hdrsC m this lo hi None h -> nth 7 (hsCommon h) [] = [] -> d < two16 -> g32 m d = n -> d + 4 <= slot7 this \/ slot7 this + 2 <= d ->
  hdrsC (p16 m (slot7 this) d) this lo hi (Some d) (mkhset (setNth (hsCommon h) 7 [VNum n]) (hsRaw h)).
Proof.
  intros Hl H E Hd Hn Hp. pose proof (hdrsC_len _ _ _ _ _ _ H) as HL. pose proof (hdrsC_length _ _ _ _ _ _ H) as [(_ & _ & E7)|(n' & E' & _)]; [|congruence]. cbn [hdrsC hsCommon hsRaw] in *.
  split; [apply g16_p16; exact Hd|]. split; [rewrite setNth_length; exact HL|]. split.
  - exists n. split; [apply nth_setNth; lia|]. rewrite <- Hn. unfold g32. rewrite !g16_write by lia. reflexivity.
  - assert (Es : setNth (setNth (hsCommon h) 7 [VNum n]) 7 [] = hsCommon h).
    { clear - E HL. destruct (hsCommon h) as [|x0 [|x1 [|x2 [|x3 [|x4 [|x5 [|x6 [|x7 l]]]]]]]]; try discriminate. cbn [nth] in E. subst x7. reflexivity. }
    rewrite Es. replace (mkhset (hsCommon h) (hsRaw h)) with h by (destruct h; reflexivity).
    assert (P : forall i, ~ inR (slot7 this) 2 i -> p16 (p16 m (slot7 this) d) (slot7 this) NILPTR i = m i) by (intros i Hi; rewrite !p16_other by exact Hi; reflexivity). pose proof (slot7_off this) as E8.
    eapply HInv_frame; [| | |exact H].
    + intros i Hi. apply P. unfold inR. lia.
    + intros s Hs. destruct (Nat.eq_dec s 7) as [->|N7].
      * fold (slot7 this). rewrite E7. apply g16_p16. reflexivity.
      * unfold slotAt. cbn [slotsOff slotsNum] in *. unfold g16. rewrite !P by (unfold inR; lia). reflexivity.
    + cbn [rawOff]. unfold g16. rewrite !P by (unfold inR; lia). reflexivity.
Qed.

(** ** The start of Encode *)
Lemma run_mem {X} (m : M X) e a b x : m e a [] = MOk x a [] -> eMemory m e a b = EOk x a b.
Proof. unfold eMemory. intros ->. reflexivity. Qed.
Lemma mget16 p e a r : get16 p e a r = MOk (g16 (mem a) p) a r. Proof. reflexivity. Qed.
Lemma mderef p e a r : p < cap a -> deref p e a r = MOk tt a r. Proof. intros H. unfold deref. replace (cap a <=? p) with false by lia. reflexivity. Qed.
Lemma mbind_run {X Y} (m : M X) (f : X -> M Y) e a r x a' r' : m e a r = MOk x a' r' -> mbind m f e a r = f x e a' r'.
Proof. unfold mbind. intros ->. reflexivity. Qed.
Ltac rget := rewrite (mbind_run _ _ _ _ _ _ _ _ (mget16 _ _ _ _)).
Ltac rder := match goal with |- context [mbind (deref ?p) ?f ?e ?a ?r] => rewrite (mbind_run (deref p) f e a r tt a r (mderef p e a r ltac:(lia))) end.

Lemma run_hasMulti e a this lo hi head prev x : wfA e a -> 8 <= lo -> hi <= aused a -> hi < cap a -> zeros (mem a) (this + 58) 6 -> head = g16 (mem a) (this + 66) -> bodiesInv (mem a) lo hi head prev (mBodies x) ->
  mHasMulti this 0 (commonBodies this) e a [] = MOk (hasMulti x) a [].
Proof.
  intros Hw H8 Hh Hc Z -> (tr & B & C & _ & V). num Hw. unfold commonBodies. cbn [mHasMulti].
  do 3 (rget; rewrite (zeros_g16 _ _ _ _ Z) by lia; change (0 =? NILPTR) with true; cbv iota; change (Nat.ltb 1 0) with false; cbv iota).
  rget. unfold hasMulti. rewrite <- V, bvals_all. rewrite bptrs_all in C.
  destruct tr as [|[[[b1 p1] q1] x1] tr]; [cbn in C; rewrite C; reflexivity|]. pose proof B as B0. cbn [blocks] in B. destruct B as (L1 & (-> & q' & L2 & L3 & _) & B). pose proof (blocks_le bodyOk_in B) as L4. cbn [map chain fst snd] in *. destruct C as (-> & C).
  replace (S (N.to_nat (cap a))) with (S (S (N.to_nat (cap a) - 1))) by lia. cbn [mCountBodies]. replace (p1 =? NILPTR) with false by (unfold NILPTR; lia). cbn [Nat.ltb Nat.leb].
  rder. rget.
  destruct tr as [|[[[b2 p2] q2] x2] tr]; [cbn in C; rewrite C; reflexivity|]. cbn [blocks] in B. destruct B as (L5 & (-> & q'' & L6 & L7 & _) & B). cbn [map chain fst snd] in *. destruct C as (-> & C).
  replace (p2 =? NILPTR) with false by (unfold NILPTR; lia). reflexivity.
Qed.

Lemma run_boundary e a this lo hi c h v p b : wfA e a -> 8 <= this -> this + 68 <= lo -> hi <= aused a -> hi < cap a -> hdrsC (mem a) this lo hi c h ->
  contentTypeOf h = Some v -> boundaryParam v = Some p ->
  eMemory (mFindBoundary this) e a b = match gvalueText (gpValue p) with Some t => EOk t a b | None => EFail a b end /\ setNth (hsCommon h) 10 [v] = hsCommon h.
Proof.
  intros Hw H8 Hl Hh Hc HH Ev Ep. num Hw. pose proof (hdrsC_slot _ _ _ _ _ _ 10%nat KContentType false Hl HH ltac:(lia) ltac:(lia) ltac:(reflexivity)) as S1. unfold slotRep in S1. unfold contentTypeOf in Ev.
  destruct S1 as [(E1 & _)|(v' & E1 & (q & L1 & L2 & L3 & R))]; rewrite E1 in Ev; cbn [hd_error] in Ev; [discriminate|]. injection Ev as ->. split; [|rewrite <- E1; apply setNth_same].
  destruct v as [ad t ps| |pr tr hp t ps|n mt|rr cc mt|n|mn sb t ps|d t ps|w w2]; try discriminate. cbn [boundaryParam] in Ep. destruct t as [tbl|]; [|discriminate]. cbn [repHVal] in R. destruct R as (_ & R1 & R2 & (R3 & R4)).
  cbn [repTable] in R3. destruct R3 as (T1 & T2 & T3 & T4 & T5). change (tblLen KContentType) with 1 in *. cbn [hvalSize] in *. specialize (T5 0%nat ltac:(rewrite T4; cbn; lia)). cbn [N.of_nat N.mul] in T5. rewrite N.add_0_r in T5. rewrite Ep in T5.
  destruct T5 as (X1 & X2 & z & X3 & X4 & (X5 & X6)). unfold eMemory, mFindBoundary. rget.
  set (ct := g16 (mem a) (slotAt OMsg this 10)) in *. replace (ct =? NILPTR) with false by (unfold NILPTR; lia). rder.
  set (tb := g16 (mem a) (ct + knownOff KContentType)) in *. assert (Eb : mBoundaryParam ct e a [] = MOk (g16 (mem a) tb) a []).
  { unfold mBoundaryParam. rget. fold tb. rewrite (proj2 (N.eqb_neq _ _) T2). rder. reflexivity. }
  rewrite (mbind_run _ _ _ _ _ _ _ _ Eb). set (x0 := g16 (mem a) tb) in *. rewrite (proj2 (N.eqb_neq _ _) X2). rder. rget.
  assert (Rd : forall t, str (mem a) (x0 + 8) z (g16 (mem a) (x0 + 2)) t -> match (if g16 (mem a) (x0 + 2) =? NILPTR then mfail else mReadStr (g16 (mem a) (x0 + 2))) e a [] with MOk x a' _ => EOk x a' b | MFail a' _ => EFail a' b | MPanic => EPanic | MLoop => ELoop end = EOk t a b).
  { intros t0 Ht. rewrite (str_nonnil _ _ _ _ _ Ht). unfold mReadStr. rewrite (str_read e a _ _ _ _ Hw Ht); [reflexivity|lia|]. destruct Ht as (Y1 & Y2 & _). lia. }
  unfold repGValue in X6. destruct (gpValue p) as [[t0|t0|t0]|]; cbn [gvalueText] in *; try (apply Rd; apply X6). rewrite X6. reflexivity.
Qed.

(** ** GetHeaderByIndex *)
Lemma run_findRaw e a lo hi i : forall fuel ps rs p, wfA e a -> 8 <= lo -> hi <= aused a -> hi < cap a -> chain 6 (mem a) p ps -> Forall2 (fun p x => exists b q, lo <= b /\ q <= hi /\ repRaw (mem a) b p q x) ps rs -> (List.length ps < fuel)%nat ->
  mFindRaw i fuel p e a [] = MOk (existsb (fun x => rId x =? i) rs) a [].
Proof.
  induction fuel as [|f IH]; intros ps rs p Hw H8 Hh Hc C F Hf; [lia|]. num Hw. cbn [mFindRaw]. destruct F as [|p1 x1 ps rs (b & q & L1 & L2 & (L3 & L4 & E & _)) F]; [cbn in C; rewrite C; reflexivity|].
  cbn [chain] in C. destruct C as (-> & C). replace (p1 =? NILPTR) with false by (unfold NILPTR; lia). rder. rget. rewrite E. cbn [existsb].
  destruct (rId x1 =? i); [reflexivity|]. rget. cbn [orb]. apply (IH ps rs); auto. cbn in Hf. lia.
Qed.
Lemma run_findCommon e a this i ss : (forall s, In s ss -> (nth s (slotIndexes OMsg) 0 =? i) = false) -> mFindCommon this i ss e a [] = MOk false a [].
Proof.
  induction ss as [|s ss IH]; intros H; [reflexivity|]. cbn [mFindCommon]. rget. rewrite H by now left. rewrite Bool.andb_false_r. apply IH. intros s' Hs'. apply H. now right.
Qed.
Lemma findCommon_absent i l vs : forallb (fun j => negb (j =? i)) l = true -> findCommon (combine l vs) i = None.
Proof.
  revert vs. induction l as [|j l IH]; intros [|v vs] H; try reflexivity. cbn in H. apply andb_prop in H as (H1 & H2). apply Bool.negb_true_iff in H1. cbn [combine findCommon]. destruct v; [now apply IH|]. rewrite H1. now apply IH.
Qed.
Lemma run_hasMime e a this lo hi c h b : wfA e a -> 8 <= this -> this + 68 <= lo -> hi <= aused a -> hi < cap a -> hdrsC (mem a) this lo hi c h ->
  eMemory (mHasHeader this SIP_HDR_MIME_VERSION) e a b = EOk (match getHeaderByIndex h SIP_HDR_MIME_VERSION with Some _ => true | None => false end) a b.
Proof.
  intros Hw H8 Hl Hh Hc HH. apply run_mem. unfold mHasHeader. rewrite (mbind_run _ _ _ _ _ _ _ _ (run_findCommon e a this SIP_HDR_MIME_VERSION (seq 0 19) ltac:(intros s Hs; apply in_seq in Hs; do 19 (destruct s as [|s]; [reflexivity|]); lia))).
  rget. destruct (hdrsC_raw _ _ _ _ _ _ Hl HH) as (ps & C & L & F). num Hw. rewrite (run_findRaw e a lo hi _ _ ps (hsRaw h)); [|exact Hw|lia|exact Hh|exact Hc|exact C|exact F|lia].
  unfold getHeaderByIndex. rewrite findCommon_absent by reflexivity. f_equal. destruct (findKnownRaw (hsRaw h) SIP_HDR_MIME_VERSION) as [x|] eqn:Ef.
  - destruct (existsb _ _) eqn:Ex; [reflexivity|]. apply findKnown_exists in Ex. congruence.
  - apply findKnown_exists in Ef. exact Ef.
Qed.

(** ** The headers *)
Lemma slot_other s : (1 <= s < 19)%nat -> s <> 7%nat -> exists k multi, slotKind OMsg s = Some (k, multi) /\ k <> KContentLength.
Proof. intros L H. do 19 (destruct s as [|s]; [first [lia|congruence|(eexists _, _; split; [reflexivity|discriminate])]|]). lia. Qed.
Definition lengthHead (e : env) (h : hset) (n : N) : bytes := flat_map (slotText e OMsg h) (seq 1 6) ++ lengthText n.
Lemma enc_msgHdrs e a this lo hi c h n b : wfA e a -> 8 <= this -> this + 68 <= lo -> hi <= aused a -> hi < cap a -> (forall s v, s <> 7%nat -> In v (nth s (hsCommon h) []) -> extHVal v = true -> hi < 32768) -> placed this lo hi (aused a) c -> hdrsC (mem a) this lo hi c h -> nth 7 (hsCommon h) [] = [VNum n] ->
  let m' := p32 (mem a) (g16 (mem a) (slot7 this) + 4) (len (b ++ lengthHead e h n) mod two32) in
  mEncHdrs OMsg this e a b = EOk tt (setMem a m') (b ++ encHdrs OMsg e h) /\ hdrsC m' this lo hi c h.
Proof.
  intros Hw H8 Hl Hh Hc H15 Hp HH En m'. num Hw. pose proof (hdrsC_len _ _ _ _ _ _ HH) as HL. destruct (hdrsC_length _ _ _ _ _ _ HH) as [(E0 & _)|(n' & E1 & E2 & E3)]; [congruence|]. assert (E2n : g32 (mem a) (g16 (mem a) (slot7 this)) = n) by congruence.
  set (cl := g16 (mem a) (slot7 this)) in *.
  assert (B : cl <> NILPTR /\ cl < cap a /\ cl + 8 <= aused a) by (destruct E3 as [->|(-> & M1 & M2)]; [cbn [placed] in Hp|]; unfold NILPTR; lia).
  assert (HH2 : hdrsC m' this lo hi c h).
  { apply hdrsC_end; [exact Hl| |exact HH|rewrite En; discriminate]. destruct c as [c|]; [|exact Logic.I]. cbn [placed] in *. fold cl. destruct E3 as [E3|(E3 & _)]; [injection E3 as ->|discriminate]. lia. }
  split; [|exact HH2]. set (a1 := setMem a m').
  assert (SL : forall a0 ss b0, wfA e a0 -> aused a0 = aused a -> cap a0 = cap a -> hdrsC (mem a0) this lo hi c h -> (forall s, In s ss -> (1 <= s < 19)%nat /\ s <> 7%nat) -> mEncSlots OMsg this ss e a0 b0 = EOk tt a0 (b0 ++ flat_map (slotText e OMsg h) ss)).
  { intros a0 ss b0 Hw0 U0 C0 HH0 Hss. apply (enc_slots e a0 hi OMsg this lo); [exact Hw0|lia|lia|lia|]. intros s Hs. destruct (Hss s Hs) as (S1 & S2). destruct (slot_other s S1 S2) as (k & multi & K1 & K2). exists k, multi.
    split; [exact K1|]. split; [exact K2|]. split; [intros v Hv; exact (H15 s v S2 Hv)|]. eapply hdrsC_slot; [exact Hl|exact HH0|lia|exact S2|exact K1]. }
  unfold mEncHdrs. cbn [slotsNum Nat.sub]. eapply ebind_ok.
  - change (seq 1 18) with (seq 1 6 ++ [7%nat] ++ seq 8 11). rewrite mEncSlots_app. eapply ebind_ok; [apply SL; auto; intros s Hs; apply in_seq in Hs; lia|].
    rewrite mEncSlots_app. eapply ebind_ok.
    + cbn [mEncSlots]. eapply ebind_ok; [|reflexivity]. apply (enc_lengthSlot e a OMsg this 7 cl n); [reflexivity|reflexivity|apply B|apply B|exact E2n].
    + rewrite (app3 b). fold (lengthHead e h n). fold m'. fold a1. apply SL; auto; intros s Hs; apply in_seq in Hs; lia.
  - eapply ebind_ok; [reflexivity|]. cbn [rawOff]. pose proof (hdrsC_raw _ _ _ _ _ _ Hl HH2) as HR. change m' with (mem a1) in HR. set (hp := g16 (mem a1) (this + 64)) in *.
    pose proof (enc_rawHeaders e a1 hi Hw Hh Hc lo hp _ ltac:(lia) HR) as ER.
    assert (ET : (((b ++ flat_map (slotText e OMsg h) (seq 1 6)) ++ encSlot e (SIP_HDR_CONTENT_LENGTH, [VNum n])) ++ flat_map (slotText e OMsg h) (seq 8 11)) ++ encRawHeaders (hsRaw h) = b ++ encHdrs OMsg e h).
    { rewrite (encHdrs_slots e OMsg h HL). cbn [slotsNum Nat.sub]. change (seq 1 18) with (seq 1 6 ++ [7%nat] ++ seq 8 11). rewrite !flat_map_app, !app3. do 2 f_equal. cbn [flat_map]. rewrite app_nil_r. f_equal. unfold slotText. rewrite En. reflexivity. }
    destruct (N.eqb_spec hp NILPTR) as [E0|E0].
    + rewrite E0 in ER. injection ER as ER. rewrite <- ET, <- ER, app_nil_r. reflexivity.
    + rewrite (ePut_ok _ _ _ _ _ ER), ET. reflexivity.
Qed.
Lemma lengthEnd_eq e pre h n : List.length (hsCommon h) = 19%nat -> nth 7 (hsCommon h) [] = [VNum n] -> lengthEnd e pre h = List.length (pre ++ lengthHead e h n).
Proof.
  intros HL En. unfold lengthEnd, contentLengthOf, lengthHead. cbv zeta. rewrite En. cbn [hd_error]. rewrite (combine_seq (slotIndexes OMsg) (hsCommon h) 0 []) by (rewrite HL; reflexivity). cbn [slotIndexes List.length].
  f_equal.
Qed.

(** ** The bodies *)
Lemma eget16 p e a b : eMemory (get16 p) e a b = EOk (g16 (mem a) p) a b. Proof. reflexivity. Qed.
Lemma run_single e a this lo hi prev bs b : wfA e a -> 8 <= lo -> hi <= aused a -> hi < cap a -> zeros (mem a) (this + 58) 6 -> bodiesInv (mem a) lo hi (g16 (mem a) (this + 66)) prev bs ->
  mEncSingle this (commonBodies this) e a b = EOk tt a (b ++ encSingle bs).
Proof.
  intros Hw H8 Hh Hc Z (tr & B & C & _ & V). num Hw. unfold commonBodies. cbn [mEncSingle].
  do 3 (eapply ebind_ok; [apply eget16|]; rewrite (zeros_g16 _ _ _ _ Z) by lia; change (0 =? NILPTR) with true; cbv iota). eapply ebind_ok; [apply eget16|]. rewrite <- V, bvals_all. rewrite bptrs_all in C.
  destruct tr as [|[[[b1 p1] q1] x1] tr]; [cbn in C; rewrite C; cbn [N.eqb NILPTR map encSingle]; rewrite app_nil_r; reflexivity|]. cbn [blocks] in B. destruct B as (L1 & (-> & q' & L2 & L3 & _ & HD) & B). pose proof (blocks_le bodyOk_in B) as L4. cbn [map chain fst snd] in *. destruct C as (-> & C).
  replace (p1 =? NILPTR) with false by (unfold NILPTR; lia). eapply ebind_ok; [apply run_mem; rder; reflexivity|]. cbn [encSingle]. apply ePut_ok. apply (data_read e a q' q1 _ _ Hw ltac:(lia) ltac:(lia) HD).
Qed.
Lemma run_multi e a this lo hi prev bs bd b : wfA e a -> 8 <= lo -> hi <= aused a -> hi < cap a -> zeros (mem a) (this + 58) 6 -> bodiesInv (mem a) lo hi (g16 (mem a) (this + 66)) prev bs ->
  exists a', mEncMulti this bd e a b = EOk tt a' (b ++ encMultipart e bd bs) /\ aused a' = aused a /\ cap a' = cap a /\ (forall i, ~ (lo <= i < hi) -> mem a' i = mem a i) /\ bodiesInv (mem a') lo hi (g16 (mem a) (this + 66)) prev (map fixLength bs).
Proof.
  intros Hw H8 Hh Hc Z (tr & B & C & P0 & V). num Hw. pose proof (ptrsOf_length (lid := bodyLid) bodyOk_in 0%nat B) as HL. rewrite bptrs_all, map_length in HL.
  destruct (enc_parts e bd hi tr (S (N.to_nat (cap a))) a lo (g16 (mem a) (this + 66)) b Hw H8 Hh Hc B C ltac:(lia)) as (a' & R & U & K & M & B' & C'). exists a'. split; [|split; [exact U|]; split; [exact K|]; split; [exact M|]].
  - unfold mEncMulti. eapply ebind_ok.
    + unfold commonBodies. cbn [mEncCommon]. do 3 (eapply ebind_ok; [apply eget16|]; rewrite (zeros_g16 _ _ _ _ Z) by lia; change (0 =? NILPTR) with true; cbv iota; eapply ebind_ok; [reflexivity|]). reflexivity.
    + eapply ebind_ok; [apply eget16|]. eapply ebind_ok; [exact R|]. eapply ebind_ok; [apply ePut_ok; reflexivity|]. eapply ebind_ok; [apply ePut_ok; reflexivity|]. unfold eText. rewrite (ePut_ok (eOut (s2b "--")) e a' _ (s2b "--") eq_refl).
      unfold encMultipart. rewrite <- V, bvals_all, !app3. reflexivity.
  - assert (Ep : bptrs (map fixT tr) = bptrs tr) by (rewrite !bptrs_all, map_map; reflexivity). exists (map fixT tr). rewrite Ep. split; [exact B'|]. split; [exact C'|]. split; [exact P0|]. rewrite <- V, !bvals_all, !map_map. reflexivity.
Qed.

(** ** Encode *)
(** A message with parts has a Content-Type with a boundary. *)
Definition hasBoundary (x : msg) : Prop := hasMulti x = true -> exists v p, contentTypeOf (mHdrs x) = Some v /\ boundaryParam v = Some p.
(** The Content-Length is where it was, or it was created in memory not in use before. *)
Definition newAt (u : N) (c c' : option N) : Prop := c' = c \/ c = None /\ exists d, c' = Some d /\ u <= d.

Lemma enc_length e a this lo hi c x b : wfA e a -> 8 <= this -> this + 68 <= lo -> hi <= aused a -> placed this lo hi (aused a) c -> repMsgC (mem a) this lo hi c x ->
  match ensureLength (mHdrs x) e (mkst [] (aused a)) with
  | Ok h s => exists a' c', (p <== eMemory (get16 (slotAt OMsg this 7)) ;; (if p =? NILPTR then eMemory (c <~ mNew 8 ;; set16 (slotAt OMsg this 7) c) else eret tt)) e a b = EOk tt a' b /\
      aused a' = used s /\ keeps (inR (slot7 this) 2) a a' /\ placed this lo hi (aused a') c' /\ newAt (aused a) c c' /\ repMsgC (mem a') this lo hi c' (mkmsg (mStart x) h (mBodies x)) /\ exists n, nth 7 (hsCommon h) [] = [VNum n]
  | Fail s => exists a', aused a' = used s /\ keeps nowhere a a' /\ (p <== eMemory (get16 (slotAt OMsg this 7)) ;; (if p =? NILPTR then eMemory (c <~ mNew 8 ;; set16 (slotAt OMsg this 7) c) else eret tt)) e a b = EFail a' b
  | _ => False
  end.
Proof.
  intros Hw H8 Hl Hh Hp HR. num Hw. pose proof HR as (q1 & q2 & prev & L1 & L2 & Z & HS & HH & HB). pose proof (bodiesInv_le _ _ _ _ _ _ HB) as L3. unfold ensureLength, contentLengthOf. destruct (hdrsC_length _ _ _ _ _ _ HH) as [(E1 & -> & E2)|(n & E1 & E2 & E3)]; rewrite E1; cbn [hd_error].
  - pose proof (sim_new e 8 a [] Hw ltac:(lia) ltac:(lia)) as SN. unfold sim in SN. unfold bind. destruct (allocStruct 8 e (mkst [] (aused a))) as [[] s|s| |] eqn:Ea; [| | |].
    + destruct SN as (p & a1 & R1 & U1 & K1 & (Ep & U2 & Z1)). pose proof (keeps_wf _ _ _ _ Hw K1) as Hw1. num K1. set (d := aused a) in *.
      set (a2 := setMem a1 (p16 (mem a1) (slot7 this) d)). exists a2, (Some d). unfold ret. cbn [used]. pose proof (slot7_off this) as E7.
      assert (G : forall i, i < d -> mem a1 i = mem a i \/ i < 8) by (intros i Hi; destruct (N.ltb_spec i 8); [auto|]; left; destruct K1 as (_ & _ & _ & K1); apply K1; [lia|intros []]).
      assert (GR : forall lo' hi', 8 <= lo' -> hi' <= d -> agreeR (mem a) (mem a1) lo' hi') by (intros lo' hi' M1 M2 i Hi; destruct (G i ltac:(lia)); [assumption|lia]).
      split; [|split; [exact U1|]; split; [|split; [|split; [right; split; [reflexivity|]; exists d; split; [reflexivity|apply N.le_refl]|split]]]].
      * eapply ebind_ok; [apply eget16|]. fold (slot7 this). rewrite E2. change (NILPTR =? NILPTR) with true. cbv iota. unfold eMemory. rewrite (mbind_run _ _ _ _ _ _ _ _ R1). unfold set16. rewrite Ep. reflexivity.
      * split; [cbn; lia|]. split; [cbn; lia|]. split; [cbn; lia|]. intros i Hi Hn. cbn [a2 mem setMem]. rewrite p16_other by exact Hn. destruct (G i ltac:(lia)); [assumption|lia].
      * cbn [placed a2 aused setMem]. lia.
      * exists q1, q2, prev. split; [exact L1|]. split; [exact L2|]. cbn [mStart mHdrs mBodies a2 mem setMem].
        assert (A : forall lo' hi', 8 <= lo' -> hi' <= d -> (hi' <= slot7 this \/ slot7 this + 2 <= lo') -> agreeR (mem a) (p16 (mem a1) (slot7 this) d) lo' hi').
        { intros lo' hi' M1 M2 M3 i Hi. rewrite p16_other by (unfold inR; lia). apply (GR lo' hi'); lia. }
        split; [eapply zeros_frame; [|exact Z]; apply A; lia|]. split; [eapply repLine_frame; [| |exact HS]; apply A; lia|]. split.
        -- apply hdrsC_create; [lia| |exact E1|unfold two16; lia| |lia].
           ++ eapply hdrsC_frame; [| | |exact HH]; [apply GR; lia|apply GR; lia|discriminate].
           ++ rewrite <- Ep. unfold g32, g16. rewrite !Z1 by lia. reflexivity.
        -- replace (g16 (p16 (mem a1) (slot7 this) d) (this + 66)) with (g16 (mem a) (this + 66)); [eapply bodiesInv_frame; [|exact HB]; apply A; lia|].
           rewrite g16_write by lia. unfold g16. rewrite !(GR (this + 66) (this + 68)) by lia. reflexivity.
      * exists 0. cbn [hsCommon]. apply nth_setNth. rewrite (hdrsC_len _ _ _ _ _ _ HH). lia.
    + destruct SN as (a1 & R1 & U1 & K1). unfold allocStruct in Ea. destruct (leMem e _); [discriminate|]. injection Ea as <-. exists a1. split; [exact U1|]. split; [exact K1|]. eapply ebind_ok; [apply eget16|]. fold (slot7 this). rewrite E2. change (NILPTR =? NILPTR) with true. cbv iota. unfold eMemory, mbind. rewrite R1. reflexivity.
    + unfold allocStruct in Ea. destruct (leMem e _); discriminate.
    + unfold allocStruct in Ea. destruct (leMem e _); discriminate.
  - unfold ret. cbn [used]. exists a, c. assert (B : g16 (mem a) (slot7 this) <> NILPTR) by (destruct E3 as [->|(-> & M1 & M2)]; [cbn [placed] in Hp|]; unfold NILPTR; lia).
    split; [eapply ebind_ok; [apply eget16|]; fold (slot7 this); rewrite (proj2 (N.eqb_neq _ _) B); reflexivity|]. split; [reflexivity|]. split; [eapply keeps_refl; exact Hw|]. split; [exact Hp|]. split; [now left|]. split; [|eauto].
    replace (mkmsg (mStart x) (mHdrs x) (mBodies x)) with x by (destruct x; reflexivity). exact HR.
Qed.
Lemma ensure_rest h e r u : ensureLength h e (mkst r u) = match ensureLength h e (mkst [] u) with Ok v s => Ok v (mkst r (used s)) | Fail s => Fail (mkst r (used s)) | Panic => Panic | Loop => Loop end.
Proof. unfold ensureLength, bind, allocStruct. destruct (contentLengthOf h); [reflexivity|]. cbn [used rest]. destruct (leMem e (u + 8)); reflexivity. Qed.
Lemma ebind_assoc {X Y Z} (m : E X) (f : X -> E Y) (g : E Z) e a b : (x <== m ;; (f x ;= g)) e a b = ((x <== m ;; f x) ;= g) e a b.
Proof. unfold ebind. destruct (m e a b); reflexivity. Qed.
Lemma bodies_head m lo hi head prev bs : 8 <= lo -> bodiesInv m lo hi head prev bs -> (head =? NILPTR) = match bs with [] => true | _ => false end.
Proof.
  intros H8 (tr & B & C & _ & V). rewrite <- V, bvals_all. rewrite bptrs_all in C. destruct tr as [|[[[b1 p1] q1] x1] tr]; cbn [map chain fst snd] in *; [rewrite C; reflexivity|]. destruct C as (-> & _).
  cbn [blocks] in B. destruct B as (L1 & (-> & _) & _). unfold NILPTR. lia.
Qed.
Lemma patch_len (t : bytes) (n : nat) (d : bytes) : (n <= List.length t)%nat -> len t <= len (patch t n d).
Proof. intros H. unfold patch, len. rewrite !app_length, firstn_length, skipn_length. lia. Qed.

(** The headers left behind when Encode fails: a Content-Length may have been created before. *)
Definition leftHdrs (e : env) (u : N) (h : hset) : hset := match ensureLength h e (mkst [] u) with Ok h1 _ => h1 | _ => h end.
Theorem enc_msg e a this lo hi c x r b : wfA e a -> 8 <= this -> this + 68 <= lo -> hi <= aused a -> hi < cap a -> (extMsg x = true -> hi < 32768) -> placed this lo hi (aused a) c -> hasBoundary x -> repMsgC (mem a) this lo hi c x ->
  match encMsg b x e (mkst r (aused a)) with
  | Ok (t, x') s => len t < two32 -> exists a' c', mEncMsg this e a b = EOk tt a' t /\ aused a' = used s /\ keeps (own this lo hi c) a a' /\
      placed this lo hi (aused a') c' /\ newAt (aused a) c c' /\ hasBoundary x' /\ repMsgC (mem a') this lo hi c' x'
  | Fail s => exists a' b' c', mEncMsg this e a b = EFail a' b' /\ aused a' = used s /\ keeps (own this lo hi c) a a' /\
      placed this lo hi (aused a') c' /\ newAt (aused a) c c' /\ repMsgC (mem a') this lo hi c' (mkmsg (mStart x) (leftHdrs e (aused a) (mHdrs x)) (mBodies x))
  | _ => False
  end.
Proof.
  intros Hw H8 Hl Hh Hc H15 Hp Hb HR. num Hw. unfold encMsg, withEnv. pose proof (enc_length e a this lo hi c x b Hw H8 Hl Hh Hp HR) as EL. unfold leftHdrs. unfold bind at 1. rewrite ensure_rest.
  assert (HM : mHasMulti this 0 (commonBodies this) e a [] = MOk (hasMulti x) a []).
  { destruct HR as (q1 & q2 & prev & L1 & L2 & Z & HS & HH & HB). eapply (run_hasMulti e a this q2 hi); [exact Hw|lia|exact Hh|exact Hc|exact Z|reflexivity|exact HB]. }
  assert (HO : contentTypeOf (mHdrs x) = contentTypeOf (mHdrs x)) by reflexivity.
  assert (CT : forall h1 s, ensureLength (mHdrs x) e (mkst [] (aused a)) = Ok h1 s -> contentTypeOf h1 = contentTypeOf (mHdrs x)).
  { intros h1 s. unfold ensureLength, bind, allocStruct, ret. destruct (contentLengthOf (mHdrs x)); [intros Ex; injection Ex as <- _; reflexivity|]. destruct (leMem e _); [|discriminate]. intros Ex; injection Ex as <- _. unfold contentTypeOf. cbn [hsCommon]. rewrite nth_setNth_other by discriminate. reflexivity. }
  assert (SM0 : forall h1 s, ensureLength (mHdrs x) e (mkst [] (aused a)) = Ok h1 s -> forall s0, s0 <> 7%nat -> nth s0 (hsCommon h1) [] = nth s0 (hsCommon (mHdrs x)) []).
  { intros h1 s. unfold ensureLength, bind, allocStruct, ret. destruct (contentLengthOf (mHdrs x)); [intros Ex; injection Ex as <- _; reflexivity|]. destruct (leMem e _); [|discriminate]. intros Ex; injection Ex as <- _. intros s0 Hs0. cbn [hsCommon]. apply nth_setNth_other. congruence. }
  clear HO. destruct (ensureLength (mHdrs x) e (mkst [] (aused a))) as [h1 s|s| |]; [| |contradiction|contradiction].
  2:{ destruct EL as (a1 & U1 & K1 & R1). exists a1, b, c. cbn [used]. num K1. split.
      - unfold mEncMsg. eapply ebind_ok; [apply run_mem, HM|]. rewrite ebind_assoc. unfold ebind at 1. rewrite R1. reflexivity.
      - split; [exact U1|]. split; [eapply keeps_sub; [exact K1|intros i _ []]|]. split; [destruct c; [cbn [placed] in *; lia|exact Logic.I]|]. split; [now left|].
        replace (mkmsg (mStart x) (mHdrs x) (mBodies x)) with x by (destruct x; reflexivity). destruct HR as (q1 & q2 & prev & HR'). pose proof (bodiesInv_le _ _ _ _ _ _ (proj2 (proj2 (proj2 (proj2 (proj2 HR')))))) as L3. pose proof (proj1 HR') as L1. pose proof (proj1 (proj2 HR')) as L2. assert (HR : repMsgC (mem a) this lo hi c x) by (exists q1, q2, prev; exact HR').
        eapply repMsgC_frame; [| | |exact HR]; [agr K1|agr K1|]. intros d ->. cbn [placed] in Hp. agr K1. }
  destruct EL as (a1 & c1 & R1 & U1 & K1 & Hp1 & Hcc & HR1 & (n & En)). cbn [used]. rewrite <- U1. specialize (CT _ _ eq_refl). pose proof (SM0 _ _ eq_refl) as SM. num K1. pose proof (keeps_wf _ _ _ _ Hw K1) as Hw1. clear HR. destruct HR1 as (q1 & q2 & prev & L1 & L2 & Z & HS & HH & HB). cbn [mStart mHdrs mBodies] in *.
  pose proof (bodiesInv_le _ _ _ _ _ _ HB) as L3. pose proof (slot7_off this) as E7. set (multi := hasMulti x) in *. set (t0 := encStartLine e (mStart x)).
  assert (HST : ePut (mEncStartLine this) e a1 b = EOk tt a1 (b ++ t0)).
  { apply ePut_ok. eapply (enc_line e a1 hi); [exact Hw1|lia|lia|exact (extMsg_start x _ H15)|exact (N.le_trans _ _ _ (N.le_trans _ _ _ H8 (N.le_add_r this 68)) Hl)|]. eapply repLine_mono; [exact HS|lia|lia]. }
  set (rest0 := fun bd : bytes => (mEncHdrs OMsg this ;=
    (if multi then h <== eMemory (mHasHeader this SIP_HDR_MIME_VERSION) ;; if h : bool then eret tt else eText (s2b "MIME-Version: 1.0" ++ CRLF) else eret tt) ;=
    eText CRLF ;=
    bs <== eMemory (get16 (this + 66)) ;;
    if bs =? NILPTR then eret tt else
    b0 <== eBuf ;;
    (if negb multi then mEncSingle this (commonBodies this) else mEncMulti this bd) ;=
    b1 <== eBuf ;;
    c <== eMemory (get16 (slotAt OMsg this 7)) ;;
    n <== eMemory (deref c ;~ get32 (c + 4)) ;;
    ePatch n (encUInt (len b1 - len b0)))).
  assert (Start : mEncMsg this e a b = (bd <== (if multi then eMemory (mFindBoundary this) else eret []) ;; rest0 bd) e a1 (b ++ t0)).
  { unfold mEncMsg. eapply ebind_ok; [apply run_mem, HM|]. fold multi. rewrite ebind_assoc. eapply ebind_ok; [exact R1|]. eapply ebind_ok; [exact HST|]. reflexivity. }
  rewrite Start. clear Start R1 HM HST.
  assert (KO : keeps (own this lo hi c) a a1) by (eapply keeps_sub; [exact K1|unfold inR, own; lia]).
  (* the boundary *)
  assert (Bd : match (if multi then findOrCreateBoundary h1 else ret (h1, [])) e (mkst r (aused a1)) with
    | Ok hb s' => hb = (h1, snd hb) /\ s' = mkst r (aused a1) /\ (if multi then eMemory (mFindBoundary this) else eret []) e a1 (b ++ t0) = EOk (snd hb) a1 (b ++ t0)
    | Fail s' => s' = mkst r (aused a1) /\ (if multi then eMemory (mFindBoundary this) else eret []) e a1 (b ++ t0) = EFail a1 (b ++ t0)
    | _ => False end).
  { destruct multi eqn:Em; [|cbn; auto]. destruct (Hb Em) as (v & p & V1 & V2). rewrite <- CT in V1. destruct (run_boundary e a1 this q1 q2 c1 h1 v p (b ++ t0) Hw1 H8 ltac:(lia) ltac:(lia) ltac:(lia) HH V1 V2) as (RB & SN).
    unfold findOrCreateBoundary, bind. rewrite V1. unfold ret. rewrite V2. destruct (gvalueText (gpValue p)) as [t1|]; [|split; [reflexivity|exact RB]]. cbn [fst snd]. rewrite SN. split; [destruct h1; reflexivity|]. auto. }
  unfold bind at 1. destruct ((if multi then findOrCreateBoundary h1 else ret (h1, [])) e (mkst r (aused a1))) as [[h' bd] s'|s'| |]; [| |contradiction|contradiction].
  2:{ destruct Bd as (-> & RB). exists a1, (b ++ t0), c1. cbn [used]. split; [unfold ebind at 1; rewrite RB; reflexivity|]. split; [reflexivity|]. split; [exact KO|]. split; [exact Hp1|]. split; [exact Hcc|]. exists q1, q2, prev. auto 7. }
  destruct Bd as (Eh & -> & RB). cbn [fst snd] in *. injection Eh as ->. rewrite (ebind_ok _ _ _ _ _ _ _ _ _ RB eq_refl). clear RB. unfold rest0. clear rest0.
  (* the headers *)
  assert (Hp2 : placed this q1 q2 (aused a1) c1) by (destruct c1; [cbn [placed] in *; lia|exact Logic.I]).
  pose proof (enc_msgHdrs e a1 this q1 q2 c1 h1 n (b ++ t0) Hw1 H8 ltac:(lia) ltac:(lia) ltac:(lia) ltac:(intros s0 v0 Hs0 Hv0 Ev0; assert (hi < 32768) by (apply (extMsg_hdr x _ s0 v0 H15); [rewrite <- (SM s0 Hs0); exact Hv0|exact Ev0]); lia) Hp2 HH En) as EH. cbv zeta in EH. destruct EH as (RH & HH2). rewrite (ebind_ok _ _ _ _ _ _ _ _ _ RH eq_refl). clear RH.
  set (cl := g16 (mem a1) (slot7 this)) in *. set (endv := len ((b ++ t0) ++ lengthHead e h1 n)) in *.
  assert (Hcl : 8 <= cl /\ cl + 8 <= aused a1 /\ (cl + 8 <= this \/ this + 68 <= cl) /\ (q1 <= cl /\ cl + 8 <= q2 /\ c1 = None \/ c1 = Some cl /\ (cl + 8 <= lo \/ hi <= cl))).
  { destruct (hdrsC_length _ _ _ _ _ _ HH) as [(E0 & _)|(n' & _ & _ & E3)]; [congruence|]. fold cl in E3. destruct E3 as [E3|(E3 & M1 & M2)]; [|split; [lia|]; split; [lia|]; split; [lia|left; auto]].
    rewrite E3 in Hp1. cbn [placed] in Hp1. split; [lia|]. split; [lia|]. split; [lia|]. right. split; [exact E3|lia]. }
  set (m2 := p32 (mem a1) (cl + 4) (endv mod two32)) in *. set (a2 := setMem a1 m2).
  assert (Hw2 : wfA e a2) by exact Hw1. assert (U2 : aused a2 = aused a1) by reflexivity. assert (C2 : cap a2 = cap a1) by reflexivity.
  assert (A2 : forall i, ~ (cl + 4 <= i < cl + 8) -> mem a2 i = mem a1 i) by (intros i Hi; cbn [a2 mem setMem]; apply p32_other; unfold inR; lia).
  assert (AG : forall lo' hi', hi' <= cl + 4 \/ cl + 8 <= lo' -> agreeR (mem a1) (mem a2) lo' hi') by (intros lo' hi' Hi i Hi'; apply A2; lia).
  assert (Z2 : zeros (mem a2) (this + 58) 6) by (eapply zeros_frame; [|exact Z]; apply AG; lia).
  assert (HS2 : repLine (mem a2) this lo q1 (mStart x)) by (eapply repLine_frame; [| |exact HS]; apply AG; lia).
  assert (G66 : g16 (mem a2) (this + 66) = g16 (mem a1) (this + 66)) by (apply g16_p32; lia).
  assert (HB2 : bodiesInv (mem a2) q2 hi (g16 (mem a2) (this + 66)) prev (mBodies x)) by (rewrite G66; eapply bodiesInv_frame; [|exact HB]; apply AG; lia).
  set (mime := if multi then match getHeaderByIndex h1 SIP_HDR_MIME_VERSION with None => s2b "MIME-Version: 1.0" ++ CRLF | Some _ => [] end else []).
  set (head := b ++ t0 ++ encHdrs OMsg e h1 ++ mime ++ CRLF).
  assert (RM : (if multi then h <== eMemory (mHasHeader this SIP_HDR_MIME_VERSION) ;; if h : bool then eret tt else eText (s2b "MIME-Version: 1.0" ++ CRLF) else eret tt) e a2 ((b ++ t0) ++ encHdrs OMsg e h1) = EOk tt a2 (((b ++ t0) ++ encHdrs OMsg e h1) ++ mime)).
  { unfold mime. destruct multi; [|rewrite app_nil_r; reflexivity]. eapply ebind_ok; [apply (run_hasMime e a2 this q1 q2 c1 h1); [exact Hw2|exact H8|lia|lia|lia|exact HH2]|].
    destruct (getHeaderByIndex h1 SIP_HDR_MIME_VERSION); [rewrite app_nil_r; reflexivity|]. apply ePut_ok. reflexivity. }
  rewrite (ebind_ok _ _ _ _ _ _ _ _ _ RM eq_refl). clear RM. rewrite (ebind_ok (eText CRLF) _ _ _ _ _ _ _ _ (ePut_ok (eOut CRLF) e a2 _ CRLF eq_refl) eq_refl).
  assert (Ehead : (((b ++ t0) ++ encHdrs OMsg e h1) ++ mime) ++ CRLF = head) by (unfold head; rewrite !app3; reflexivity). rewrite Ehead. clear Ehead.
  rewrite (ebind_ok _ _ _ _ _ _ _ _ _ (eget16 (this + 66) e a2 head) eq_refl). assert (H8q : 8 <= q2) by lia. rewrite (bodies_head _ _ _ _ _ _ H8q HB2).
  assert (K2 : keeps (own this lo hi c) a a2).
  { destruct KO as (O1 & O2 & O3 & O4). split; [cbn [a2 cap setMem]; lia|]. split; [lia|]. split; [lia|]. intros i Hi Ho. rewrite A2; [now apply O4|]. intros Hi2. apply Ho. unfold own. destruct Hcl as (_ & _ & _ & [(M1 & M2 & _)|(M1 & M2)]).
    - right. left. lia.
    - destruct Hcc as [->|(-> & d & Ed & Ld)]; [rewrite M1; right; right; lia|]. exfalso. rewrite M1 in Ed. injection Ed as <-. lia. }
  assert (HBd : forall bs', contentTypeOf h1 = contentTypeOf (mHdrs x) -> (hasMulti (mkmsg (mStart x) h1 bs') = true -> multi = true) -> hasBoundary (mkmsg (mStart x) h1 bs')).
  { intros bs' E0 M0 M1. cbn [mHdrs]. rewrite E0. apply Hb. apply M0, M1. }
  destruct (mBodies x) as [|b1 bs] eqn:Ebs.
  { cbn [used]. intros _. exists a2, c1. split; [reflexivity|]. split; [reflexivity|]. split; [exact K2|]. split; [exact Hp1|]. split; [exact Hcc|]. split; [apply HBd; [exact CT|discriminate]|]. exists q1, q2, prev. cbn [mStart mHdrs mBodies]. auto 7. }
  rewrite <- Ebs in *. set (text := if multi then encMultipart e bd (mBodies x) else encSingle (mBodies x)). set (fin := lengthEnd e (b ++ t0) h1).
  assert (Efin : fin = List.length ((b ++ t0) ++ lengthHead e h1 n)) by (apply lengthEnd_eq; [exact (hdrsC_len _ _ _ _ _ _ HH)|exact En]).
  assert (Lfin : (16 <= fin <= List.length head)%nat).
  { rewrite Efin. split.
    - unfold lengthHead, lengthText. rewrite !app_length. change (List.length (s2b "Content-Length")) with 14%nat. change (List.length (s2b ": ")) with 2%nat. lia.
    - unfold head. rewrite (encHdrs_slots e OMsg h1 (hdrsC_len _ _ _ _ _ _ HH)). cbn [slotsNum Nat.sub]. change (seq 1 18) with (seq 1 6 ++ [7%nat] ++ seq 8 11). rewrite !flat_map_app. unfold lengthHead. cbn [flat_map]. unfold slotText at 3. rewrite En.
      change (encSlot e (nth 7 (slotIndexes OMsg) 0, [VNum n])) with (s2b "Content-Length" ++ s2b ": " ++ encContentLength n ++ CRLF). unfold lengthText. rewrite !app_length. lia. }
  assert (Body : exists a3, (if negb multi then mEncSingle this (commonBodies this) else mEncMulti this bd) e a2 head = EOk tt a3 (head ++ text) /\ aused a3 = aused a2 /\ cap a3 = cap a2 /\ (forall i, ~ (q2 <= i < hi) -> mem a3 i = mem a2 i) /\
    bodiesInv (mem a3) q2 hi (g16 (mem a2) (this + 66)) prev (if multi then map fixLength (mBodies x) else mBodies x)).
  { unfold text. destruct multi; cbn [negb].
    - apply run_multi; [exact Hw2|exact H8q|lia|lia|exact Z2|exact HB2].
    - exists a2. split; [apply (run_single e a2 this q2 hi prev); [exact Hw2|exact H8q|lia|lia|exact Z2|exact HB2]|]. split; [reflexivity|]. split; [reflexivity|]. split; [auto|exact HB2]. }
  destruct Body as (a3 & R3 & U3 & C3 & M3 & HB3).
  assert (G3 : forall i, i + 2 <= q2 \/ hi <= i -> g16 (mem a3) i = g16 (mem a2) i) by (intros i Hi; unfold g16; rewrite !M3 by lia; reflexivity).
  assert (AG3 : forall lo' hi', hi' <= q2 \/ hi <= lo' -> agreeR (mem a2) (mem a3) lo' hi') by (intros lo' hi' Hi i Hi'; apply M3; lia).
  cbn [used]. fold text. fold fin. intros Ht.
  assert (Htx : len (head ++ text) < two32) by (eapply N.le_lt_trans; [apply patch_len|exact Ht]; rewrite app_length; lia).
  exists a3, c1. split; [|split; [cbn [used]; lia|]; split; [|split; [replace (aused a3) with (aused a1) by lia; exact Hp1|]; split; [exact Hcc|]; split]].
  - eapply ebind_ok; [reflexivity|]. eapply ebind_ok; [exact R3|]. eapply ebind_ok; [reflexivity|]. eapply ebind_ok; [apply eget16|]. fold (slot7 this).
    assert (Ecl : g16 (mem a3) (slot7 this) = cl) by (rewrite G3 by lia; cbn [a2 mem setMem]; unfold m2; rewrite g16_p32 by lia; reflexivity). rewrite Ecl.
    assert (Eend : g32 (mem a3) (cl + 4) = endv).
    { unfold g32. rewrite !G3 by lia. change (g32 m2 (cl + 4) = endv). unfold m2. rewrite g32_p32 by (apply N.mod_lt; discriminate). apply N.mod_small. eapply N.le_lt_trans; [|exact Htx]. unfold endv, len. rewrite <- Efin, app_length. lia. }
    eapply ebind_ok; [apply run_mem; rewrite (mbind_run (deref cl) _ e a3 [] tt a3 []) by (apply mderef; lia); reflexivity|]. rewrite Eend.
    assert (El : len (head ++ text) - len head = len text) by (rewrite len_app; lia). rewrite El.
    assert (D10 : (List.length (encUInt (len text)) <= 10)%nat) by (apply digits10; eapply N.le_lt_trans; [|exact Htx]; rewrite len_app; lia).
    assert (Een : N.to_nat endv = fin) by (unfold endv, len; rewrite Nat2N.id; symmetry; exact Efin).
    unfold ePatch. replace ((len (encUInt (len text)) <=? endv) && (endv <=? len (head ++ text))) with true; [rewrite Een; reflexivity|].
    symmetry. apply andb_true_intro. assert (Ev : endv = N.of_nat fin) by (rewrite <- Een, N2Nat.id; reflexivity). rewrite Ev. split; apply N.leb_le; [unfold len at 1; lia|rewrite len_app; unfold len at 1; lia].
  - destruct K2 as (O1 & O2 & O3 & O4). split; [lia|]. split; [lia|]. split; [lia|]. intros i Hi Ho. rewrite M3; [now apply O4|]. intros Hi2. apply Ho. unfold own. right. left. lia.
  - apply HBd; [exact CT|]. destruct multi eqn:Em; [reflexivity|]. intros M0. unfold multi in Em. rewrite <- Em. exact M0.
  - exists q1, q2, prev. cbn [mStart mHdrs mBodies]. split; [exact L1|]. split; [exact L2|]. split; [eapply zeros_frame; [|exact Z2]; apply AG3; lia|]. split; [eapply repLine_frame; [| |exact HS2]; apply AG3; lia|].
    split; [|rewrite G3 by lia; exact HB3]. eapply hdrsC_frame; [| | |exact HH2]; [apply AG3; lia|apply AG3; lia|]. intros d Ed. apply AG3. destruct Hcl as (_ & _ & _ & [(_ & _ & M0)|(M0 & M1)]); [congruence|]. rewrite Ed in M0. injection M0 as ->. lia.
Qed.

(** A message built by Parse has a boundary if it has parts. *)
Lemma parsed_boundary e s x s' : parseMsg e s = Ok x s' -> hasBoundary x.
Proof.
  unfold parseMsg, bind, onRest. destruct (parseStartLine e s) as [l s1| | |]; try discriminate. destruct (rest s1) as [|c r]; [discriminate|]. destruct (parseHeaders OMsg e s1) as [h s2| | |]; try discriminate.
  destruct (parseMsgBody h e s2) as [bs s3| | |] eqn:Eb; try discriminate. unfold ret. intros E0. injection E0 as <- _. unfold hasBoundary, hasMulti. cbn [mHdrs mBodies]. intros HM. unfold parseMsgBody in Eb.
  destruct (contentTypeOf h) as [v|]; [|injection Eb as <- _; discriminate]. exists v. destruct v; try (injection Eb as <- _; discriminate). destruct (CStringEqualNoCase _ _) as [[]|]; [| |discriminate].
  - destruct (boundaryParam _) as [p|]; [|discriminate]. exists p. auto.
  - exfalso. unfold parseSingleBody, onRest in Eb. destruct ((match contentLengthOf h with Some (VNum n) => N.min n (len (rest s2)) | _ => 0 end) =? 0); [injection Eb as <- _; discriminate|]. unfold bind in Eb.
    destruct (allocStruct 16 e s2); try discriminate. destruct (allocCString _ e s0); try discriminate. injection Eb as <- _. discriminate.
Qed.
