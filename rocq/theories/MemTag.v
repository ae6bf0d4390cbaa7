(** The exact words that Parse stores for a method, a version and a Via protocol, and what Encode writes for a word at any address. *)
From Verif Require Import Base Charset BaseLemmas Num Lws Str Monad MethodTree HeaderTree Lookup NameSpec NameProofs Host Uri Tel GenParam Addr StartLine Headers Arena ArenaProofs ArenaOpsProofs StrProofs ArenaTop Layout Mem MemSim MemTac MemUri MemRep MemList Inv MemHostProofs MemParamProofs MemUriProofs MemSipUriProofs MemEnc MemEncProofs MemTel MemTelProofs MemGen MemGenProofs MemAddr MemAddrProofs MemSteps MemStart MemStartProofs MemHdr MemHdrProofs Extension.

Definition wordM (w q : N) (m : method) : Prop := match m with MKnown i => w = setTag i /\ i < 14 | MOther _ => w = q end.
Definition wordV (w q : N) (v : version) : Prop := match v with V20 => w = setTag 1 | VOther _ => w = q end.
Lemma sim_strIntoW {X A} e (W : N -> Prop) p f (q : P bytes) (k : unit -> M X) (g : bytes -> P A) (Q : arena -> X -> A -> Prop) a r :
  sim e nowhere (mStr f) q (strQ a) a r -> wfA e a -> (forall i, 8 <= i < aused a -> inR p 2 i -> W i) -> 8 <= p -> p + 2 <= aused a ->
  (forall b a1 r1, wfA e a1 -> keeps (inR p 2) a a1 -> g16 (mem a1) p = aused a + 2 -> aused a1 = aused a + 2 + len b -> sim e (orS W (from (aused a))) (k tt) (g b) Q a1 r1) ->
  sim e W (mbind (mInto p (mStr f)) k) (bind q g) Q a r.
Proof.
  intros Hf Hw HW H8 Hl H. num Hw. eapply (sim_bind e _ (orS nowhere (inR p 2))); [eapply sim_into; [exact Hw|exact Hf|intros a' x v K (_ & Hq & _); exact Hq]|exact Hw|intros i Hi [[]|G]; auto|].
  intros [] b a1 r1 Hw1 K1 (x & a0 & (Hs & _ & Eq & Ea) & K0 & U0 & V0). apply H; [exact Hw1|eapply keeps_sub; [exact K1|slia]|congruence|]. rewrite U0, Ea, Eq. reflexivity.
Qed.
(** ** Parse *)
Lemma word_method e p a r : wfA e a -> 8 <= p -> p + 2 <= aused a -> sim e (inR p 2) (mMethod p) parseMethod (fun a' _ v => wordM (g16 (mem a') p) (aused a + 2) v) a r.
Proof.
  intros Hw H8 Hl. num Hw. apply sim_onRest. destruct (GetSipMethodIndex r) as [[i mid]|] eqn:E; [|apply sim_panic].
  destruct (i =? SIP_METHOD_UNKNOWN) eqn:Ei.
  - apply sim_eta. eapply sim_strIntoW; [apply sim_FromPos; [exact Hw|]|exact Hw|auto|exact H8|exact Hl|].
    { destruct (method_skips _ _ _ E) as (q & Eq & _). exists q. exact Eq. }
    intros b a1 r1 Hw1 K1 Hs _. apply sim_ret; [exact Hw1|exact Hs].
  - apply sim_goto_bind. apply sim_set16_end; [exact Hw|apply setTag_small; eapply method_index; eauto|auto|]. intros a1 _ _ _ V. split; [exact V|eapply method_index; eauto].
Qed.
Definition wverQ (p lo : N) : arena -> unit -> version -> Prop := fun a' _ v => wordV (g16 (mem a') p) (lo + 2) v /\ forall t, v = VOther t -> aused a' = lo + 2 + len t.
Lemma word_versionDigits e p r a r0 : wfA e a -> 8 <= p -> p + 2 <= aused a -> suffix r r0 -> sim e (inR p 2) (mVersionDigits p r) (versionDigits r) (wverQ p (aused a)) a r0.
Proof.
  intros Hw H8 Hl Hs. num Hw. unfold mVersionDigits, versionDigits. destruct (span (inset DIGIT) r) as [major r1] eqn:E. destruct major as [|d major]; [apply sim_fail, Hw|].
  destruct r1 as [|x mid]; [apply sim_panic|]. destruct (negb (x =? 46)); [apply sim_goto_bind, sim_fail, Hw|].
  eapply sim_strIntoW; [apply sim_FromPos; [exact Hw|]|exact Hw|auto|exact H8|exact Hl|].
  { pose proof (span_app (inset DIGIT) r _ _ E) as G. destruct Hs as [q ->]. exists (q ++ (d :: major) ++ [x]). rewrite G, <- !app_assoc. reflexivity. }
  intros b a1 r1 Hw1 K1 Hb Ub. apply sim_onRest. destruct (Nat.leb _ _); [apply sim_fail, Hw1|apply sim_ret; [exact Hw1|]]. split; [exact Hb|]. intros t Et. injection Et as <-. exact Ub.
Qed.
Lemma word_versionAfter e p a r : wfA e a -> 8 <= p -> p + 2 <= aused a -> sim e (inR p 2) (mVersionAfter p) parseVersionAfter (wverQ p (aused a)) a r.
Proof.
  intros Hw H8 Hl. num Hw. apply sim_onRest.
  assert (D : sim e (inR p 2) (mVersionDigits p r) (versionDigits r) (wverQ p (aused a)) a r) by (apply word_versionDigits; auto; exists []; reflexivity).
  assert (G : forall r', sim e (inR p 2) (mGoto r' ;~ set16 p (setTag 1)) (goto r' ;;; ret V20) (wverQ p (aused a)) a r).
  { intros r'. apply sim_goto_bind. apply sim_set16_end; [exact Hw|apply setTag_small; vm_compute; reflexivity|auto|]. intros a1 _ _ _ V. split; [exact V|discriminate]. }
  destruct r as [|x1 r1]; [apply sim_panic|]. destruct (x1 =? 50); [|exact D]. destruct r1 as [|x2 r2]; [apply sim_panic|]. destruct (x2 =? 46); [|exact D].
  destruct r2 as [|x3 r3]; [apply sim_panic|]. destruct (x3 =? 48); [|exact D]. destruct r3 as [|x4 r4]; [apply G|]. destruct (negb (IsDigit x4)); [apply G|exact D].
Qed.
Lemma word_version e p a r : wfA e a -> 8 <= p -> p + 2 <= aused a -> sim e (inR p 2) (mVersion p) parseVersion (wverQ p (aused a)) a r.
Proof.
  intros Hw H8 Hl. apply sim_onRest. destruct (versionStart r) as [r4|]; [|apply sim_fail, Hw]. apply sim_goto_bind. apply word_versionAfter; auto.
Qed.
Lemma wordM_eq w w' q m : w' = w -> wordM w q m -> wordM w' q m. Proof. now intros ->. Qed.
Lemma wordV_eq w w' q v : w' = w -> wordV w q v -> wordV w' q v. Proof. now intros ->. Qed.
(** The words of a start line parsed with [lo] bytes in use: a request line's method is its first string, its version its last; a status line's version is its first. *)
Definition wlineQ (this lo : N) : arena -> unit -> startline -> Prop := fun a' _ l =>
  match l with
  | SRequest mt _ v => wordM (g16 (mem a') (this + 4)) (lo + 2) mt /\ forall t, v = VOther t -> wordV (g16 (mem a') (this + 6)) (aused a' - len t) v
  | SStatus v _ _ => wordV (g16 (mem a') (this + 6)) (lo + 2) v
  end.
Lemma word_requestLine e this a r : netLen e -> wfA e a -> 8 <= this -> this + 20 <= aused a -> g16 (mem a) (this + 14) = NILPTR ->
  sim e (inR this 20) (mRequestLine this) parseRequestLine (wlineQ this (aused a)) a r.
Proof.
  intros Hn Hw H8 Hl Z. num Hw. unfold mRequestLine, parseRequestLine.
  eapply (sim_bind e _ (inR (this + 4) 2)); [apply word_method; [exact Hw|lia|lia]|exact Hw|slia|]. intros [] mt a1 r1 Hw1 K1 Hm. cbv beta in Hm. num K1.
  apply sim_posB; [apply posOnly_expect|exact Hw1|]. intros _ r2.
  eapply (sim_bind e _ (inR (this + 8) 10)); [apply (sim_addrSpec e Hn (this + 8)); [lia|exact Hw1|lia|replace (this + 8 + 6) with (this + 14) by lia; rewrite <- Z; eapply g16_frame; [agr K1|reflexivity]]|exact Hw1|slia|].
  intros [] ad a2 r3 Hw2 K2 _. num K2. clear Z.
  assert (Hm2 : wordM (g16 (mem a2) (this + 4)) (aused a + 2) mt) by (eapply wordM_eq; [eapply g16_frame; [agr K2|reflexivity]|exact Hm]).
  apply sim_posB; [apply posOnly_expect|exact Hw2|]. intros _ r4.
  eapply (sim_bind e _ (inR (this + 6) 2)); [apply word_version; [exact Hw2|lia|lia]|exact Hw2|slia|]. intros [] v a3 r5 Hw3 K3 (Hv & Uv). num K3.
  assert (Hm3 : wordM (g16 (mem a3) (this + 4)) (aused a + 2) mt) by (eapply wordM_eq; [eapply g16_frame; [agr K3|reflexivity]|exact Hm2]).
  apply sim_posB; [apply posOnly_liftB|exact Hw3|]. intros _ r6.
  apply sim_set8_end; [exact Hw3|slia|]. intros a4 Hw4 K4 U4 V4. num K4. cbn [wlineQ].
  split; [eapply wordM_eq; [eapply g16_frame; [agr K4|reflexivity]|exact Hm3]|]. intros t Et. specialize (Uv t Et).
  replace (aused a4 - len t) with (aused a2 + 2) by lia. eapply wordV_eq; [eapply g16_frame; [agr K4|reflexivity]|exact Hv].
Qed.
Lemma word_statusLine e this a r : wfA e a -> 8 <= this -> this + 20 <= aused a ->
  sim e (inR this 20) (mStatusLine this) parseStatusLine (wlineQ this (aused a)) a r.
Proof.
  intros Hw H8 Hl. num Hw. unfold mStatusLine, parseStatusLine.
  eapply (sim_bind e _ (inR (this + 6) 2)); [apply word_versionAfter; [exact Hw|lia|lia]|exact Hw|slia|]. intros [] v a1 r1 Hw1 K1 (Hv & _). num K1.
  apply sim_posB; [apply posOnly_expect|exact Hw1|]. intros _ r2.
  eapply (sim_bind e _ (inR (this + 2) 2) _ _ _ _ (fun a' _ c => True)); [|exact Hw1|slia|].
  { unfold pUIntW, pUInt. unfold sim, bind, onRest, mOnRest. cbn [rest used]. destruct (ParseUInt r2) as [[[c n] r3]|].
    - cbn. eexists tt, _. split; [reflexivity|]. split; [reflexivity|]. split; [|exact Logic.I].
      destruct Hw1 as (_ & _ & _ & Hc). repeat split; cbn; auto; try lia. intros i _ Hi. now apply p16_other.
    - cbn. eexists. split; [reflexivity|]. split; [reflexivity|]. destruct Hw1 as (_ & _ & _ & Hc). repeat split; cbn; auto; try lia. intros i _ Hi. now apply p16_other. }
  intros [] c a2 r3 Hw2 K2 _. num K2.
  assert (Hv2 : wordV (g16 (mem a2) (this + 6)) (aused a + 2) v) by (eapply wordV_eq; [eapply g16_frame; [agr K2|reflexivity]|exact Hv]).
  apply sim_posB; [apply posOnly_expect|exact Hw2|]. intros _ r4.
  eapply sim_strIntoW; [apply sim_EscapableEmpty, Hw2|exact Hw2|slia|lia|lia|]. intros t a3 r5 Hw3 K3 _ _. num K3.
  assert (Hv3 : wordV (g16 (mem a3) (this + 6)) (aused a + 2) v) by (eapply wordV_eq; [eapply g16_frame; [agr K3|reflexivity]|exact Hv2]).
  apply sim_posB; [apply posOnly_liftB|exact Hw3|]. intros _ r6.
  apply sim_set8_end; [exact Hw3|slia|]. intros a4 Hw4 K4 U4 V4. cbn [wlineQ]. eapply wordV_eq; [eapply g16_frame; [agr K4|reflexivity]|exact Hv3].
Qed.
Lemma word_startLine e this a r : netLen e -> wfA e a -> 8 <= this -> this + 20 <= aused a -> g16 (mem a) (this + 14) = NILPTR ->
  sim e (inR this 20) (mStartLine this) parseStartLine (wlineQ this (aused a)) a r.
Proof.
  intros Hn Hw H8 Hl Z. apply sim_onRest. destruct (versionStart r) as [r4|]; [apply sim_goto_bind; apply word_statusLine; auto|apply word_requestLine; auto].
Qed.
(** The words of the CSeq, the RAck and the Via header parsed with [lo] bytes in use. *)
Definition wordP (w q : N) (p : sentproto) : Prop := match p with Proto20 => w = setTag 1 | ProtoOther _ _ => w = q end.
Definition whvalQ (this lo : N) : arena -> unit -> hval -> Prop := fun a' _ v =>
  match v with
  | VCSeq _ m => wordM (g16 (mem a') (this + 4)) (lo + 2) m
  | VRAck _ _ m => wordM (g16 (mem a') (this + 8)) (lo + 2) m
  | VVia p _ _ _ _ => wordP (g16 (mem a') this) lo p
  | _ => True
  end.
Lemma word_cseq e this a r : wfA e a -> 8 <= this -> this + 8 <= aused a -> sim e (inR this 8) (mCSeq this) parseCSeq (whvalQ this (aused a)) a r.
Proof.
  intros Hw H8 Hl. num Hw. unfold mCSeq, parseCSeq. apply sim_num32; [exact Hw|slia|]. intros n a1 r1 Hw1 K1 U1 V1. num K1.
  apply sim_posB; [apply posOnly_LWS|exact Hw1|]. intros _ r2.
  apply sim_eta. eapply (sim_bind e _ (inR (this + 4) 2)); [apply word_method; [exact Hw1|lia|lia]|exact Hw1|slia|]. intros [] mt a2 r3 Hw2 K2 Hm. cbv beta in Hm. num K2.
  apply sim_ret; [exact Hw2|]. cbn [whvalQ]. rewrite <- U1. exact Hm.
Qed.
Lemma word_rack e this a r : wfA e a -> 8 <= this -> this + 12 <= aused a -> sim e (inR this 12) (mRAck this) parseRAck (whvalQ this (aused a)) a r.
Proof.
  intros Hw H8 Hl. num Hw. unfold mRAck, parseRAck. apply sim_num32; [exact Hw|slia|]. intros n a1 r1 Hw1 K1 U1 V1. num K1.
  apply sim_posB; [apply posOnly_LWS|exact Hw1|]. intros _ r2.
  apply sim_num32; [exact Hw1|slia|]. intros c a2 r3 Hw2 K2 U2 V2. num K2.
  apply sim_posB; [apply posOnly_LWS|exact Hw2|]. intros _ r4.
  apply sim_eta. eapply (sim_bind e _ (inR (this + 8) 2)); [apply word_method; [exact Hw2|lia|lia]|exact Hw2|slia|]. intros [] mt a3 r5 Hw3 K3 Hm. cbv beta in Hm. num K3.
  apply sim_ret; [exact Hw3|]. cbn [whvalQ]. replace (aused a) with (aused a2) by lia. exact Hm.
Qed.
Definition wprotoQ (this lo : N) : arena -> unit -> sentproto -> Prop := fun a' _ p => wordP (g16 (mem a') this) lo p.
Lemma word_otherProtocol e this a r : wfA e a -> 8 <= this -> this + 2 <= aused a -> sim e (inR this 2) (mOtherProtocol this) otherProtocol (wprotoQ this (aused a)) a r.
Proof.
  intros Hw H8 Hl. num Hw. unfold mOtherProtocol, otherProtocol.
  eapply (sim_bind e _ (orS nowhere (inR this 2))); [eapply sim_into; [exact Hw|apply sim_new; [exact Hw|lia|lia]|intros a' x v K (-> & U & _); num K; unfold two16; lia]|exact Hw|slia|].
  intros [] [] a1 r1 Hw1 K1 (q & a0 & (-> & U0 & Z0) & K0 & U1 & V1). num K1. num K0. clear Z0. apply sim_get16. rewrite V1.
  eapply sim_strInto; [apply sim_CString, Hw1|exact Hw1|slia|lia|lia|]. intros n a2 r2 Hw2 K2 _. num K2.
  assert (V2 : g16 (mem a2) this = aused a) by (rewrite <- V1; eapply g16_frame; [agr K2|reflexivity]).
  apply sim_posB; [apply posOnly_SWSMark|exact Hw2|]. intros _ r3.
  eapply sim_strInto; [apply sim_CString, Hw2|exact Hw2|slia|lia|lia|]. intros v a3 r4 Hw3 K3 _. num K3.
  assert (V3 : g16 (mem a3) this = aused a) by (rewrite <- V2; eapply g16_frame; [agr K3|reflexivity]).
  apply sim_eta. apply sim_posB; [apply posOnly_SWSMark|exact Hw3|]. intros [] r5. apply sim_ret; [exact Hw3|]. exact V3.
Qed.
Lemma word_sentProtocol e this a r : wfA e a -> 8 <= this -> this + 2 <= aused a -> sim e (inR this 2) (mSentProtocol this) parseSentProtocol (wprotoQ this (aused a)) a r.
Proof.
  intros Hw H8 Hl. apply sim_onRest. pose proof (word_otherProtocol e this a r Hw H8 Hl) as G.
  destruct r as [|x1 [|x2 [|x3 [|x4 [|x5 [|x6 [|x7 [|x8 r]]]]]]]]; try exact G.
  destruct (lc x1 115 && lc x2 105 && lc x3 112 && (x4 =? 47) && (x5 =? 50) && (x6 =? 46) && (x7 =? 48) && negb (IsDigit x8)); [|exact G].
  apply sim_goto_bind. apply sim_posB; [apply posOnly_SWSMark|exact Hw|]. intros _ r1. apply sim_set16_end; [exact Hw|vm_compute; reflexivity|slia|]. intros a1 _ _ _ V. exact V.
Qed.
Lemma wordP_eq w w' q p : w' = w -> wordP w q p -> wordP w' q p. Proof. now intros ->. Qed.
Lemma word_via e this a r : netLen e -> wfA e a -> 8 <= this -> this + 16 <= aused a -> zeros (mem a) this 14 -> sim e (inR this 14) (mVia this) parseVia (whvalQ this (aused a)) a r.
Proof.
  intros Hn Hw H8 Hl Z. num Hw. unfold mVia, parseVia.
  assert (Z1 : mem a (this + 5) = 0) by (apply Z; lia). assert (Z2 : g16 (mem a) (this + 12) = NILPTR) by (eapply zeros16; [exact Z|lia|lia]). clear Z.
  eapply (sim_bind e _ (inR this 2)); [apply word_sentProtocol; [exact Hw|lia|lia]|exact Hw|slia|]. intros [] p a1 r1 Hw1 K1 Hp. unfold wprotoQ in Hp. num K1.
  assert (Z3 : mem a1 (this + 5) = 0) by (rewrite (proj2 (proj2 (proj2 K1))); [exact Z1|lia|slia]).
  assert (Z4 : g16 (mem a1) (this + 12) = NILPTR) by (eapply g16_frame; [|exact Z2]; agr K1). clear Z1 Z2.
  eapply sim_strInto; [apply sim_CString, Hw1|exact Hw1|slia|lia|lia|]. intros tr a2 r2 Hw2 K2 _. num K2.
  assert (Hp2 : wordP (g16 (mem a2) this) (aused a) p) by (eapply wordP_eq; [eapply g16_frame; [agr K2|reflexivity]|exact Hp]).
  assert (Z5 : mem a2 (this + 5) = 0) by (rewrite (proj2 (proj2 (proj2 K2))); [exact Z3|lia|slia]).
  assert (Z6 : g16 (mem a2) (this + 12) = NILPTR) by (eapply g16_frame; [|exact Z4]; agr K2). clear Z3 Z4.
  apply sim_posB; [apply posOnly_LWS|exact Hw2|]. intros _ r3.
  eapply (sim_bind e _ (inR (this + 4) 6)); [apply (sim_hostPort e Hn (this + 4)); [exact Hw2|lia|lia|replace (this + 4 + 1) with (this + 5) by lia; exact Z5]|exact Hw2|slia|].
  intros [] h a3 r4 Hw3 K3 _. num K3.
  assert (Hp3 : wordP (g16 (mem a3) this) (aused a) p) by (eapply wordP_eq; [eapply g16_frame; [agr K3|reflexivity]|exact Hp2]).
  assert (Z7 : g16 (mem a3) (this + 12) = NILPTR) by (eapply g16_frame; [|exact Z6]; agr K3).
  apply (sim_sub e (inR (this + paramsOff KVia) 4)); [|cbn [paramsOff]; slia].
  apply (sim_lastParams KVia e this (aused a) a3 r4 (fun m hi => wordP (g16 m this) (aused a) p)); [exact Hw3|exact H8|cbn [paramsOff]; lia|exact Z7|lia|exact Hp3| |].
  - cbn [paramsOff]. intros a' K G. eapply wordP_eq; [eapply g16_frame; [agr K|reflexivity]|exact G].
  - intros a' t ps G _. exact G.
Qed.
Definition hasWord (k : hkind) : bool := match k with KVia | KCSeq | KRAck => true | _ => false end.
Lemma word_hval k e this a r : hasWord k = true -> netLen e -> wfA e a -> 8 <= this -> this + hvalSize k <= aused a -> zeros (mem a) this (hInit k) ->
  sim e (inR this (nextOff k)) (mHVal k this) (parseHVal k) (whvalQ this (aused a)) a r.
Proof.
  intros Hk Hn Hw H8 Hl Z. destruct k; try discriminate; cbn [mHVal parseHVal hvalSize hInit nextOff] in *.
  - apply word_via; auto.
  - apply word_cseq; auto.
  - apply word_rack; auto.
Qed.
Lemma word_header k e this a r : hasWord k = true -> netLen e -> wfA e a -> 8 <= this -> this + hvalSize k <= aused a ->
  sim e (inR this (hvalSize k)) (mHeaderParse k this) (parseHeader k) (whvalQ this (aused a)) a r.
Proof.
  intros Hk Hn Hw H8 Hl. num Hw. pose proof (hInit_le k) as (L1 & L2). unfold mHeaderParse, parseHeader. apply sim_init; [exact Hw|slia|]. intros a1 Hw1 K1 U1 V1. num K1.
  apply sim_posB; [apply posOnly_hName|exact Hw1|]. intros _ r1. apply sim_posB; [apply posOnly_liftB|exact Hw1|]. intros _ r2. rewrite <- U1.
  pose proof (nextOff_le k). apply (sim_sub e (inR this (nextOff k))); [apply word_hval; auto; lia|slia].
Qed.
Lemma word_startLineParse e this a r : netLen e -> wfA e a -> 8 <= this -> this + 20 <= aused a ->
  sim e (inR this 20) (mStartLineParse this) parseStartLine (wlineQ this (aused a)) a r.
Proof.
  intros Hn Hw H8 Hl. num Hw. apply sim_init; [exact Hw|slia|]. intros a1 Hw1 K1 U1 V1. num K1. rewrite <- U1.
  eapply sim_sub; [apply word_startLine; auto; try lia; eapply zeros16; [exact V1|lia|lia]|slia].
Qed.
Lemma start_startLineParse e this a r : netLen e -> wfA e a -> 8 <= this -> this + 20 <= aused a ->
  sim e (inR this 20) (mStartLineParse this) parseStartLine (startQ this (aused a)) a r.
Proof.
  intros Hn Hw H8 Hl. num Hw. apply sim_init; [exact Hw|slia|]. intros a1 Hw1 K1 U1 V1. num K1. rewrite <- U1.
  eapply sim_sub; [apply sim_startLine; auto; try lia; eapply zeros16; [exact V1|lia|lia]|slia].
Qed.
Lemma sim_both {X A} e (W : N -> Prop) (m : M X) (p : P A) (Q Q' : arena -> X -> A -> Prop) a r :
  sim e W m p Q a r -> sim e W m p Q' a r -> sim e W m p (fun a' x v => Q a' x v /\ Q' a' x v) a r.
Proof.
  unfold sim. destruct (p e (mkst r (aused a))) as [v s|s| |]; auto. intros (x & a' & H1 & H2 & H3 & H4) (x' & a'' & H1' & H2' & H3' & H4').
  rewrite H1 in H1'. injection H1' as <- <-. exists x, a'. auto.
Qed.

(** ** Encode *)
(** Text, or a crash. *)
Definition optApp (x y : option bytes) : option bytes := match x, y with Some b, Some b' => Some (b ++ b') | _, _ => None end.
Definition wopt (x : option bytes) : wres := match x with Some b => WOk b | None => WPanic end.
(** SipMethod.go:51-57 (SipMethod.Encode), with the address [q] of the string: from 32768 on it is taken for the number of a registered method. *)
Definition methodAt (q : N) (m : method) : option bytes :=
  match m with MKnown _ => Some (encMethod m) | MOther t => if q <? 32768 then Some t else nth_error methodTable (N.to_nat (q - 32768)) end.
(** SipVersion.go:33-43 (SipVersion.Encode), with the address of the string: from 32768 on it is taken for the number of version 2.0. *)
Definition versionAt (q : N) (v : version) : bytes := match v with V20 => s2b "SIP/2.0" | VOther t => if q <? 32768 then s2b "SIP/" ++ t else s2b "SIP/2.0" end.
(** SipHeaderVia.go:89-103 (SipHeaderVia.EncodeValue), with the address of the protocol's struct. *)
Definition protoAt (q : N) (p : sentproto) : bytes := match p with Proto20 => s2b "SIP/2.0/" | ProtoOther n v => if q <? 32768 then n ++ 47 :: v ++ [47] else s2b "SIP/2.0/" end.

Lemma tag_large w : 32768 <= w -> w < 65536 -> isPtr w = false /\ tagValue w = w - 32768.
Proof.
  intros H1 H2. set (n := w - 32768). assert (E : w = 32768 + n) by (unfold n; lia). assert (Ln : n < 2 ^ 15) by (unfold n; change (2 ^ 15) with 32768; lia).
  assert (Hn : N.land n 32768 = 0).
  { change 32768 with (2 ^ 15). apply N.bits_inj_0. intros k. rewrite N.land_spec, N.pow2_bits_eqb. destruct (N.eqb_spec 15 k) as [<-|]; [|apply andb_false_r].
    rewrite andb_true_r. destruct (N.eq_dec n 0) as [->|Hz]; [reflexivity|]. apply N.bits_above_log2. apply N.log2_lt_pow2; lia. }
  assert (El : w = N.lor 32768 n).
  { rewrite E. rewrite <- N.lxor_lor by (rewrite N.land_comm; exact Hn). rewrite N.add_nocarry_lxor by (rewrite N.land_comm; exact Hn). reflexivity. }
  unfold isPtr, tagValue. rewrite El. rewrite !N.land_lor_distr_l. rewrite Hn. split; [reflexivity|].
  change (N.land 32768 32767) with 0. rewrite N.lor_0_l. change 32767 with (N.ones 15). rewrite N.land_ones. apply N.mod_small, Ln.
Qed.
Section Enc.
  Variable e : env.
  Variable a : arena.
  Variable hi : N.
  Hypothesis Hw : wfA e a.
  Hypothesis Hhi : hi <= aused a.
  Hypothesis Hcap : hi < cap a.
  Lemma encw_app f g x y : f e a = wopt x -> g e a = wopt y -> (f +++ g) e a = wopt (optApp x y).
  Proof. unfold eApp. intros -> ->. destruct x, y; reflexivity. Qed.
  Lemma encw_of f b : f e a = WOk b -> f e a = wopt (Some b).
  Proof. exact (fun H => H). Qed.
  Lemma word_range lo q b : str (mem a) lo hi q b -> q < 65536.
  Proof. intros (_ & H & _). destruct Hw as (_ & H2 & H3 & H4). unfold two16 in H2. lia. Qed.
  Lemma encw_method p lo q m : repMethod (mem a) p lo hi m -> wordM (g16 (mem a) p) q m -> mEncMethod p e a = wopt (methodAt q m).
  Proof.
    intros H1 H2. unfold repMethod, wordM in *. destruct m as [i|t].
    - apply encw_of. apply (enc_method e a hi Hw Hhi Hcap p lo); [discriminate|exact H1].
    - subst q. unfold methodAt. destruct (N.ltb_spec (g16 (mem a) p) 32768) as [L|L].
      + unfold mEncMethod, eMem. rewrite isPtr_small by exact L. cbn [negb]. (eapply enc_cstr; [exact Hw|exact Hhi|exact Hcap|eassumption]).
      + pose proof (word_range lo _ t H1) as G. destruct (tag_large _ L G) as (E1 & E2). unfold mEncMethod, eMem. rewrite E1, E2. cbn [negb].
        destruct (nth_error methodTable _); reflexivity.
  Qed.
  Lemma encw_version p lo q v : repVersion (mem a) p lo hi v -> wordV (g16 (mem a) p) q v -> mEncVersion p e a = wopt (Some (versionAt q v)).
  Proof.
    intros H1 H2. unfold repVersion, wordV in *. destruct v as [|t].
    - apply encw_of. apply (enc_version e a hi Hw Hhi Hcap p lo V20); [discriminate|exact H1].
    - subst q. unfold versionAt. destruct (N.ltb_spec (g16 (mem a) p) 32768) as [L|L].
      + unfold mEncVersion, eMem. rewrite isPtr_small by exact L. cbn [negb]. apply (enc_app e a (eOut (s2b "SIP/")) _ (s2b "SIP/") t); [reflexivity|]. (eapply enc_cstr; [exact Hw|exact Hhi|exact Hcap|eassumption]).
      + pose proof (word_range lo _ t H1) as G. destruct (tag_large _ L G) as (E1 & _). unfold mEncVersion, eMem. rewrite E1. reflexivity.
  Qed.
  Lemma encw_proto this lo q p : 8 <= lo -> repProto (mem a) this lo hi p -> wordP (g16 (mem a) this) q p -> mEncProto this e a = wopt (Some (protoAt q p)).
  Proof.
    intros H8 H1 H2. unfold repProto, wordP in *. destruct p as [|n v].
    - apply encw_of. apply (enc_proto e a hi Hw Hhi Hcap this lo Proto20); [discriminate|exact H8|exact H1].
    - destruct H1 as (H1 & H3 & H4 & H5). subst q. unfold protoAt. destruct (N.ltb_spec (g16 (mem a) this) 32768) as [L|L].
      + unfold mEncProto, eMem. rewrite isPtr_small by exact L. cbn [negb]. eapply (enc_deref e a hi Hhi Hcap); [lia|].
        apply enc_app; [(eapply enc_cstr; [exact Hw|exact Hhi|exact Hcap|eassumption])|]. apply (enc_app e a (eOut [47]) _ [47] _); [reflexivity|]. apply enc_app; [(eapply enc_cstr; [exact Hw|exact Hhi|exact Hcap|eassumption])|reflexivity].
      + assert (G : g16 (mem a) this < 65536) by (destruct Hw as (_ & Hc & ? & ?); unfold two16 in Hc; lia). destruct (tag_large _ L G) as (E1 & _). unfold mEncProto, eMem. rewrite E1. reflexivity.
  Qed.
End Enc.
