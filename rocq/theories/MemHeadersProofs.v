(** Header blocks on the arena simulate the value layer. *)
From Verif Require Import Base Charset BaseLemmas Num Lws Str Monad MethodTree HeaderTree Lookup NameSpec NameProofs Host Uri Tel GenParam Addr StartLine Headers RawHeaders Msg Arena ArenaProofs ArenaOpsProofs StrProofs ArenaTop Layout Mem MemSim MemTac MemUri MemRep MemList Inv MemHostProofs MemParamProofs MemUriProofs MemSipUriProofs MemEnc MemEncProofs MemTel MemTelProofs MemGen MemGenProofs MemAddr MemAddrProofs MemSteps MemStart MemStartProofs MemHdr MemHdrProofs MemBlocks MemMsg MemMsgProofs.

(** A fact about the value. *)
Lemma sim_val {X A} e (W : N -> Prop) (m : M X) (p : P A) (Q : arena -> X -> A -> Prop) (V : A -> Prop) a r : sim e W m p Q a r ->
  (forall v s, p e (mkst r (aused a)) = Ok v s -> V v) -> sim e W m p (fun a' x v => Q a' x v /\ V v) a r.
Proof.
  unfold sim. intros H HV. destruct (p e _) as [v s|s| |]; auto. destruct H as (x & a' & H1 & H2 & H3 & H4). exists x, a'. repeat split; auto; try apply H3. eapply HV. reflexivity.
Qed.
(** A last step that runs on the memory side only. *)
Lemma sim_run {X A} e (W : N -> Prop) (m : M X) (v : A) (Q : arena -> X -> A -> Prop) a r x a1 : m e a r = MOk x a1 r -> aused a1 = aused a -> keeps W a a1 -> Q a1 x v -> sim e W m (ret v) Q a r.
Proof. intros E U K HQ. exists x, a1. auto. Qed.
(** Associativity in the value layer. *)
Lemma sim_assocP {X A B C} e (W : N -> Prop) (m : M X) (p : P A) (f : A -> P B) (g : B -> P C) Q a r : sim e W m (bind p (fun x => bind (f x) g)) Q a r -> sim e W m (bind (bind p f) g) Q a r.
Proof. unfold sim, bind. destruct (p e _); exact (fun H => H). Qed.
Lemma posOnly_Hcolon : posOnly pHcolon. Proof. apply posOnly_liftB. Qed.
Lemma posOnly_CRLF : posOnly pCRLF. Proof. apply posOnly_liftB. Qed.

Lemma recognised_small : forallb (fun q : bytes * N => snd q <? two16) recognisedNames = true.
Proof. vm_compute. reflexivity. Qed.
Lemma header_small r i mid : GetSipHeaderIndex r = Some (i, mid) -> i < two16.
Proof.
  intros E. destruct (N.eqb_spec i 0) as [->|Hi]; [reflexivity|]. destruct (header_sound _ _ _ E Hi) as (name & p & Hin & _). pose proof recognised_small as F. rewrite forallb_forall in F.
  specialize (F _ Hin). cbn [snd] in F. apply N.ltb_lt in F. exact F.
Qed.

(** ** Names and raw values *)
Definition nameQ (a : arena) : arena -> N * N -> option bytes * N -> Prop := fun a' x v =>
  snd x = snd v /\ snd v < two16 /\ fst x < two16 /\ ostr (mem a') (aused a) (aused a') (fst x) (fst v) /\ (snd v <> SIP_HDR_UNKNOWN -> fst v = None).
Lemma sim_headerName e a r : wfA e a -> sim e nowhere mHeaderName parseHeaderName (nameQ a) a r.
Proof.
  intros Hw. num Hw. apply sim_onRest. destruct (GetSipHeaderIndex r) as [[i mid]|] eqn:E; [|apply sim_panic]. pose proof (header_small _ _ _ E) as Hi.
  destruct (header_skips _ _ _ E) as (p & Ep & _). assert (Hs : suffix mid r) by (exists p; exact Ep).
  destruct (N.eqb_spec i SIP_HDR_UNKNOWN) as [Eu|Hu].
  - apply (sim_bind e _ nowhere _ _ _ _ (fun a' x (v : option bytes) => exists t, v = Some t /\ strQ a a' x t)); [|exact Hw|slia|].
    + eapply (sim_mapR e nowhere _ _ (fun t => Some t)); [apply sim_FromPos; auto|]. intros a' x v _ H. exists v. auto.
    + intros x v a1 r1 Hw1 K1 (t & -> & Hs1 & Hx & _). apply sim_posB; [exact posOnly_Hcolon|exact Hw1|]. intros _ r2. apply sim_ret; [exact Hw1|]. split; [reflexivity|]. split; [exact Hi|]. split; [exact Hx|]. split; [exact Hs1|].
      cbn [snd]. intros N0. contradiction.
  - apply (sim_bind e _ nowhere _ _ _ _ (fun a' x (v : option bytes) => a' = a /\ x = NILPTR /\ v = None)); [|exact Hw|slia|].
    { apply sim_goto_bind. apply sim_ret; auto. }
    intros x v a1 r1 _ _ (-> & -> & ->). apply sim_posB; [exact posOnly_Hcolon|exact Hw|]. intros _ r2. apply sim_ret; [exact Hw|].
    split; [reflexivity|]. split; [exact Hi|]. split; [reflexivity|]. split; reflexivity.
Qed.
Lemma sim_rawValue e a r : wfA e a -> sim e nowhere mRawValue rawValue (strQ a) a r.
Proof.
  intros Hw. apply sim_onRest. destruct (FindCrlf r) as [[v r']|].
  - apply sim_goto_bind. now apply sim_cstring.
  - apply sim_goto_bind. now apply sim_fail.
Qed.
Definition rawQ (a : arena) (b : N) : arena -> N -> raw -> Prop := fun a' p x => p = aused a /\ repRaw (mem a') b p (aused a') x /\ g16 (mem a') (p + 6) = NILPTR.
Lemma zeros_g16 m p n q : zeros m p n -> p <= q -> q + 2 <= p + n -> g16 m q = 0.
Proof. intros Z L1 L2. unfold g16. rewrite !Z by lia. reflexivity. Qed.
(** The common end of the three functions. *)
Lemma sim_rawEnd e a b np nm i r : wfA e a -> 8 <= b -> b + 8 <= aused a -> forall p, p + 8 = aused a -> b <= p -> g16 (mem a) p = i -> g16 (mem a) (p + 2) = np -> ostr (mem a) b p np nm -> g16 (mem a) (p + 6) = NILPTR ->
  sim e (inR (p + 4) 2) (mInto (p + 4) mRawValue ;~ mret p) (v <- rawValue ;; ret (mkraw i nm v)) (fun a' p' x => p' = p /\ repRaw (mem a') b p (aused a') x /\ g16 (mem a') (p + 6) = NILPTR) a r.
Proof.
  intros Hw H8 L p Ep Lb Hi Hn Ho Hz. num Hw.
  eapply (sim_bind e _ (orS nowhere (inR (p + 4) 2))); [eapply sim_into; [exact Hw|apply sim_rawValue; exact Hw|intros a' x v K (_ & Hq & _); exact Hq]|exact Hw|slia|].
  intros [] v a1 r1 Hw1 K1 (x & a0 & (Hs & _ & Eq & Ea) & K0 & U0 & V0). num K1. num K0.
  assert (Hs' : str (mem a1) (aused a) (aused a1) x v) by (rewrite U0; eapply str_frame; [agr K0|exact Hs]).
  carry1 K1. carry1 K1. carry1 K1. carry1 K1.
  apply sim_ret; [exact Hw1|]. split; [reflexivity|]. split; [|assumption]. unfold repRaw. cbn [rId rName rValue]. split; [lia|]. split; [lia|]. split; [assumption|]. split; [congruence|]. rewrite V0, Ep. exact Hs'.
Qed.
Lemma sim_rawEx e a b np nm i r : wfA e a -> 8 <= b -> b <= aused a -> i < two16 -> np < two16 -> ostr (mem a) b (aused a) np nm ->
  sim e nowhere (mRawEx np i) (rawHeader nm i) (rawQ a b) a r.
Proof.
  intros Hw H8 Lb Hi Hnp Ho. num Hw. unfold mRawEx, rawHeader.
  eapply (sim_bind e _ nowhere); [apply sim_new; [exact Hw|lia|lia]|exact Hw|slia|]. intros p [] a1 r1 Hw1 K1 (-> & U1 & Z1). num K1. repeat carry1 K1.
  apply sim_set16; [exact Hw1|exact Hi|slia|]. intros a2 Hw2 K2 U2 V2. num K2.
  apply sim_set16; [exact Hw2|exact Hnp|slia|]. intros a3 Hw3 K3 U3 V3. num K3. 
  assert (Zn : g16 (mem a1) (aused a + 6) = NILPTR) by (apply (zeros_g16 _ _ _ _ Z1); lia).
  clear Z1. repeat carry1 K2. repeat carry1 K3.
  eapply (sim_sub e (inR (aused a + 4) 2)); [|slia]. eapply sim_conseq; [apply (sim_rawEnd e a3 b np nm i r1 Hw3 H8 ltac:(lia) (aused a) ltac:(lia) Lb V2 V3); assumption|auto|].
  intros a' p x _ (-> & H). split; [reflexivity|exact H].
Qed.
Lemma sim_knownRaw e a i r : wfA e a -> i < two16 -> sim e nowhere (mKnownRaw i) (rawHeader None i) (rawQ a (aused a)) a r.
Proof.
  intros Hw Hi. num Hw. unfold mKnownRaw, rawHeader.
  eapply (sim_bind e _ nowhere); [apply sim_new; [exact Hw|lia|lia]|exact Hw|slia|]. intros p [] a1 r1 Hw1 K1 (-> & U1 & Z1). num K1.
  apply sim_set16; [exact Hw1|exact Hi|slia|]. intros a2 Hw2 K2 U2 V2. num K2.
  assert (Zn : g16 (mem a1) (aused a + 6) = NILPTR) by (apply (zeros_g16 _ _ _ _ Z1); lia).
  assert (Zm : g16 (mem a1) (aused a + 2) = NILPTR) by (apply (zeros_g16 _ _ _ _ Z1); lia).
  clear Z1. repeat carry1 K2.
  eapply (sim_sub e (inR (aused a + 4) 2)); [|slia]. eapply sim_conseq; [apply (sim_rawEnd e a2 (aused a) NILPTR None i r1 Hw2 ltac:(lia) ltac:(lia) (aused a) ltac:(lia) ltac:(lia) V2 Zm); [reflexivity|assumption]|auto|].
  intros a' p x _ (-> & H). split; [reflexivity|exact H].
Qed.

(** ** The table of header types *)
Lemma lookupSlot_in l i : lookupSlot l i <> O -> In (i, lookupSlot l i) l.
Proof. induction l as [|[j n] l IH]; cbn [lookupSlot In]; [congruence|]. destruct (N.eqb_spec i j) as [->|_]; [now left|]. intros H. right. auto. Qed.
Lemma slotTable_ok o : forallb (fun q : N * nat => Nat.ltb (snd q) (slotsNum o) && match nth_error (slotIndexes o) (snd q) with Some j => j =? fst q | None => false end) (slotTable o) = true.
Proof. destruct o; vm_compute; reflexivity. Qed.
Lemma slotTable_in o i s : In (i, s) (slotTable o) -> (s < slotsNum o)%nat /\ nth_error (slotIndexes o) s = Some i.
Proof.
  intros H. pose proof (slotTable_ok o) as F. rewrite forallb_forall in F. specialize (F _ H). cbn [fst snd] in F. apply andb_prop in F as [F1 F2]. apply Nat.ltb_lt in F1. split; [exact F1|].
  destruct (nth_error (slotIndexes o) s); [|discriminate]. apply N.eqb_eq in F2. congruence.
Qed.
Lemma needParse_slot o e i k multi : needParse o e i = Some (k, multi) -> slotKind o (slotOf o i) = Some (k, multi) /\ (slotOf o i < slotsNum o)%nat.
Proof.
  unfold needParse. intros H. assert (G : nth_error (slotIndexes o) (slotOf o i) = Some i /\ (slotOf o i < slotsNum o)%nat).
  { destruct (fHeaderAsRaw e) eqn:Er.
    - destruct (contentHdr i) eqn:Ei; [|discriminate]. unfold contentHdr in Ei. apply orb_prop in Ei as [Ei|Ei]; [apply orb_prop in Ei as [Ei|Ei]|]; apply N.eqb_eq in Ei; subst i; destruct o; (split; [reflexivity|vm_compute; lia]).
    - destruct (Nat.eqb_spec (slotOf o i) 0) as [E0|E0]; [discriminate|]. apply lookupSlot_in in E0. apply slotTable_in in E0 as [E1 E2]. auto. }
  destruct G as [G1 G2]. split; [|exact G2]. unfold slotKind. rewrite G1. destruct (_ : bool) in H; [exact H|discriminate].
Qed.
(** The main type of a Content-Type is not empty. *)
Lemma token_nonempty cs e s t s' : paCString cs e s = Ok t s' -> t <> [].
Proof. unfold paCString. destruct (negb _); [discriminate|]. destruct (span _ _) as [[|x tok] r]; destruct (negb _); try discriminate. destruct (negb _); [discriminate|]. intros E. injection E as <- _. discriminate. Qed.
Lemma repHVal_main k m this lo hi mn sb t ps : repHVal k m this lo hi (VType mn sb t ps) -> k = KContentType.
Proof. cbn [repHVal]. now intros (-> & _). Qed.
Lemma main_type e s v s' : parseSipX KContentType e s = Ok v s' -> mainOk v.
Proof.
  unfold parseSipX. intros E. apply bind_inv in E as (? & s1 & _ & E). cbn [parseHVal] in E. unfold parseContentType in E. apply bind_inv in E as (m & ? & Em & E). apply bind_inv in E as (? & ? & _ & E). apply bind_inv in E as (st & ? & _ & E). apply bind_inv in E as (tp & ? & _ & E). unfold ret in E. injection E as <- _.
  cbn [mainOk]. eapply token_nonempty; eauto.
Qed.

(** ** A value *)
Section Headers.
  Variables (e : env) (o : owner) (this lo : N).
  Hypothesis Hnet : netLen e.
  Hypothesis H8 : 8 <= this.
  Hypothesis Hs1 : this + slotsOff o + 2 * N.of_nat (slotsNum o) <= lo.
  Hypothesis Hs2 : this + rawOff o + 2 <= lo.
  Notation W := (hdrW o this lo).
  Notation HI a h := (HInv o (mem a) this lo (aused a) h).

  Lemma HInv_keeps a a' hi h : keeps nowhere a a' -> lo <= aused a -> hi <= aused a -> HInv o (mem a) this lo hi h -> HInv o (mem a') this lo hi h.
  Proof.
    intros K L1 L2 H. num K. assert (Ag : agreeR (mem a) (mem a') this (aused a)) by (eapply keeps_agree; [exact K|lia|lia|slia]). unfold rawOff in *.
    eapply HInv_frame; [| | |exact H].
    - eapply agreeR_sub; [exact Ag|lia|lia].
    - intros s Hs. unfold slotAt. unfold g16. rewrite !Ag by lia. reflexivity.
    - unfold rawOff. unfold g16. rewrite !Ag by lia. reflexivity.
  Qed.
  (** A value read but not yet set. *)
  Definition pending (i : N) (k : hkind) (a : arena) (p : N) (v : hval) (h : hset) : Prop :=
    exists hi, HInv o (mem a) this lo hi h /\ lo <= hi /\ hi <= p /\ itemOk o (mem a) p p (aused a) (IVal (slotOf o i) v) /\ (forall multi, slotKind o (slotOf o i) = Some (k, multi) -> multi = true -> g16 (mem a) (p + nextOff k) = NILPTR).
  Lemma sim_readValue i k multi a r h : wfA e a -> slotKind o (slotOf o i) = Some (k, multi) -> lo <= aused a -> HI a h ->
    sim e nowhere (mSipX k) (parseSipX k) (fun a' p v => pending i k a' p v h) a r.
  Proof.
    intros Hw Ek Hla HJ. num Hw. eapply sim_conseq; [eapply (sim_val e nowhere) with (V := fun v : hval => k = KContentType -> mainOk v); [apply sim_sipX; auto|]|auto|].
    { intros v s E ->. eapply main_type; eauto. }
    intros a' p v K ((-> & L & HR & Z) & HM). num K. exists (aused a). split; [eapply HInv_keeps; eauto; lia|]. split; [lia|]. split; [lia|]. split.
    - cbn [itemOk]. rewrite Ek. split; [reflexivity|]. split; [exact L|]. split; [exact HR|]. destruct v; cbn [mainOk]; auto. apply repHVal_main in HR. apply HM in HR. exact HR.
    - intros multi' E' ->. pose proof (multi_next o _ k E'). apply (zeros_g16 _ _ _ _ Z); lia.
  Qed.
  Lemma set_pending i k multi a p v h r : wfA e a -> slotKind o (slotOf o i) = Some (k, multi) -> (slotOf o i < slotsNum o)%nat -> pending i k a p v h ->
    exists a1, mSetCommon o i multi k this p e a r = MOk tt a1 r /\ aused a1 = aused a /\ keeps W a a1 /\ HI a1 (setCommon o i multi h v).
  Proof.
    intros Hw Ek Hs (hi & HJ & L1 & L2 & Hok & Hz). destruct (setCommon_run o e a this lo hi Hw H8 ltac:(lia) Hs1 Hs2 h i k multi p p v r HJ L2 Ek Hs Hok) as (a1 & R & U & K & J).
    - intros Em. apply (Hz multi Ek Em).
    - exists a1. split; [exact R|]. split; [exact U|]. split; [exact K|]. rewrite U. exact J.
  Qed.
  Lemma sim_multi i k : slotKind o (slotOf o i) = Some (k, true) -> (slotOf o i < slotsNum o)%nat -> forall p h v a r, wfA e a -> lo <= aused a -> pending i k a p v h ->
    sim e W (loopM (mMultiBody o i k this) p) (loopP (multiBody k (setCommon o i true)) (h, v)) (fun a' _ h' => lo <= aused a' /\ HI a' h') a r.
  Proof.
    intros Ek Hs p h v a r Hw Hla HP. apply (sim_loop e W _ _ (fun a p (hv : hset * hval) => lo <= aused a /\ pending i k a p (snd hv) (fst hv)) (fun a' _ h' => lo <= aused a' /\ HI a' h')); [|exact Hw|split; [exact Hla|exact HP]].
    clear p h v a r Hw Hla HP. intros p [h v] a r Hw (Hla & HP). cbn [fst snd] in HP. apply sim_onRest. cbn [fst snd].
    destruct (set_pending i k true a p v h r Hw Ek Hs HP) as (a1 & R & U & K & J). pose proof (keeps_wf _ _ _ _ Hw K) as Hw1. num K. num Hw1.
    destruct r as [|x r1].
    - eapply sim_left; [exact R|exact K|exact U|]. apply sim_ret; [exact Hw1|]. split; [lia|exact J].
    - eapply sim_left; [exact R|exact K|exact U|]. destruct (IsOnlyCRLF (x :: r1)).
      { apply sim_goto_bind. apply sim_ret; [exact Hw1|]. split; [lia|exact J]. }
      destruct (ParseSWSMarkCanOmmit 44 (x :: r1)) as [[r' []] []].
      2-4: apply sim_posB; [exact posOnly_CRLF|exact Hw1|]; intros _ r2; (apply sim_ret; [exact Hw1|]; split; [lia|exact J]).
      apply sim_goto_bind. eapply (sim_bind e _ nowhere); [apply (sim_readValue i k true a1 r' (setCommon o i true h v)); [exact Hw1|exact Ek|lia|exact J]|exact Hw1|slia|].
      intros p' v' a2 r2 Hw2 K2 HP2. num K2. apply sim_ret; [exact Hw2|]. split; [lia|exact HP2].
  Qed.

  Lemma sim_oneHeader np nm i h b hi a r : wfA e a -> lo <= hi -> hi <= b -> b <= aused a -> HInv o (mem a) this lo hi h -> i < two16 -> np < two16 -> ostr (mem a) b (aused a) np nm -> (i <> SIP_HDR_UNKNOWN -> nm = None) ->
    sim e W (mOneHeader o this np i) (oneHeader o h nm i) (fun a' _ h' => lo <= aused a' /\ HI a' h') a r.
  Proof.
    intros Hw Lh Lb La HJ Hi Hnp Ho Hk. num Hw. apply sim_withEnv. destruct (needParse o e i) as [[k multi]|] eqn:En.
    - apply needParse_slot in En as (Ek & Hs). eapply (sim_bind e _ nowhere); [apply (sim_readValue i k multi a r h); [exact Hw|exact Ek|lia|eapply HInv_hi; [exact HJ|lia]]|exact Hw|slia|].
      intros p v a1 r1 Hw1 K1 HP. num K1. destruct multi.
      + eapply sim_sub; [apply sim_multi; [exact Ek|exact Hs|exact Hw1|lia|exact HP]|intros ? _ ?; repeat (first [assumption|left])].
      + apply sim_posB; [exact posOnly_CRLF|exact Hw1|]. intros _ r2. destruct (set_pending i k false a1 p v h r2 Hw1 Ek Hs HP) as (a2 & R & U & K & J).
        eapply sim_run; [exact R|exact U|eapply keeps_sub; [exact K|intros ? _ ?; repeat (first [assumption|left])]|]. split; [lia|exact J].
    - assert (Fin : forall p x a1 r1 b', wfA e a1 -> keeps nowhere a a1 -> hi <= b' -> repRaw (mem a1) b' p (aused a1) x -> g16 (mem a1) (p + 6) = NILPTR ->
          sim e (orS W (from (aused a))) (mAddRaw o this p) (ret (addRaw h x)) (fun a' _ h' => lo <= aused a' /\ HI a' h') a1 r1).
      { intros p x a1 r1 b' Hw1 K1 Lb' HR Hz. num K1. assert (HJ1 : HInv o (mem a1) this lo hi h) by (eapply HInv_keeps; [exact K1|lia|lia|exact HJ]).
        destruct (addRaw_run o e a1 this lo hi Hw1 H8 ltac:(lia) Hs1 Hs2 h b' p x r1 HJ1 Lb' HR Hz) as (a2 & R & U & K & J).
        eapply sim_run; [exact R|exact U|eapply keeps_sub; [exact K|intros ? _ ?; repeat (first [assumption|left])]|]. split; [lia|]. rewrite U. exact J. }
      destruct (N.eqb_spec i SIP_HDR_UNKNOWN) as [->|Hu].
      + eapply (sim_bind e _ nowhere); [apply (sim_rawEx e a b np nm SIP_HDR_UNKNOWN r); auto; lia|exact Hw|slia|]. intros p x a1 r1 Hw1 K1 (Ep & HR & Hz). apply (Fin p x a1 r1 b); auto.
      + rewrite (Hk Hu). eapply (sim_bind e _ nowhere); [apply (sim_knownRaw e a i r); auto|exact Hw|slia|]. intros p x a1 r1 Hw1 K1 (Ep & HR & Hz). apply (Fin p x a1 r1 (aused a)); auto. lia.
  Qed.

  Lemma sim_parseHeaders a r : wfA e a -> lo <= aused a -> HI a (emptyHdrs o) -> sim e W (mParseHeaders o this) (parseHeaders o) (fun a' _ h' => lo <= aused a' /\ HI a' h') a r.
  Proof.
    intros Hw Hla HJ. unfold mParseHeaders, parseHeaders. apply (sim_loop e W _ _ (fun a (_ : unit) h => lo <= aused a /\ HI a h) (fun a (_ : unit) h => lo <= aused a /\ HI a h)); [|exact Hw|auto].
    clear a r Hw Hla HJ. intros [] h a r Hw (Hla & HJ). num Hw. apply sim_onRest. destruct r as [|x r1]; [apply sim_ret; auto|].
    destruct (IsCRLF (x :: r1)); [apply sim_goto_bind; apply sim_ret; auto|].
    eapply (sim_bind e _ nowhere); [apply sim_headerName; exact Hw|exact Hw|slia|]. intros [np i0] [nm i] a1 r2 Hw1 K1 (E1 & H1 & H2 & H3 & H4). cbn [fst snd] in *. subst i0. num K1.
    eapply (sim_bind e _ W); [apply (sim_oneHeader np nm i h (aused a) (aused a)); auto; [lia|eapply HInv_keeps; [exact K1|lia|lia|exact HJ]]|exact Hw1|intros ? _ ?; repeat (first [assumption|left])|].
    intros [] h' a2 r3 Hw2 K2 HQ. apply sim_ret; [exact Hw2|exact HQ].
  Qed.
End Headers.

(** ** ParseRawHeaders *)
Definition rawTr (m : N -> N) (lo hi head prev : N) (hs : list raw) : Prop :=
  exists tr, blocks (itemOk OMsg) m lo hi tr /\ chain 6 m head (iptrs 0 tr) /\ prev = last (iptrs 0 tr) NILPTR /\ ivals 0 tr = map IRaw hs.
Definition repRaws (m : N -> N) (lo hi head : N) (hs : list raw) : Prop := exists prev, rawTr m lo hi head prev hs.
Lemma rawTr_frame m m' lo hi head prev hs : agreeR m m' lo hi -> rawTr m lo hi head prev hs -> rawTr m' lo hi head prev hs.
Proof.
  intros A (tr & H1 & H2 & H3 & H4). exists tr. split; [eapply (blocks_agree (itemOk_frame OMsg) (itemOk_in OMsg)); eauto|]. split; [|auto].
  eapply chain_ext; [|exact H2]. intros p Hp. pose proof (iptrs_next OMsg _ _ _ _ _ _ _ H1 Hp (next_raw OMsg)). unfold g16. rewrite !A by lia. reflexivity.
Qed.
Lemma rawTr_hi m lo hi hi' head prev hs : rawTr m lo hi head prev hs -> hi <= hi' -> rawTr m lo hi' head prev hs.
Proof. intros (tr & H1 & H2) L. exists tr. split; [eapply blocks_hi; eauto|exact H2]. Qed.
Lemma repRaws_frame m m' lo hi head hs : agreeR m m' lo hi -> repRaws m lo hi head hs -> repRaws m' lo hi head hs.
Proof. intros A (prev & H). exists prev. eapply rawTr_frame; eauto. Qed.

Lemma rawAppend_run e a lo hi head prev hs b p x r : wfA e a -> 8 <= lo -> rawTr (mem a) lo hi head prev hs -> hi <= b -> repRaw (mem a) b p (aused a) x -> g16 (mem a) (p + 6) = NILPTR ->
  exists hp a1, mAppend 6 (head, prev) p e a r = MOk hp a1 r /\ aused a1 = aused a /\ keeps (from lo) a a1 /\ rawTr (mem a1) lo (aused a) (fst hp) (snd hp) (hs ++ [x]).
Proof.
  intros Hw H8 (tr & B & HC & Ep & HV) Hb Hok Hz. num Hw. set (inn := itemOk_in OMsg). set (fr := itemOk_frame OMsg).
  assert (Hok' : itemOk OMsg (mem a) b p (aused a) (IRaw x)) by exact Hok. clear Hok.
  pose proof (inn _ _ _ _ _ Hok') as (P1 & P2 & P3). pose proof (blocks_le inn B) as P4. pose proof (blocks_snoc B Hb (N.le_refl _) Hok') as B'.
  assert (Hp16 : p < two16) by (unfold two16; lia). unfold mAppend. cbn [fst snd].
  assert (E1 : iptrs 0 (tr ++ [(b, p, aused a, IRaw x)]) = iptrs 0 tr ++ [p]) by (unfold iptrs; rewrite ptrsOf_snoc; reflexivity).
  assert (E2 : ivals 0 (tr ++ [(b, p, aused a, IRaw x)]) = map IRaw (hs ++ [x])) by (unfold ivals; rewrite valsOf_snoc; fold (ivals 0 tr); rewrite HV, map_app; reflexivity).
  destruct (N.eqb_spec prev NILPTR) as [E0|E0].
  - assert (N0 : iptrs 0 tr = []).
    { destruct (iptrs 0 tr) as [|q ps] eqn:Eq; [reflexivity|]. exfalso. assert (Hin : In (last (q :: ps) NILPTR) (iptrs 0 tr)) by (rewrite Eq; apply last_in; discriminate).
      apply (ptrsOf_bound inn B) in Hin. rewrite <- Ep, E0 in Hin. unfold NILPTR in Hin. lia. }
    eexists _, a. split; [reflexivity|]. split; [reflexivity|]. split; [apply (keeps_refl _ e a Hw)|]. cbn [fst snd]. exists (tr ++ [(b, p, aused a, IRaw x)]). split; [exact B'|]. rewrite E1, N0. cbn [app chain last].
    split; [split; [reflexivity|exact Hz]|]. split; [reflexivity|exact E2].
  - assert (Hne : iptrs 0 tr <> []) by (intros E; rewrite E in Ep; cbn in Ep; congruence).
    assert (Hl : In prev (iptrs 0 tr)) by (rewrite Ep; now apply last_in). pose proof (iptrs_next OMsg _ _ _ _ _ _ _ B Hl (next_raw OMsg)) as (Q1 & Q2).
    eexists _, _. split; [reflexivity|]. split; [reflexivity|]. split; [apply (keeps_write e); [exact Hw|slia]|]. cbn [fst snd mem setMem]. exists (tr ++ [(b, p, aused a, IRaw x)]).
    split; [eapply (blocks_link (lid := itemLid) fr inn); [exact B'| |exact (next_raw OMsg)]; fold iptrs; rewrite E1; apply in_or_app; left; exact Hl|].
    split; [rewrite Ep; eapply (chain_append (lid := itemLid) inn); [exact B'|reflexivity|exact Hp16|exact Hne|exact (next_raw OMsg)|exact Hz|exact HC]|].
    split; [rewrite E1, last_last; reflexivity|exact E2].
Qed.
Lemma sim_parseRawHeaders e a r : wfA e a -> sim e nowhere mParseRawHeaders parseRawHeaders (fun a' p hs => repRaws (mem a') (aused a) (aused a') p hs) a r.
Proof.
  intros Hw. num Hw. unfold mParseRawHeaders, parseRawHeaders. set (lo := aused a).
  apply (sim_sub e (from lo)); [|unfold lo; slia]. set (J := fun a (hp : N * N) hs => lo <= aused a /\ rawTr (mem a) lo (aused a) (fst hp) (snd hp) hs).
  apply (sim_bindR e _ (from lo) _ _ _ J); [|exact Hw|auto|].
  - apply (sim_loop e (from lo) _ _ J J); [|exact Hw|]. 2:{ split; [unfold lo; lia|]. exists []. split; [cbn; unfold lo; lia|]. split; [reflexivity|]. split; reflexivity. }
    assert (L8 : 8 <= lo) by (unfold lo; lia). clearbody lo. clear a r Hw Nw Nw0 Nw1. intros [head prev] hs a r Hw (Hla & HJ). cbn [fst snd] in HJ. num Hw. apply sim_onRest. destruct r as [|x r1]; [apply sim_ret; [exact Hw|split; auto]|].
    destruct (IsCRLF (x :: r1)); [apply sim_goto_bind; apply sim_ret; [exact Hw|split; auto]|].
    eapply (sim_bind e _ nowhere); [apply sim_headerName; exact Hw|exact Hw|slia|]. intros [np i0] [nm i] a1 r2 Hw1 K1 (E1 & H1 & H2 & H3 & H4). cbn [fst snd] in *. subst i0. num K1.
    apply sim_assoc. apply sim_assocP. eapply (sim_bind e _ nowhere); [apply (sim_rawEx e a1 (aused a) np nm i r2); auto; lia|exact Hw1|slia|]. intros p x0 a2 r3 Hw2 K2 (Ep & HR & Hz). num K2.
    destruct (rawAppend_run e a2 lo (aused a) head prev hs (aused a) p x0 r3 Hw2 L8) as (hp & a3 & R & U & K & HJ3); auto; [|lia|].
    { eapply rawTr_frame; [|eapply rawTr_frame; [|exact HJ]]; [agr K2|agr K1]. }
    eapply sim_left; [exact R|eapply keeps_sub; [exact K|slia]|exact U|]. apply sim_ret; [eapply keeps_wf; eauto|]. split; [lia|]. rewrite U. exact HJ3.
  - intros [head prev] hs a1 r1 Hw1 K1 (Hl & HJ). apply sim_ret; [exact Hw1|]. exists prev. exact HJ.
Qed.
