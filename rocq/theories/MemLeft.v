(** What a failed SipMsg.Parse leaves in the struct represents [leftMsg]. *)
From Verif Require Import Base Charset BaseLemmas Num Lws Str Monad MethodTree HeaderTree Lookup NameSpec NameProofs Host Uri Tel GenParam Addr StartLine Headers RawHeaders Msg Arena ArenaProofs ArenaOpsProofs StrProofs ArenaTop Layout Mem MemSim MemTac MemUri MemRep MemList Inv MemHostProofs MemParamProofs MemUriProofs MemSipUriProofs MemEnc MemEncProofs MemTel MemTelProofs MemGen MemGenProofs MemAddr MemAddrProofs MemSteps MemStart MemStartProofs MemHdr MemHdrProofs MemBlocks MemMsg MemMsgProofs MemHeadersProofs MemBodyProofs MemLine MemMsgEnc MemMsgTop Left.

(** ** The simulation, with a claim about failure *)
Definition simF {X A} (e : env) (W : N -> Prop) (m : M X) (p : P A) (Q : arena -> X -> A -> Prop) (F : arena -> Prop) (a : arena) (r : bytes) : Prop :=
  match p e (mkst r (aused a)) with
  | Ok v s => exists x a', m e a r = MOk x a' (rest s) /\ aused a' = used s /\ keeps W a a' /\ Q a' x v
  | Fail s => exists a', m e a r = MFail a' (rest s) /\ aused a' = used s /\ keeps W a a' /\ F a'
  | Panic => bigTables e = false -> m e a r = MPanic
  | Loop => m e a r = MLoop
  end.
Lemma simF_conseq {X A} e (W W' : N -> Prop) (m : M X) (p : P A) (Q Q' : arena -> X -> A -> Prop) (F F' : arena -> Prop) a r :
  simF e W m p Q F a r -> (forall i, 8 <= i < aused a -> W i -> W' i) -> (forall a' x v, keeps W a a' -> Q a' x v -> Q' a' x v) -> (forall a', keeps W a a' -> F a' -> F' a') -> simF e W' m p Q' F' a r.
Proof.
  unfold simF. intros H HW HQ HF. destruct (p e _) as [v s|s| |]; auto.
  - destruct H as (x & a' & E & U & K & q). exists x, a'. split; [exact E|]. split; [exact U|]. split; [exact (keeps_sub _ _ _ _ K HW)|eauto].
  - destruct H as (a' & E & U & K & q). exists a'. split; [exact E|]. split; [exact U|]. split; [exact (keeps_sub _ _ _ _ K HW)|eauto].
Qed.
Lemma simF_of {X A} e (W : N -> Prop) (m : M X) (p : P A) Q (F : arena -> Prop) a r : sim e W m p Q a r -> (forall a' s, p e (mkst r (aused a)) = Fail s -> aused a' = used s -> keeps W a a' -> F a') -> simF e W m p Q F a r.
Proof. unfold sim, simF. destruct (p e _) as [v s|s| |]; auto. intros (a' & E & U & K) H. exists a'. split; [exact E|]. split; [exact U|]. split; [exact K|eauto]. Qed.
Lemma simF_sim {X A} e (W : N -> Prop) (m : M X) (p : P A) Q (F : arena -> Prop) a r : simF e W m p Q F a r -> sim e W m p Q a r.
Proof. unfold sim, simF. destruct (p e _) as [v s|s| |]; auto. intros (a' & E & U & K & _). eauto. Qed.
Lemma simF_bind {X Y A B} e (W W1 : N -> Prop) (m : M X) (p : P A) (f : X -> M Y) (g : A -> P B) Q1 Q (F1 F : arena -> Prop) a r :
  simF e W1 m p Q1 F1 a r -> wfA e a -> (forall i, 8 <= i < aused a -> W1 i -> W i) -> (forall a', keeps W1 a a' -> F1 a' -> F a') ->
  (forall x v a1 r1, p e (mkst r (aused a)) = Ok v (mkst r1 (aused a1)) -> wfA e a1 -> keeps W1 a a1 -> Q1 a1 x v -> simF e (orS W (from (aused a))) (f x) (g v) Q F a1 r1) ->
  simF e W (mbind m f) (bind p g) Q F a r.
Proof.
  unfold simF, bind, mbind. intros H Hw HW HF K. destruct (p e (mkst r (aused a))) as [v s|s| |] eqn:Ep.
  - destruct H as (x & a1 & E & U & K1 & q). rewrite E. pose proof (keeps_wf _ _ _ _ Hw K1) as Hw1. destruct s as [sr su]. cbn [rest used] in *. subst su.
    specialize (K x v a1 sr eq_refl Hw1 K1 q). pose proof (keeps_sub _ _ _ _ K1 HW) as K1'.
    destruct (g v e (mkst sr (aused a1))) as [v2 s2|s2| |]; auto.
    + destruct K as (y & a2 & E2 & U2 & K2 & q2). exists y, a2. split; [exact E2|]. split; [exact U2|]. split; [exact (keeps_trans _ _ _ _ K1' K2)|exact q2].
    + destruct K as (a2 & E2 & U2 & K2 & q2). exists a2. split; [exact E2|]. split; [exact U2|]. split; [exact (keeps_trans _ _ _ _ K1' K2)|exact q2].
  - destruct H as (a1 & E & U & K1 & q). rewrite E. exists a1. split; [reflexivity|]. split; [exact U|]. split; [exact (keeps_sub _ _ _ _ K1 HW)|auto].
  - intros N0. now rewrite H.
  - now rewrite H.
Qed.
(** The first part only needs [sim]. *)
Lemma simF_bindS {X Y A B} e (W W1 : N -> Prop) (m : M X) (p : P A) (f : X -> M Y) (g : A -> P B) Q1 Q (F : arena -> Prop) a r :
  sim e W1 m p Q1 a r -> wfA e a -> (forall i, 8 <= i < aused a -> W1 i -> W i) -> (forall a' s, p e (mkst r (aused a)) = Fail s -> keeps W1 a a' -> F a') ->
  (forall x v a1 r1, p e (mkst r (aused a)) = Ok v (mkst r1 (aused a1)) -> wfA e a1 -> keeps W1 a a1 -> Q1 a1 x v -> simF e (orS W (from (aused a))) (f x) (g v) Q F a1 r1) ->
  simF e W (mbind m f) (bind p g) Q F a r.
Proof. intros H Hw HW HF K. eapply (simF_bind e W W1 m p f g Q1 Q F); [eapply simF_of; [exact H|intros a' s E _ K'; eapply HF; eauto]|exact Hw|exact HW|auto|exact K]. Qed.
Lemma simF_pos {X A B} e (W : N -> Prop) (p : P B) (k : B -> M X) (g : B -> P A) (Q : arena -> X -> A -> Prop) (F : arena -> Prop) a r : posOnly p -> wfA e a -> (forall s, p e (mkst r (aused a)) = Fail s -> F a) ->
  (forall x r1, p e (mkst r (aused a)) = Ok x (mkst r1 (aused a)) -> simF e (orS W (from (aused a))) (k x) (g x) Q F a r1) -> simF e W (mbind (mPos p) k) (bind p g) Q F a r.
Proof.
  intros Hp Hw HF H. eapply (simF_bind e _ nowhere _ _ _ _ (fun a' x v => a' = a /\ x = v) _ F); [|exact Hw|slia|auto|].
  - unfold simF, mPos. specialize (Hp e (mkst r (aused a))). destruct (p e (mkst r (aused a))) as [v s|s| |] eqn:E; auto.
    + exists v, a. repeat split; auto; apply (keeps_refl nowhere e a Hw).
    + exists a. split; [reflexivity|]. split; [auto|]. split; [apply (keeps_refl nowhere e a Hw)|eauto].
  - intros x v a1 r1 E _ _ (-> & ->). apply H, E.
Qed.
Lemma simF_ret {X A} e W (x : X) (v : A) (Q : arena -> X -> A -> Prop) F a r : wfA e a -> Q a x v -> simF e W (mret x) (ret v) Q F a r.
Proof. intros Hw q. exists x, a. cbn. repeat split; auto; apply (keeps_refl W e a Hw). Qed.
Lemma simF_fail {X A} e W (Q : arena -> X -> A -> Prop) (F : arena -> Prop) a r : wfA e a -> F a -> simF e W mfail pfail Q F a r.
Proof. intros Hw q. exists a. cbn. split; [reflexivity|]. split; [reflexivity|]. split; [apply (keeps_refl W e a Hw)|exact q]. Qed.
Lemma simF_onRest {X A} e W (m : bytes -> M X) (p : bytes -> P A) Q F a r : simF e W (m r) (p r) Q F a r -> simF e W (mOnRest m) (onRest p) Q F a r.
Proof. exact (fun H => H). Qed.
Lemma simF_goto_bind {X A} e W r' (f : unit -> M X) (g : unit -> P A) Q F a r : simF e W (f tt) (g tt) Q F a r' -> simF e W (mbind (mGoto r') f) (bind (goto r') g) Q F a r.
Proof. exact (fun H => H). Qed.
Lemma simF_withEnv {X A} e W (m : env -> M X) (p : env -> P A) Q F a r : simF e W (m e) (p e) Q F a r -> simF e W (mWithEnv m) (withEnv p) Q F a r.
Proof. exact (fun H => H). Qed.
Lemma simF_left {X Y A} e W (m : M X) (f : X -> M Y) (p : P A) x a1 Q F a r :
  m e a r = MOk x a1 r -> keeps W a a1 -> aused a1 = aused a -> simF e (orS W (from (aused a))) (f x) p Q F a1 r -> simF e W (mbind m f) p Q F a r.
Proof.
  unfold simF, mbind. intros -> K U H. rewrite U in H. destruct (p e _) as [v s|s| |]; auto.
  - destruct H as (y & a2 & E & U2 & K2 & q). exists y, a2. split; [exact E|]. split; [exact U2|]. split; [exact (keeps_trans _ _ _ _ K K2)|exact q].
  - destruct H as (a2 & E & U2 & K2 & q). exists a2. split; [exact E|]. split; [exact U2|]. split; [exact (keeps_trans _ _ _ _ K K2)|exact q].
Qed.
Lemma simF_init {X A} e (W : N -> Prop) p n (f : unit -> M X) (q : P A) Q F a r : wfA e a -> (forall i, 8 <= i < aused a -> inR p n i -> W i) ->
  (forall a1, wfA e a1 -> keeps (inR p n) a a1 -> aused a1 = aused a -> (forall i, inR p n i -> mem a1 i = 0) -> simF e (orS W (from (aused a))) (f tt) q Q F a1 r) ->
  simF e W (mbind (mInit p n) f) q Q F a r.
Proof.
  intros Hw HW H. assert (K : keeps (inR p n) a (setMem a (ZeroMem (mem a) p n))).
  { destruct Hw as (_ & _ & _ & Hc). repeat split; cbn; auto; try lia. intros i _ Hi. unfold inR in Hi. rewrite ZeroMem_spec. destruct ((p <=? i) && (i <? p + n)) eqn:E; [lia|reflexivity]. }
  eapply (simF_left _ _ _ _ _ tt (setMem a (ZeroMem (mem a) p n))); [reflexivity|exact (keeps_sub _ _ _ _ K HW)|reflexivity|].
  apply H; [exact (keeps_wf _ _ _ _ Hw K)|exact K|reflexivity|]. intros i Hi. cbn. rewrite ZeroMem_spec. unfold inR in Hi. replace ((p <=? i) && (i <? p + n)) with true by lia. reflexivity.
Qed.
Lemma simF_assoc {X Y Z A} e W (m : M X) (f : X -> M Y) (g : Y -> M Z) (p : P A) Q F a r : simF e W (mbind m (fun x => mbind (f x) g)) p Q F a r -> simF e W (mbind (mbind m f) g) p Q F a r.
Proof. unfold simF, mbind. destruct (m e a r); exact (fun H => H). Qed.
(** Loops. *)
Lemma simF_loop {X Y A B C} e (W : N -> Prop) (bm : X -> M (X + Y)) (bp : A -> P (A + B)) (J : arena -> X -> A -> Prop) (Q : arena -> Y -> B -> Prop) (G : arena -> C -> Prop) (atFail : A -> env -> st -> C) :
  (forall x v a r, wfA e a -> J a x v ->
     simF e W (bm x) (bp v) (fun a' y w => match y, w with inl x', inl v' => J a' x' v' | inr y', inr w' => Q a' y' w' | _, _ => False end) (fun a' => G a' (atFail v e (mkst r (aused a)))) a r) ->
  forall x v a r, wfA e a -> J a x v -> simF e W (loopM bm x) (loopP bp v) Q (fun a' => G a' (leftLoop bp atFail v e (mkst r (aused a)))) a r.
Proof.
  intros Hb x v a r Hw HJ.
  assert (D : forall f x v a r, wfA e a -> J a x v -> simF e W (iterM f bm x) (iterP f bp v) Q (fun a' => G a' (leftIter f bp atFail v e (mkst r (aused a)))) a r).
  { induction f as [|f IH]; intros x0 v0 a0 r0 Hw0 HJ0; [reflexivity|]. pose proof (Hb x0 v0 a0 r0 Hw0 HJ0) as H0. unfold simF in *. cbn [iterM iterP leftIter]. unfold bind, mbind.
    destruct (bp v0 e (mkst r0 (aused a0))) as [w1 s1|s1| |] eqn:Eb.
    - destruct H0 as (y & a1 & -> & U1 & K1 & Q1). pose proof (keeps_wf _ _ _ _ Hw0 K1) as Hw1. destruct y as [x1|y1], w1 as [v1|w1]; try contradiction.
      + destruct s1 as [sr su]. cbn [rest used] in *. subst su. specialize (IH x1 v1 a1 sr Hw1 Q1). destruct (iterP f bp v1 e (mkst sr (aused a1))) as [v2 s2|s2| |]; auto.
        * destruct IH as (y & a2 & E2 & U2 & K2 & q2). exists y, a2. split; [exact E2|]. split; [exact U2|]. split; [eapply keeps_trans; [exact K1|eapply keeps_sub; [exact K2|intros i _ Hi; now left]]|exact q2].
        * destruct IH as (a2 & E2 & U2 & K2 & q2). exists a2. split; [exact E2|]. split; [exact U2|]. split; [eapply keeps_trans; [exact K1|eapply keeps_sub; [exact K2|intros i _ Hi; now left]]|exact q2].
      + exists y1, a1. cbn [rest]. split; [reflexivity|]. split; [exact U1|]. split; [exact K1|exact Q1].
    - destruct H0 as (a1 & -> & U1 & K1 & Q1). exists a1. split; [reflexivity|]. split; [exact U1|]. split; [exact K1|exact Q1].
    - intros N0. now rewrite H0.
    - now rewrite H0. }
  unfold simF, loopM, loopP, leftLoop. cbn [rest]. apply D; auto.
Qed.

(** ** Headers *)
Section Headers.
  Variables (e : env) (o : owner) (this lo : N).
  Hypothesis Hnet : netLen e.
  Hypothesis H8 : 8 <= this.
  Hypothesis Hs1 : this + slotsOff o + 2 * N.of_nat (slotsNum o) <= lo.
  Hypothesis Hs2 : this + rawOff o + 2 <= lo.
  Notation W := (hdrW o this lo).
  Notation HI a h := (HInv o (mem a) this lo (aused a) h).
  Notation FI := (fun (a' : arena) (h' : hset) => lo <= aused a' /\ HI a' h').

  Lemma HI_keeps a a' h : keeps nowhere a a' -> lo <= aused a -> HI a h -> lo <= aused a' /\ HI a' h.
  Proof. intros K L H. num K. split; [lia|]. eapply HInv_hi; [eapply (HInv_keeps o this lo); [exact H8|exact Hs1|exact Hs2|exact K|exact L|apply N.le_refl|exact H]|lia]. Qed.
  Lemma left_multi i k : slotKind o (slotOf o i) = Some (k, true) -> (slotOf o i < slotsNum o)%nat -> forall p h v a r, wfA e a -> lo <= aused a -> pending o this lo i k a p v h ->
    simF e W (loopM (mMultiBody o i k this) p) (loopP (multiBody k (setCommon o i true)) (h, v)) (fun a' _ h' => FI a' h')
      (fun a' => FI a' (leftLoop (multiBody k (setCommon o i true)) (fun hv _ _ => setCommon o i true (fst hv) (snd hv)) (h, v) e (mkst r (aused a)))) a r.
  Proof.
    intros Ek Hs p h v a r Hw Hla HP. apply (simF_loop e W _ _ (fun a p (hv : hset * hval) => lo <= aused a /\ pending o this lo i k a p (snd hv) (fst hv)) (fun a' (_ : unit) h' => FI a' h') FI); [|exact Hw|split; [exact Hla|exact HP]].
    clear p h v a r Hw Hla HP. intros p [h v] a r Hw (Hla & HP). cbn [fst snd] in *. apply simF_onRest. cbn [fst snd].
    destruct (set_pending e o this lo H8 Hs1 Hs2 i k true a p v h r Hw Ek Hs HP) as (a1 & R & U & K & J). pose proof (keeps_wf _ _ _ _ Hw K) as Hw1. num K. num Hw1.
    destruct r as [|x r1].
    - eapply simF_left; [exact R|exact K|exact U|]. apply simF_ret; [exact Hw1|]. split; [lia|exact J].
    - eapply simF_left; [exact R|exact K|exact U|]. destruct (IsOnlyCRLF (x :: r1)).
      { apply simF_goto_bind. apply simF_ret; [exact Hw1|]. split; [lia|exact J]. }
      destruct (ParseSWSMarkCanOmmit 44 (x :: r1)) as [[r' []] []].
      2-4: apply simF_pos; [exact posOnly_CRLF|exact Hw1|intros _ _; split; [lia|exact J]|]; intros _ r2 _; (apply simF_ret; [exact Hw1|]; split; [lia|exact J]).
      apply simF_goto_bind. eapply (simF_bindS e _ nowhere); [apply (sim_readValue e o this lo Hnet H8 Hs1 Hs2 i k true a1 r' (setCommon o i true h v)); [exact Hw1|exact Ek|lia|exact J]|exact Hw1|slia| |].
      { intros a' s _ K2. apply (HI_keeps a1); [exact K2|lia|exact J]. }
      intros p' v' a2 r2 _ Hw2 K2 HP2. num K2. apply simF_ret; [exact Hw2|]. split; [lia|exact HP2].
  Qed.
  Lemma left_oneHeader np nm i h b hi a r : wfA e a -> lo <= hi -> hi <= b -> b <= aused a -> HInv o (mem a) this lo hi h -> i < two16 -> np < two16 -> ostr (mem a) b (aused a) np nm -> (i <> SIP_HDR_UNKNOWN -> nm = None) ->
    simF e W (mOneHeader o this np i) (oneHeader o h nm i) (fun a' _ h' => FI a' h') (fun a' => FI a' (leftOne o h i e (mkst r (aused a)))) a r.
  Proof.
    intros Hw Lh Lb La HJ Hi Hnp Ho Hk. pose proof (sim_oneHeader e o this lo Hnet H8 Hs1 Hs2 np nm i h b hi a r Hw Lh Lb La HJ Hi Hnp Ho Hk) as Old. num Hw.
    assert (HJa : HI a h) by (eapply HInv_hi; [exact HJ|lia]). unfold leftOne. destruct (needParse o e i) as [[k multi]|] eqn:En.
    - pose proof En as En'. apply needParse_slot in En' as (Ek & Hs). apply simF_withEnv. rewrite En.
      eapply (simF_bindS e _ nowhere); [apply (sim_readValue e o this lo Hnet H8 Hs1 Hs2 i k multi a r h); [exact Hw|exact Ek|lia|exact HJa]|exact Hw|slia| |].
      { intros a' s E K. rewrite E. assert (G : FI a' h) by (apply (HI_keeps a); [exact K|lia|exact HJa]). destruct multi; exact G. }
      intros p v a1 r1 E1 Hw1 K1 HP. num K1. rewrite E1. destruct multi.
      + eapply simF_conseq; [apply left_multi; [exact Ek|exact Hs|exact Hw1|lia|exact HP]|intros ? _ ?; repeat (first [assumption|left])|auto|auto].
      + apply simF_pos; [exact posOnly_CRLF|exact Hw1|intros _ _; apply (HI_keeps a); [exact K1|lia|exact HJa]|]. intros _ r2 _. destruct (set_pending e o this lo H8 Hs1 Hs2 i k false a1 p v h r2 Hw1 Ek Hs HP) as (a2 & R & U & K & J).
        eapply simF_of; [eapply sim_run; [exact R|exact U|eapply keeps_sub; [exact K|intros ? _ ?; repeat (first [assumption|left])]|]; split; [lia|exact J]|]. intros a' s E. discriminate.
    - unfold simF. unfold sim in Old. destruct (oneHeader o h nm i e (mkst r (aused a))) as [v s|s| |] eqn:E1; auto. destruct Old as (a' & E & U & K). exists a'. split; [exact E|]. split; [exact U|]. split; [exact K|].
      unfold mOneHeader, mWithEnv in E. rewrite En in E. unfold oneHeader, withEnv in E1. rewrite En in E1.
      assert (N0 : forall m (p : P raw) Q, sim e nowhere m p Q a r -> (h <~ m ;; mAddRaw o this h) e a r = MFail a' (rest s) -> (exists s0, p e (mkst r (aused a)) = Fail s0) -> FI a' h).
      { intros m p Q S0 R0 (s0 & F0). unfold sim in S0. rewrite F0 in S0. destruct S0 as (a0 & R1 & U0 & K0). unfold mbind in R0. rewrite R1 in R0. injection R0 as <- _. apply (HI_keeps a); [exact K0|lia|exact HJa]. }
      assert (F0 : exists s0, rawHeader nm i e (mkst r (aused a)) = Fail s0) by (unfold bind in E1; destruct (rawHeader nm i e (mkst r (aused a))); try discriminate; eauto).
      destruct (N.eqb_spec i SIP_HDR_UNKNOWN) as [->|Hu].
      + eapply (N0 _ _ _ (sim_rawEx e a b np nm SIP_HDR_UNKNOWN r Hw ltac:(lia) La Hi Hnp Ho)); [exact E|exact F0].
      + rewrite (Hk Hu) in F0. eapply (N0 _ _ _ (sim_knownRaw e a i r Hw Hi)); [exact E|exact F0].
  Qed.
  Lemma left_parseHeaders a r : wfA e a -> lo <= aused a -> HI a (emptyHdrs o) ->
    simF e W (mParseHeaders o this) (parseHeaders o) (fun a' _ h' => FI a' h') (fun a' => FI a' (leftHeaders o e (mkst r (aused a)))) a r.
  Proof.
    intros Hw Hla HJ. unfold mParseHeaders, parseHeaders, leftHeaders. apply (simF_loop e W _ _ (fun a (_ : unit) h => FI a h) (fun a (_ : unit) h => FI a h) FI); [|exact Hw|auto].
    clear a r Hw Hla HJ. intros [] h a r Hw (Hla & HJ). num Hw. apply simF_onRest. destruct r as [|x r1]; [apply simF_ret; auto|].
    destruct (IsCRLF (x :: r1)); [apply simF_goto_bind; apply simF_ret; auto|].
    eapply (simF_bindS e _ nowhere); [apply sim_headerName; exact Hw|exact Hw|slia| |].
    { intros a' s E K. rewrite E. apply (HI_keeps a); auto. }
    intros [np i0] [nm i] a1 r2 E1 Hw1 K1 (E2 & H1 & H2 & H3 & H4). rewrite E1. cbn [fst snd] in *. subst i0. num K1.
    eapply (simF_bind e _ W); [apply (left_oneHeader np nm i h (aused a) (aused a)); auto; [lia|eapply HInv_keeps; [exact H8|exact Hs1|exact Hs2|exact K1|lia|lia|exact HJ]]|exact Hw1|intros ? _ ?; repeat (first [assumption|left])|auto|].
    intros [] h' a2 r3 _ Hw2 K2 HQ. apply simF_ret; [exact Hw2|exact HQ].
  Qed.
End Headers.
(** ** Bodies *)
Section Bodies.
  Variables (e : env) (this lo : N).
  Hypothesis Hnet : netLen e.
  Hypothesis H8 : 8 <= this.
  Hypothesis Hl : this + 68 <= lo.
  Notation BJ := (bodyJ this lo).
  Notation FB := (fun (a' : arena) (bs : list body) => exists prev, BJ a' prev bs).
  (** Nothing below was changed. *)
  Lemma BJ_keeps (W : N -> Prop) a a' prev bs : (forall i, 8 <= i < aused a -> ~ W i) -> keeps W a a' -> BJ a prev bs -> BJ a' prev bs.
  Proof using H8 Hl.
    intros HW K (L & H). num K. split; [lia|]. assert (Ag : agreeR (mem a) (mem a') 8 (aused a)) by (intros i Hi; apply (proj2 (proj2 (proj2 K))); auto).
    assert (E : g16 (mem a') (this + 66) = g16 (mem a) (this + 66)) by (unfold g16; rewrite !Ag by lia; reflexivity). rewrite E.
    apply (bodiesInv_hi _ _ (aused a)); [|lia]. eapply bodiesInv_frame; [|exact H]. eapply agreeR_sub; [exact Ag|lia|lia].
  Qed.
  Lemma left_multipart dl prev bs a r : wfA e a -> BJ a prev bs ->
    simF e (bodyW this lo) (loopM (mMultipart this dl) prev) (loopP (multipartBody dl) bs) (fun a' _ bs' => FB a' bs') (fun a' => FB a' (leftLoop (multipartBody dl) (fun bs _ _ => bs) bs e (mkst r (aused a)))) a r.
  Proof.
    intros Hw HJ. apply (simF_loop e (bodyW this lo) _ _ BJ (fun a' (_ : unit) bs' => FB a' bs') FB); [|exact Hw|exact HJ].
    clear prev bs a r Hw HJ. intros prev bs a r Hw HJ0. pose proof HJ0 as (Hla & HJ). num Hw. assert (F0 : FB a bs) by (now exists prev). apply simF_onRest. destruct r as [|x [|y r2]]; [apply simF_fail; [exact Hw|exact F0]|apply simF_fail; [exact Hw|exact F0]|].
    destruct ((x =? 45) || (y =? 45)); [apply simF_goto_bind; apply simF_ret; [exact Hw|exact F0]|].
    destruct (FindCrlf (x :: y :: r2)) as [[t r1]|]; [|apply simF_goto_bind; apply simF_fail; [exact Hw|exact F0]]. apply simF_goto_bind.
    eapply (simF_bindS e _ nowhere); [apply sim_new; [exact Hw|lia|lia]|exact Hw|slia| |].
    { intros a' s _ K. exists prev. eapply BJ_keeps; [|exact K|exact HJ0]. intros i _ []. }
    intros p [] a1 r3 _ Hw1 K1 (-> & U1 & Z1). num K1. assert (HJ01 : BJ a1 prev bs) by (eapply BJ_keeps; [|exact K1|exact HJ0]; intros i _ []).
    assert (Hd : g16 (mem a1) (this + 66) = g16 (mem a) (this + 66)) by (eapply g16_frame; [agr K1|reflexivity]).
    assert (HJ1 : bodiesInv (mem a1) lo (aused a) (g16 (mem a1) (this + 66)) prev bs) by (rewrite Hd; eapply bodiesInv_frame; [agr K1|exact HJ]).
    assert (Z8 : g16 (mem a1) (aused a + 8) = NILPTR) by (apply (zeros_g16 _ _ _ _ Z1); lia).
    assert (Fb : forall a', keeps (hdrW OBody (aused a) (aused a + 16)) a1 a' -> FB a' bs).
    { intros a' K. exists prev. apply (BJ_keeps (from (aused a)) a); [slia| |exact HJ0]. unfold hdrW in K. cbn [slotsOff slotsNum rawOff] in K. eapply keeps_trans; [eapply keeps_sub; [exact K1|intros i _ []]|]. eapply keeps_sub; [exact K|slia]. }
    eapply (simF_bindS e _ (hdrW OBody (aused a) (aused a + 16))); [apply (sim_parseHeaders e OBody (aused a) (aused a + 16)); [exact Hnet|lia|cbn; lia|cbn; lia|exact Hw1|lia|]|exact Hw1| | |].
    { apply HInv_empty; [lia| |].
      - intros s Hs. unfold slotAt. cbn [slotsOff slotsNum] in *. apply (zeros_g16 _ _ _ _ Z1); lia.
      - cbn [rawOff]. apply (zeros_g16 _ _ _ _ Z1); lia. }
    { unfold hdrW, bodyW. cbn [slotsOff slotsNum rawOff]. slia. }
    { intros a' s _ K. exact (Fb a' K). }
    intros [] h a2 r4 _ Hw2 K2 (L2 & HH). specialize (Fb a2 K2). num K2. unfold hdrW in K2. cbn [slotsOff slotsNum rawOff] in K2.
    assert (Hd2 : g16 (mem a2) (this + 66) = g16 (mem a1) (this + 66)) by (eapply g16_frame; [agr K2|reflexivity]).
    assert (HJ2 : bodiesInv (mem a2) lo (aused a) (g16 (mem a2) (this + 66)) prev bs) by (rewrite Hd2; eapply bodiesInv_frame; [agr K2|exact HJ1]).
    assert (Z8b : g16 (mem a2) (aused a + 8) = NILPTR) by (eapply g16_frame; [agr K2|exact Z8]). apply simF_onRest. destruct (splitAt dl r4) as [[d r5]|]; [|apply simF_fail; [exact Hw2|exact Fb]].
    eapply (simF_bindS e _ nowhere); [apply sim_cstringX; exact Hw2|exact Hw2|slia| |].
    { intros a' s E. exfalso. unfold attempt in E. destruct (allocCString d e _); discriminate. }
    intros q od a3 r6 _ Hw3 K3 (Hq & L3 & HD). num K3. set (dd := match od with Some t => t | None => [] end) in *. apply simF_of; [|intros ? ? E; discriminate].
    assert (Hd3 : g16 (mem a3) (this + 66) = g16 (mem a2) (this + 66)) by (eapply g16_frame; [agr K3|reflexivity]).
    assert (HJ3 : bodiesInv (mem a3) lo (aused a) (g16 (mem a3) (this + 66)) prev bs) by (rewrite Hd3; eapply bodiesInv_frame; [agr K3|exact HJ2]).
    assert (HH3 : HInv OBody (mem a3) (aused a) (aused a + 16) (aused a2) h) by (eapply (HInv_keeps OBody (aused a) (aused a + 16)); [lia|cbn; lia|cbn; lia|exact K3|lia|lia|exact HH]).
    assert (Z8c : g16 (mem a3) (aused a + 8) = NILPTR) by (eapply g16_frame; [agr K3|exact Z8b]). apply sim_set16; [exact Hw3|exact Hq|unfold bodyW; slia|]. intros a4 Hw4 K4 U4 V4. num K4.
    assert (Hd4 : g16 (mem a4) (this + 66) = g16 (mem a3) (this + 66)) by (eapply g16_frame; [agr K4|reflexivity]).
    assert (HJ4 : bodiesInv (mem a4) lo (aused a) (g16 (mem a4) (this + 66)) prev bs) by (rewrite Hd4; eapply bodiesInv_frame; [agr K4|exact HJ3]).
    assert (Z8d : g16 (mem a4) (aused a + 8) = NILPTR) by (eapply g16_frame; [agr K4|exact Z8c]). assert (Hok : bodyOk (mem a4) (aused a) (aused a) (aused a4) (mkbody h dd)).
    { split; [reflexivity|]. exists (aused a2). split; [lia|]. split; [lia|]. cbn [bHdrs bData]. split.
      - eapply HInv_frame; [agr K4| | |exact HH3].
        + intros s Hs. unfold slotAt. cbn [slotsOff slotsNum] in *. eapply g16_frame; [agr K4|reflexivity].
        + cbn [rawOff]. eapply g16_frame; [agr K4|reflexivity].
      - rewrite V4, U4. eapply dataOk_frame; [agr K4|exact HD]. }
    destruct (link_run e this lo H8 Hl a4 prev bs (aused a) (mkbody h dd) r6 Hw4 HJ4 Hok Z8d) as (a5 & R & U5 & K5 & HJ5).
    eapply sim_left; [exact R|eapply keeps_sub; [exact K5|unfold bodyW; slia]|exact U5|].
    apply sim_goto_bind. apply sim_ret; [eapply keeps_wf; [exact Hw4|exact K5]|exact HJ5].
  Qed.
  Lemma simF_step {X Y A} (W : N -> Prop) (m : M X) (f : X -> M Y) (p : P A) x Q F a r : m e a r = MOk x a r -> simF e W (f x) p Q F a r -> simF e W (mbind m f) p Q F a r.
  Proof using Type. unfold simF, mbind. intros ->. exact (fun H => H). Qed.
  Lemma deref_run p a r : p < cap a -> deref p e a r = MOk tt a r.
  Proof using Type. clear this lo Hnet H8 Hl. intros H. unfold deref. replace (cap a <=? p) with false by lia. reflexivity. Qed.
  Lemma equalNoCase_run p l h t name a r : wfA e a -> str (mem a) l h p t -> t <> [] -> h <= aused a -> mEqualNoCase p name e a r = MOk (equalNoCase t name) a r.
  Proof using Type.
    clear this lo Hnet H8 Hl; intros Hw Hs Ht Hh; num Hw; unfold mEqualNoCase. rewrite (str_nonnil _ _ _ _ _ Hs). rewrite (str_read e a _ _ _ _ Hw Hs Hh); [reflexivity|].
    destruct Hs as (H1 & H2 & _). destruct t; [congruence|]. rewrite len_cons in H2. lia.
  Qed.
  Lemma left_multiBody p b a r : wfA e a -> BJ a NILPTR [] -> readCString a p = Some b ->
    simF e (bodyW this lo) (mMultiMsgBody this p) (parseMultiBody b) (fun a' _ bs' => FB a' bs') (fun a' => FB a' (leftParts b e (mkst r (aused a)))) a r.
  Proof.
    intros Hw HJ Hr. unfold mMultiMsgBody. eapply simF_step; [unfold mReadStr; rewrite Hr; reflexivity|]. unfold leftParts. cbn [rest used]. apply simF_onRest.
    destruct (stripPrefix (45 :: 45 :: b) r) as [r'|]; [|apply simF_fail; [exact Hw|exists NILPTR; exact HJ]]. apply simF_goto_bind. apply (left_multipart _ NILPTR [] a r'); auto.
  Qed.
  Lemma left_singleBody q1 hi h a r : wfA e a -> BJ a NILPTR [] -> HInv OMsg (mem a) this q1 hi h -> this + 68 <= q1 -> hi <= aused a ->
    simF e (bodyW this lo) (mSingleBody this) (parseSingleBody h) (fun a' _ bs' => FB a' bs') (fun a' => FB a' []) a r.
  Proof.
    intros Hw HJ HH Lq Lh. pose proof HJ as (Hla & HB). num Hw. apply simF_onRest. eapply simF_step; [reflexivity|].
    assert (G : forall (f : N -> M unit) p (Q : arena -> unit -> list body -> Prop) (F : arena -> Prop) (W : N -> Prop), simF e W (f (match contentLengthOf h with Some (VNum n) => N.min n (len r) | _ => 0 end)) p Q F a r ->
        simF e W (size <~ (if negb (g16 (mem a) (slotAt OMsg this 7) =? NILPTR) then deref (g16 (mem a) (slotAt OMsg this 7)) ;~ n <~ get32 (g16 (mem a) (slotAt OMsg this 7)) ;; mret (N.min n (len r)) else mret 0) ;; f size) p Q F a r).
    { intros f p Q F W H. destruct (slot_read OMsg _ _ _ _ _ 7 KContentLength HH ltac:(cbn; lia) ltac:(reflexivity)) as [(E1 & E2)|(v & q & E1 & E2 & E3 & E4)].
      - rewrite E2. cbn [N.eqb NILPTR negb]. unfold contentLengthOf in H. rewrite E1 in H. exact H.
      - change (slotKind OMsg 7) with (Some (KContentLength, false)) in E4. cbn [itemOk] in E4. destruct E4 as (_ & M2 & M3 & _). cbn [hvalSize] in M2.
        replace (g16 (mem a) (slotAt OMsg this 7) =? NILPTR) with false by (unfold NILPTR; lia). cbn [negb]. apply simF_assoc. eapply simF_step; [apply deref_run; lia|]. apply simF_assoc. eapply simF_step; [reflexivity|]. eapply simF_step; [reflexivity|].
        unfold contentLengthOf in H. rewrite E1 in H. cbn [hd_error] in H. destruct v; cbn [repHVal] in M3; try contradiction; try (destruct M3 as (M3 & _); discriminate); try (destruct M3 as (_ & M3); contradiction). rewrite M3. exact H. }
    apply G. cbv zeta beta. set (size := match contentLengthOf h with Some (VNum n) => N.min n (len r) | _ => 0 end). clearbody size. clear G.
    destruct (size =? 0); [apply simF_ret; [exact Hw|exists NILPTR; exact HJ]|].
    eapply (simF_bindS e _ nowhere); [apply sim_new; [exact Hw|lia|lia]|exact Hw|slia|intros a' s _ K; exists NILPTR; eapply BJ_keeps; [|exact K|exact HJ]; intros ? _ []|]. intros p [] a1 r3 _ Hw1 K1 (-> & U1 & Z1). num K1.
    assert (HJ01 : BJ a1 NILPTR []) by (eapply BJ_keeps; [|exact K1|exact HJ]; intros ? _ []).
    eapply (simF_bindS e _ nowhere); [apply sim_cstring; exact Hw1|exact Hw1|slia|intros a' s _ K; exists NILPTR; eapply BJ_keeps; [|exact K|exact HJ01]; intros ? _ []|]. intros q d a2 r6 _ Hw2 K2 (Hs & Hq & _). num K2. assert (Hs0 := Hs). destruct Hs0 as (B1 & B2 & _).
    apply simF_of; [|intros ? ? E; discriminate]. apply sim_deref; [lia|]. repeat carry1 K2.
    apply sim_set16; [exact Hw2|exact Hq|unfold bodyW; slia|]. intros a3 Hw3 K3 U3 V3. num K3.
    assert (Z8 : g16 (mem a3) (aused a + 8) = NILPTR) by (eapply g16_frame; [agr K3|apply (zeros_g16 _ _ _ _ Z1); lia]).
    assert (Hd : g16 (mem a3) (this + 66) = g16 (mem a) (this + 66)).
    { transitivity (g16 (mem a2) (this + 66)); [eapply g16_frame; [agr K3|reflexivity]|]. transitivity (g16 (mem a1) (this + 66)); (eapply g16_frame; [|reflexivity]); [agr K2|agr K1]. }
    assert (HJ3 : bodiesInv (mem a3) lo (aused a) (g16 (mem a3) (this + 66)) NILPTR []).
    { rewrite Hd. eapply bodiesInv_frame; [agr K3|]. eapply bodiesInv_frame; [agr K2|]. eapply bodiesInv_frame; [agr K1|exact HB]. }
    assert (Hok : bodyOk (mem a3) (aused a) (aused a) (aused a3) (mkbody (emptyHdrs OBody) d)).
    { split; [reflexivity|]. exists (aused a1). split; [lia|]. split; [lia|]. cbn [bHdrs bData]. split.
      - apply HInv_empty; [lia| |].
        + intros s Hs0. unfold slotAt. cbn [slotsOff slotsNum] in *. eapply g16_frame; [agr K3|apply (zeros_g16 _ _ _ _ Z1); lia].
        + cbn [rawOff]. eapply g16_frame; [agr K3|apply (zeros_g16 _ _ _ _ Z1); lia].
      - right. rewrite V3, U3. eapply str_frame; [agr K3|exact Hs]. }
    destruct (link_run e this lo H8 Hl a3 NILPTR [] (aused a) (mkbody (emptyHdrs OBody) d) r6 Hw3 HJ3 Hok Z8) as (a4 & R & U4 & K4 & HJ4). cbn [N.eqb NILPTR app] in R, HJ4.
    eapply sim_run; [exact R|exact U4|eapply keeps_sub; [exact K4|unfold bodyW; slia]|]. exists (aused a). exact HJ4.
  Qed.
  Lemma left_msgBody q1 hi h a r : wfA e a -> BJ a NILPTR [] -> HInv OMsg (mem a) this q1 hi h -> this + 68 <= q1 -> hi <= aused a -> emptyAtEnd e h (aused a) = false ->
    simF e (bodyW this lo) (mMsgBody this) (parseMsgBody h) (fun a' _ bs' => FB a' bs') (fun a' => FB a' (leftBodies h e (mkst r (aused a)))) a r.
  Proof.
    intros Hw HJ HH Lq Lh He. num Hw. eapply simF_step; [reflexivity|].
    destruct (slot_read OMsg _ _ _ _ _ 10 KContentType HH ltac:(cbn; lia) ltac:(reflexivity)) as [(E1 & E2)|(v & q & E1 & E2 & E3 & E4)].
    - rewrite E2. cbn [N.eqb NILPTR]. unfold parseMsgBody, contentTypeOf. rewrite E1. cbn [hd_error]. apply simF_ret; [exact Hw|]. exists NILPTR. exact HJ.
    - change (slotKind OMsg 10) with (Some (KContentType, false)) in E4. cbn [itemOk] in E4. destruct E4 as (_ & M2 & M3 & M4). cbn [hvalSize] in M2.
      set (p := g16 (mem a) (slotAt OMsg this 10)) in *. replace (p =? NILPTR) with false by (unfold NILPTR; lia). eapply simF_step; [apply deref_run; lia|]. eapply simF_step; [reflexivity|].
      unfold leftBodies, parseMsgBody, contentTypeOf, emptyAtEnd, contentTypeOf in *. rewrite E1 in *. cbn [hd_error] in *. destruct v as [ad t ps| |pr tr hp t ps|n mt|rr c mt|n|mn sb t ps|d t ps|w w2]; cbn [repHVal] in M3; try contradiction; try (destruct M3 as (M3 & _); discriminate).
      { destruct M3 as (_ & []). }
      destruct M3 as (_ & R1 & R2 & (R3 & R4)). cbn [mainOk] in M4. eapply simF_step; [eapply equalNoCase_run; [exact Hw|exact R1|exact M4|lia]|]. unfold equalNoCase.
      pose proof (CStringEqualNoCase_total mn (s2b "multipart") ltac:(discriminate)) as T. destruct (CStringEqualNoCase mn (s2b "multipart")) as [[]|]; [| |congruence].
      + unfold mBoundaryParam, boundaryParam in *. apply simF_assoc. eapply simF_step; [reflexivity|]. unfold repTable in R3. destruct t as [tbl|].
        * destruct R3 as (T1 & T2 & T3 & T4 & T5). change (tblLen KContentType) with 1 in *. rewrite (proj2 (N.eqb_neq _ _) T2). apply simF_assoc. eapply simF_step; [apply deref_run; lia|]. eapply simF_step; [reflexivity|].
          specialize (T5 0%nat ltac:(rewrite T4; cbn; lia)). cbn [N.of_nat N.mul] in T5. rewrite N.add_0_r in T5. unfold repEntry in T5. destruct (nth 0 tbl None) as [x|]; [|rewrite T5; cbn [N.eqb NILPTR]; apply simF_fail; [exact Hw|exists NILPTR; exact HJ]].
          destruct T5 as (X1 & X2 & z & X3 & X4 & (X5 & X6)). set (x0 := g16 (mem a) (g16 (mem a) (p + knownOff KContentType))) in *. rewrite (proj2 (N.eqb_neq _ _) X2). eapply simF_step; [apply deref_run; lia|]. eapply simF_step; [reflexivity|].
          apply left_multiBody; [exact Hw|exact HJ|].
          assert (Rd : forall t, str (mem a) (x0 + 8) z (g16 (mem a) (x0 + 2)) t -> (t = [] -> ltMem e (aused a) = true) -> readCString a (g16 (mem a) (x0 + 2)) = Some t).
          { intros t0 Ht Hz. apply (str_read e a _ _ _ _ Hw Ht); [lia|]. destruct Ht as (Y1 & Y2 & _). destruct t0 as [|c0 t0]; [|rewrite len_cons in Y2; lia].
            specialize (Hz eq_refl). unfold ltMem in Hz. rewrite (proj1 Hw) in Hz. apply N.ltb_lt in Hz. unfold len in Y2. cbn in Y2. lia. }
          unfold repGValue in X6. destruct (gpValue x) as [[t0|t0|t0]|]; cbn [gvalueText] in *.
          1-3: destruct X6 as (_ & X6); apply Rd; [exact X6|]; intros ->; destruct (ltMem e (aused a)); [reflexivity|discriminate].
          rewrite X6. reflexivity.
        * rewrite R3. cbn [N.eqb NILPTR]. eapply simF_step; [reflexivity|]. cbn [N.eqb NILPTR]. apply simF_fail; [exact Hw|exists NILPTR; exact HJ].
      + apply (left_singleBody q1 hi h); auto.
  Qed.
End Bodies.
(** ** Start lines *)
Lemma simF_when {X A} e (W : N -> Prop) (m : M X) (p : P A) Q (F F' : arena -> Prop) a r : simF e W m p Q F a r -> (forall a' s, p e (mkst r (aused a)) = Fail s -> keeps W a a' -> F a' -> F' a') -> simF e W m p Q F' a r.
Proof. unfold simF. destruct (p e _) as [v s|s| |]; auto. intros (a' & E & U & K & q) H. exists a'. split; [exact E|]. split; [exact U|]. split; [exact K|eauto]. Qed.
(** A string parsed into a field: the field is NIL when it cannot be parsed. *)
Lemma simF_strInto {X A} e (W : N -> Prop) p f (q : P bytes) (k : unit -> M X) (g : bytes -> P A) (Q : arena -> X -> A -> Prop) (F : arena -> Prop) a r :
  sim e nowhere (mStr f) q (strQ a) a r -> wfA e a -> (forall i, 8 <= i < aused a -> inR p 2 i -> W i) -> 8 <= p -> p + 2 <= aused a ->
  (forall a' s, q e (mkst r (aused a)) = Fail s -> keeps (inR p 2) a a' -> g16 (mem a') p = NILPTR -> F a') ->
  (forall b a1 r1, q e (mkst r (aused a)) = Ok b (mkst r1 (aused a1)) -> wfA e a1 -> keeps (inR p 2) a a1 -> str (mem a1) (aused a) (aused a1) (g16 (mem a1) p) b -> simF e (orS W (from (aused a))) (k tt) (g b) Q F a1 r1) ->
  simF e W (mbind (mInto p (mStr f)) k) (bind q g) Q F a r.
Proof.
  intros Hf Hw HW H8 Hl HF H. num Hw. eapply (simF_bind e _ (orS nowhere (inR p 2)) _ _ _ _ _ _ (fun a' => (exists s, q e (mkst r (aused a)) = Fail s) /\ g16 (mem a') p = NILPTR)); [|exact Hw|intros i Hi [[]|G]; auto| |].
  - pose proof (sim_into e nowhere p (mStr f) q (strQ a) a r Hw Hf (fun a' x v K HQ => proj1 (proj2 HQ))) as S0. unfold sim in S0. unfold simF. destruct (q e (mkst r (aused a))) as [v s|s| |] eqn:Eq; [exact S0| |exact S0|exact S0].
    destruct S0 as (a' & E & U & K). exists a'. split; [exact E|]. split; [exact U|]. split; [exact K|]. split; [eauto|]. unfold mInto in E. destruct (mStr f e a r) as [x0 a0 r0|a0 r0| |]; try discriminate. injection E as <- _. cbn. apply g16_p16. reflexivity.
  - intros a' K ((s & Es) & Z). eapply HF; [exact Es|eapply keeps_sub; [exact K|slia]|exact Z].
  - intros [] b a1 r1 Eb Hw1 K1 (x & a0 & (Hs & _ & Eq & Ea) & K0 & U0 & V0). num K1. num K0. apply H; [exact Eb|exact Hw1|eapply keeps_sub; [exact K1|slia]|]. rewrite V0, U0. eapply str_frame; [|exact Hs]. agr K0.
Qed.
Lemma repVer_nil m p lo hi : g16 m p = NILPTR -> repVer m p lo hi (VOther []).
Proof. intros E. left. auto. Qed.
Lemma left_digits e p a r : wfA e a -> 8 <= p -> p + 2 <= aused a -> g16 (mem a) p = NILPTR ->
  simF e (inR p 2) (mVersionDigits p r) (versionDigits r) (versionQ p (aused a)) (fun a' => repVer (mem a') p (aused a) (aused a') (leftDigits e (mkst r (aused a)))) a r.
Proof.
  intros Hw H8 Hl Z. num Hw. unfold mVersionDigits, versionDigits, leftDigits. cbn [rest]. destruct (span (inset DIGIT) r) as [major r1] eqn:E. destruct major as [|d major]; [apply simF_fail; [exact Hw|now apply repVer_nil]|].
  destruct r1 as [|x mid]; [intros _; reflexivity|]. destruct (N.eqb_spec x 46) as [->|Hx]; cbn [negb N.eqb]; [|apply simF_goto_bind, simF_fail; [exact Hw|now apply repVer_nil]].
  eapply simF_strInto; [apply sim_FromPos; [exact Hw|]|exact Hw|auto|exact H8|exact Hl| |].
  { pose proof (span_app (inset DIGIT) r _ _ E) as G. exists ((d :: major) ++ [46]). rewrite G, <- !app_assoc. reflexivity. }
  { intros a' s Es _ Z'. rewrite Es. now apply repVer_nil. }
  intros b a1 r1 Eb Hw1 K1 Hb. rewrite Eb. apply simF_onRest. destruct (Nat.leb _ _); [apply simF_fail; [exact Hw1|right; exact Hb]|apply simF_ret; [exact Hw1|exact Hb]].
Qed.
Lemma left_versionAfter e p a r : wfA e a -> 8 <= p -> p + 2 <= aused a -> g16 (mem a) p = NILPTR ->
  simF e (inR p 2) (mVersionAfter p) parseVersionAfter (versionQ p (aused a)) (fun a' => repVer (mem a') p (aused a) (aused a') (leftVersion e (mkst r (aused a)))) a r.
Proof.
  intros Hw H8 Hl Z. num Hw. apply (simF_when e _ _ _ _ (fun a' => repVer (mem a') p (aused a) (aused a') (leftDigits e (mkst r (aused a))))); [|intros a' s Es _ H; unfold leftVersion; rewrite Es; exact H]. apply simF_onRest.
  pose proof (left_digits e p a r Hw H8 Hl Z) as D.
  assert (G : forall r' F, simF e (inR p 2) (mGoto r' ;~ set16 p (setTag 1)) (goto r' ;;; ret V20) (versionQ p (aused a)) F a r).
  { intros r' F. apply simF_of; [|intros ? ? E; discriminate]. apply sim_goto_bind. apply sim_set16_end; [exact Hw|apply setTag_small; vm_compute; reflexivity|auto|]. intros a1 _ _ _ V. exact V. }
  destruct r as [|x1 r1]; [intros _; reflexivity|]. destruct (x1 =? 50); [|exact D]. destruct r1 as [|x2 r2]; [intros _; reflexivity|]. destruct (x2 =? 46); [|exact D].
  destruct r2 as [|x3 r3]; [intros _; reflexivity|]. destruct (x3 =? 48); [|exact D]. destruct r3 as [|x4 r4]; [apply G|]. destruct (negb (IsDigit x4)); [apply G|exact D].
Qed.
Lemma left_requestLine e this a r : netLen e -> wfA e a -> 8 <= this -> this + 20 <= aused a -> zeros (mem a) this 20 -> versionStart r = None ->
  simF e (inR this 20) (mRequestLine this) parseRequestLine (startQ this (aused a)) (fun a' => repLine (mem a') this (aused a) (aused a') (leftLine e (mkst r (aused a)))) a r.
Proof.
  intros Hn Hw H8 Hl Z Ev. pose proof (sim_requestLine e this a r Hn Hw H8 Hl ltac:(apply (zeros_g16 _ _ _ _ Z); lia)) as Old. num Hw. unfold leftLine. cbn [rest]. rewrite Ev.
  unfold simF. unfold sim in Old. destruct (parseRequestLine e (mkst r (aused a))) as [l s|s| |] eqn:E0; auto. clear Old.
  assert (G : simF e (inR this 20) (mRequestLine this) parseRequestLine (fun _ _ _ => True) (fun a' => repLine (mem a') this (aused a) (aused a') (SStatus (match (parseMethod ;;; expect 32 ;;; (parseAddrSpec ;;; expect 32)) e (mkst r (aused a)) with
               | Ok _ s1 => match versionStart (rest s1) with Some r => leftVersion e (mkst r (used s1)) | None => VOther [] end
               | _ => VOther []
               end) 0 [])) a r); [|unfold simF in G; rewrite E0 in G; exact G].
  assert (Base : forall a', agreeR (mem a) (mem a') this (this + 4) -> agreeR (mem a) (mem a') (this + 18) (this + 20) -> forall v, repVer (mem a') (this + 6) (aused a) (aused a') v -> repLine (mem a') this (aused a) (aused a') (SStatus v 0 [])).
  { intros a' A1 A2 v Hv. split; [rewrite A1 by lia; apply Z; lia|]. split; [exact Hv|]. split; [|left; split; [|reflexivity]]; unfold g16; [rewrite !A1 by lia|rewrite !A2 by lia]; rewrite !Z by lia; reflexivity. }
  assert (Z6 : g16 (mem a) (this + 6) = NILPTR) by (apply (zeros_g16 _ _ _ _ Z); lia). assert (Z14 : g16 (mem a) (this + 14) = NILPTR) by (apply (zeros_g16 _ _ _ _ Z); lia).
  clear Z. set (pre := (parseMethod ;;; expect 32 ;;; (parseAddrSpec ;;; expect 32)) e (mkst r (aused a))) in *. unfold mRequestLine, parseRequestLine.
  eapply (simF_bindS e _ (inR (this + 4) 2)); [apply sim_method; [exact Hw|lia|lia]|exact Hw|slia| |].
  { intros a' s1 E1 K. num K. assert (Ep : pre = Fail s1) by (unfold pre, bind; rewrite E1; reflexivity). rewrite Ep. apply Base; [agr K|agr K|]. apply repVer_nil. eapply g16_frame; [agr K|exact Z6]. }
  intros [] mt a1 r1 E1 Hw1 K1 _. num K1. assert (A1 : agreeR (mem a) (mem a1) this (this + 4)) by agr K1. assert (A2 : agreeR (mem a) (mem a1) (this + 18) (this + 20)) by agr K1. carry1 K1. carry1 K1.
  apply simF_pos; [apply posOnly_expect|exact Hw1| |].
  { intros s2 E2. assert (Ep : pre = Fail s2) by (unfold pre, bind; rewrite E1, E2; reflexivity). rewrite Ep. apply Base; [exact A1|exact A2|apply repVer_nil; assumption]. }
  intros x2 r2 E2.
  eapply (simF_bindS e _ (inR (this + 8) 10)); [apply (sim_addrSpec e Hn (this + 8)); [lia|exact Hw1|lia|replace (this + 8 + 6) with (this + 14) by lia; assumption]|exact Hw1|slia| |].
  { intros a' s3 E3 K. num K. assert (Ep : pre = Fail s3) by (unfold pre, bind; rewrite E1, E2, E3; reflexivity). rewrite Ep. apply Base; [|  |apply repVer_nil; eapply g16_frame; [agr K|assumption]].
    - intros i Hi. rewrite <- A1 by exact Hi. apply (proj2 (proj2 (proj2 K))); slia.
    - intros i Hi. rewrite <- A2 by exact Hi. apply (proj2 (proj2 (proj2 K))); slia. }
  intros [] ad a2 r3 E3 Hw2 K2 _. num K2.
  assert (B1 : agreeR (mem a) (mem a2) this (this + 4)) by (intros i Hi; rewrite <- A1 by exact Hi; apply (proj2 (proj2 (proj2 K2))); slia).
  assert (B2 : agreeR (mem a) (mem a2) (this + 18) (this + 20)) by (intros i Hi; rewrite <- A2 by exact Hi; apply (proj2 (proj2 (proj2 K2))); slia).
  assert (Z6' : g16 (mem a2) (this + 6) = NILPTR) by (eapply g16_frame; [agr K2|assumption]). clear A1 A2.
  apply simF_pos; [apply posOnly_expect|exact Hw2| |].
  { intros s4 E4. assert (Ep : pre = Fail s4) by (unfold pre, bind; rewrite E1, E2, E3; exact E4). rewrite Ep. apply Base; [exact B1|exact B2|apply repVer_nil; exact Z6']. }
  intros x4 r4 E4. assert (Ep : pre = Ok x4 (mkst r4 (aused a2))) by (unfold pre, bind; rewrite E1, E2, E3; exact E4). rewrite Ep. cbn [rest used].
  eapply (simF_bind e _ (inR (this + 6) 2) _ _ _ _ (fun a' _ v => repVer (mem a') (this + 6) (aused a2) (aused a') (match versionStart r4 with Some r => leftVersion e (mkst r (aused a2)) | None => VOther [] end)) _
     (fun a' => repVer (mem a') (this + 6) (aused a2) (aused a') (match versionStart r4 with Some r => leftVersion e (mkst r (aused a2)) | None => VOther [] end))); [|exact Hw2|slia| |].
  { unfold mVersion, parseVersion. apply simF_onRest. destruct (versionStart r4) as [r5|]; [|apply simF_fail; [exact Hw2|now apply repVer_nil]]. apply simF_goto_bind.
    pose proof (left_versionAfter e (this + 6) a2 r5 Hw2 ltac:(lia) ltac:(lia) Z6') as S0. unfold simF in *. destruct (parseVersionAfter e (mkst r5 (aused a2))) as [v s5|s5| |] eqn:E5; auto.
    destruct S0 as (x & a' & R & U & K & HQ). exists x, a'. split; [exact R|]. split; [exact U|]. split; [exact K|]. unfold leftVersion. rewrite E5. now apply repVersion_ver. }
  { intros a' K HV. num K. apply Base; [| |eapply repVer_mono; [exact HV|lia|lia]]; intros i Hi; [rewrite <- B1 by exact Hi|rewrite <- B2 by exact Hi]; apply (proj2 (proj2 (proj2 K))); slia. }
  intros [] v a3 r5 _ Hw3 K3 HV. num K3. apply simF_pos; [apply posOnly_liftB|exact Hw3| |].
  { intros s6 _. apply Base; [| |eapply repVer_mono; [exact HV|lia|lia]]; intros i Hi; [rewrite <- B1 by exact Hi|rewrite <- B2 by exact Hi]; apply (proj2 (proj2 (proj2 K3))); slia. }
  intros x6 r6 _. apply simF_of; [|intros ? ? E; discriminate]. apply sim_set8_end; [exact Hw3|slia|]. auto.
Qed.
Lemma left_statusLine e this a r : wfA e a -> 8 <= this -> this + 20 <= aused a -> zeros (mem a) this 20 ->
  simF e (inR this 20) (mStatusLine this) parseStatusLine (startQ this (aused a)) (fun a' => repLine (mem a') this (aused a) (aused a') (leftStatusLine e (mkst r (aused a)))) a r.
Proof.
  intros Hw H8 Hl Z. pose proof (sim_statusLine e this a r Hw H8 Hl) as Old. num Hw. unfold leftStatusLine.
  unfold simF. unfold sim in Old. destruct (parseStatusLine e (mkst r (aused a))) as [l s|s| |] eqn:E0; auto. clear Old.
  set (LL := match parseVersionAfter e (mkst r (aused a)) with Ok _ s1 => _ | _ => _ end).
  assert (G : simF e (inR this 20) (mStatusLine this) parseStatusLine (fun _ _ _ => True) (fun a' => repLine (mem a') this (aused a) (aused a') LL) a r); [|unfold simF in G; rewrite E0 in G; exact G]. clear E0.
  assert (Z0 : mem a this = 0) by (apply Z; lia). assert (Z6 : g16 (mem a) (this + 6) = NILPTR) by (apply (zeros_g16 _ _ _ _ Z); lia). assert (Z2 : g16 (mem a) (this + 2) = 0) by (apply (zeros_g16 _ _ _ _ Z); lia). assert (Z18 : g16 (mem a) (this + 18) = NILPTR) by (apply (zeros_g16 _ _ _ _ Z); lia).
  clear Z. unfold mStatusLine, parseStatusLine.
  assert (Mk : forall a' v c, mem a' this = 0 -> repVer (mem a') (this + 6) (aused a) (aused a') v -> g16 (mem a') (this + 2) = c -> g16 (mem a') (this + 18) = NILPTR -> repLine (mem a') this (aused a) (aused a') (SStatus v c [])).
  { intros a' v c M1 M2 M3 M4. split; [exact M1|]. split; [exact M2|]. split; [exact M3|]. left. auto. }
  eapply (simF_bind e _ (inR (this + 6) 2)); [eapply (simF_when e _ _ _ _ _ (fun a' => (exists s, parseVersionAfter e (mkst r (aused a)) = Fail s) /\ repVer (mem a') (this + 6) (aused a) (aused a') (leftVersion e (mkst r (aused a))))); [apply left_versionAfter; [exact Hw|lia|lia|exact Z6]|intros a' s1 Es _ H; split; [eauto|exact H]]|exact Hw|slia| |].
  { intros a' K ((s1 & Es) & HV). num K. unfold LL. rewrite Es. apply Mk; [rewrite <- Z0; apply (proj2 (proj2 (proj2 K))); slia|exact HV|eapply g16_frame; [agr K|exact Z2]|eapply g16_frame; [agr K|exact Z18]]. }
  intros [] v a1 r1 E1 Hw1 K1 HV. unfold versionQ in HV. apply repVersion_ver in HV. num K1.
  assert (EV : leftVersion e (mkst r (aused a)) = v) by (unfold leftVersion; rewrite E1; reflexivity).
  assert (EL : LL = match (expect 32 ;;; pUIntW 65536) e (mkst r1 (aused a1)) with
      | Ok c s2 => SStatus v c (match (expect 32 ;;; paEscapableEmpty SIP_REASON_PHRASE) e s2 with Ok t _ => t | _ => [] end)
      | _ => SStatus v 0 [] end) by (unfold LL; rewrite E1, EV; reflexivity). rewrite EL. clear EL LL EV E1.
  assert (Y0 : mem a1 this = 0) by (rewrite <- Z0; apply (proj2 (proj2 (proj2 K1))); slia). assert (Y2 : g16 (mem a1) (this + 2) = 0) by (eapply g16_frame; [agr K1|exact Z2]). assert (Y18 : g16 (mem a1) (this + 18) = NILPTR) by (eapply g16_frame; [agr K1|exact Z18]). clear Z0 Z2 Z6 Z18.
  set (LL := match (expect 32 ;;; pUIntW 65536) e (mkst r1 (aused a1)) with Ok _ _ => _ | _ => _ end).
  apply simF_pos; [apply posOnly_expect|exact Hw1| |].
  { intros s2 E2. assert (EL : LL = SStatus v 0 []) by (unfold LL, bind; rewrite E2; reflexivity). rewrite EL. apply Mk; auto. }
  intros x2 r2 E2.
  eapply (simF_bind e _ (inR (this + 2) 2) _ _ _ _ (fun a' _ c => aused a' = aused a1 /\ g16 (mem a') (this + 2) = c) _ (fun a' => (exists s, pUIntW 65536 e (mkst r2 (aused a1)) = Fail s) /\ aused a' = aused a1 /\ g16 (mem a') (this + 2) = 0)); [|exact Hw1|slia| |].
  { unfold pUIntW, pUInt. unfold simF, bind, onRest, mOnRest. cbn [rest used]. destruct (ParseUInt r2) as [[[c n] r3]|].
    - cbn. eexists tt, _. split; [reflexivity|]. assert (L : u16 c < two16) by (apply N.mod_lt; discriminate).
      split; [reflexivity|]. split; [|split; [reflexivity|]].
      + destruct Hw1 as (_ & _ & _ & Hc). repeat split; cbn; auto; try lia. intros i _ Hi. now apply p16_other.
      + cbn. rewrite g16_p16 by exact L. reflexivity.
    - cbn. eexists. split; [reflexivity|]. split; [reflexivity|]. split; [|split; [eauto|split; [reflexivity|]]].
      + destruct Hw1 as (_ & _ & _ & Hc). repeat split; cbn; auto; try lia. intros i _ Hi. now apply p16_other.
      + cbn. rewrite g16_p16 by (vm_compute; reflexivity). reflexivity. }
  { intros a' K ((s3 & E3) & U & V). num K. assert (EL : LL = SStatus v 0 []) by (unfold LL, bind; rewrite E2, E3; reflexivity). rewrite EL.
    apply Mk; [rewrite <- Y0; apply (proj2 (proj2 (proj2 K))); slia| |exact V|eapply g16_frame; [agr K|exact Y18]]. rewrite U. eapply repVer_frame; [eapply g16_frame; [agr K|reflexivity]|agr K|exact HV]. }
  intros [] c a2 r3 E3 Hw2 K2 (U2 & V2). num K2.
  assert (EL : LL = SStatus v c (match (expect 32 ;;; paEscapableEmpty SIP_REASON_PHRASE) e (mkst r3 (aused a2)) with Ok t _ => t | _ => [] end)) by (unfold LL, bind at 1; rewrite E2, E3; reflexivity). rewrite EL. clear EL LL.
  assert (X0 : mem a2 this = 0) by (rewrite <- Y0; apply (proj2 (proj2 (proj2 K2))); slia). assert (X18 : g16 (mem a2) (this + 18) = NILPTR) by (eapply g16_frame; [agr K2|exact Y18]).
  assert (Hv2 : repVer (mem a2) (this + 6) (aused a) (aused a1) v) by (eapply repVer_frame; [eapply g16_frame; [agr K2|reflexivity]|agr K2|exact HV]). clear Y0 Y2 Y18 HV.
  set (tt0 := match (expect 32 ;;; paEscapableEmpty SIP_REASON_PHRASE) e (mkst r3 (aused a2)) with Ok _ _ => _ | _ => _ end).
  apply simF_pos; [apply posOnly_expect|exact Hw2| |].
  { intros s4 E4. assert (Et : tt0 = []) by (unfold tt0, bind; rewrite E4; reflexivity). rewrite Et. apply Mk; auto. eapply repVer_mono; [exact Hv2|lia|lia]. }
  intros x4 r4 E4.
  eapply simF_strInto; [apply sim_EscapableEmpty, Hw2|exact Hw2|slia|lia|lia| |].
  { intros a' s5 E5 K Zn. num K. assert (Et : tt0 = []) by (unfold tt0, bind; rewrite E4, E5; reflexivity). rewrite Et. apply Mk; [rewrite <- X0; apply (proj2 (proj2 (proj2 K))); slia| |rewrite <- V2; eapply g16_frame; [agr K|reflexivity]|exact Zn].
    eapply repVer_mono; [eapply repVer_frame; [| |exact Hv2]; [eapply g16_frame; [agr K|reflexivity]|agr K]|lia|lia]. }
  intros t a3 r5 E5 Hw3 K3 Ht. num K3. assert (Et : tt0 = t) by (unfold tt0, bind; rewrite E4, E5; reflexivity). rewrite Et. clear tt0 Et.
  assert (Fn : repLine (mem a3) this (aused a) (aused a3) (SStatus v c t)).
  { split; [rewrite <- X0; apply (proj2 (proj2 (proj2 K3))); slia|]. split; [eapply repVer_mono; [eapply repVer_frame; [| |exact Hv2]; [eapply g16_frame; [agr K3|reflexivity]|agr K3]|lia|lia]|].
    split; [rewrite <- V2; eapply g16_frame; [agr K3|reflexivity]|]. right. eapply str_mono; [exact Ht|lia|lia]. }
  apply simF_pos; [apply posOnly_liftB|exact Hw3|intros _ _; exact Fn|]. intros x6 r6 _. apply simF_of; [|intros ? ? E; discriminate]. apply sim_set8_end; [exact Hw3|slia|]. auto.
Qed.
Lemma left_startLine e this a r : netLen e -> wfA e a -> 8 <= this -> this + 20 <= aused a -> zeros (mem a) this 20 ->
  simF e (inR this 20) (mStartLine this) parseStartLine (startQ this (aused a)) (fun a' => repLine (mem a') this (aused a) (aused a') (leftLine e (mkst r (aused a)))) a r.
Proof.
  intros Hn Hw H8 Hl Z. apply simF_onRest. destruct (versionStart r) as [r4|] eqn:Ev.
  - apply simF_goto_bind. unfold leftLine. cbn [rest used]. rewrite Ev. apply left_statusLine; auto.
  - apply left_requestLine; auto.
Qed.
(** ** The message *)
Lemma left_msg e this a r : netLen e -> wfA e a -> 8 <= this -> this + 68 <= aused a -> cornerCase e r (aused a) = false ->
  simF e (inR this 68) (mMsgParse this) parseMsg (fun a' _ x => repMsg (mem a') this (aused a) (aused a') x) (fun a' => repMsgC (mem a') this (aused a) (aused a') None (leftMsg e (mkst r (aused a)))) a r.
Proof.
  intros Hnet Hw H8 Hl Hc. pose proof (sim_msg e this a r Hnet Hw H8 Hl Hc) as Old. num Hw.
  unfold simF. unfold sim in Old. destruct (parseMsg e (mkst r (aused a))) as [l s|s| |] eqn:E0; auto. clear Old.
  assert (Gl : simF e (inR this 68) (mMsgParse this) parseMsg (fun _ _ _ => True) (fun a' => repMsgC (mem a') this (aused a) (aused a') None (leftMsg e (mkst r (aused a)))) a r); [|unfold simF in Gl; rewrite E0 in Gl; exact Gl]. clear E0 s.
  unfold mMsgParse. apply simF_init; [exact Hw|slia|]. intros a1 Hw1 K1 U1 V1. num K1. rewrite <- U1 in Hc. assert (Lo : exists lo, lo = aused a) by (now exists (aused a)). destruct Lo as (lo & Lo).
  rewrite <- Lo.
  assert (Z1 : zeros (mem a1) this 68) by (intros i Hi; apply V1; slia). clear V1.
  unfold mStartLineParse. apply simF_assoc. apply simF_init; [exact Hw1|slia|]. intros a2 Hw2 K2 U2 V2. num K2. rewrite <- U2 in Hc. assert (Lo2 : lo = aused a2) by lia. rewrite Lo2. clear lo Lo Lo2.
  assert (Z2 : zeros (mem a2) (this + 20) 48) by (eapply zeros_frame; [agr K2|intros i Hi; apply Z1; lia]). assert (Z3 : zeros (mem a2) this 20) by (intros i Hi; apply V2; slia). clear V2 Z1.
  assert (HE : forall a3, aused a2 <= aused a3 -> zeros (mem a3) (this + 20) 48 -> HInv OMsg (mem a3) this (aused a3) (aused a3) (emptyHdrs OMsg)).
  { intros a3 L3 Z4. apply HInv_empty; [lia| |].
    - intros s Hs. unfold slotAt. cbn [slotsOff slotsNum] in *. apply (zeros_g16 _ _ _ _ Z4); lia.
    - cbn [rawOff]. apply (zeros_g16 _ _ _ _ Z4); lia. }
  assert (Early : forall a3 l, aused a2 <= aused a3 -> zeros (mem a3) (this + 20) 48 -> repLine (mem a3) this (aused a2) (aused a3) l -> repMsgC (mem a3) this (aused a2) (aused a3) None (mkmsg l (emptyHdrs OMsg) [])).
  { intros a3 l L3 Z4 HL. exists (aused a3), (aused a3), NILPTR. cbn [mStart mHdrs mBodies]. split; [exact L3|]. split; [apply N.le_refl|]. split; [intros i Hi; apply Z4; lia|]. split; [exact HL|]. split; [apply HE; auto|].
    rewrite (zeros_g16 _ _ _ _ Z4) by lia. apply bodiesInv_nil. lia. }
  unfold leftMsg.
  set (LM := match parseStartLine e (mkst r (aused a2)) with Ok _ _ => _ | _ => _ end).
  eapply (simF_bind e _ (inR this 20)); [eapply (simF_when e _ _ _ _ _ (fun a' => (exists s, parseStartLine e (mkst r (aused a2)) = Fail s) /\ repLine (mem a') this (aused a2) (aused a') (leftLine e (mkst r (aused a2))))); [apply left_startLine; [exact Hnet|exact Hw2|exact H8|lia|exact Z3]|intros a' s Es _ H; split; [eauto|exact H]]|exact Hw2|slia| |].
  { intros a' K ((s & Es) & HL). num K. assert (EL : LM = mkmsg (leftLine e (mkst r (aused a2))) (emptyHdrs OMsg) []) by (unfold LM; rewrite Es; reflexivity). rewrite EL. apply Early; [lia|eapply zeros_frame; [agr K|exact Z2]|exact HL]. }
  intros [] l a3 r3 E3 Hw3 K3 HS. num K3. unfold startQ in HS. assert (Z4 : zeros (mem a3) (this + 20) 48) by (eapply zeros_frame; [agr K3|exact Z2]). apply repStartLine_line in HS.
  assert (EL : LM = match r3 with [] => mkmsg l (emptyHdrs OMsg) [] | _ => match parseHeaders OMsg e (mkst r3 (aused a3)) with Ok h s2 => mkmsg l h (leftBodies h e s2) | _ => mkmsg l (leftHeaders OMsg e (mkst r3 (aused a3))) [] end end) by (unfold LM; rewrite E3; reflexivity).
  rewrite EL. clear EL LM.
  apply simF_onRest. destruct r3 as [|x r3]; [apply simF_fail; [exact Hw3|apply Early; auto; lia]|].
  set (LM := match parseHeaders OMsg e (mkst (x :: r3) (aused a3)) with Ok _ _ => _ | _ => _ end).
  eapply (simF_bind e _ (hdrW OMsg this (aused a3))); [eapply (simF_when e _ _ _ _ _ (fun a' => (exists s, parseHeaders OMsg e (mkst (x :: r3) (aused a3)) = Fail s) /\ _ a')); [apply (left_parseHeaders e OMsg this (aused a3)); [exact Hnet|exact H8|cbn; lia|cbn; lia|exact Hw3|lia|apply HE; auto; lia]|intros a' s Es _ H; split; [eauto|exact H]]|exact Hw3| | |].
  { unfold hdrW. cbn [slotsOff slotsNum rawOff]. slia. }
  { intros a' K ((s & Es) & L4 & HH). num K. unfold hdrW in K. cbn [slotsOff slotsNum rawOff] in K. assert (EL : LM = mkmsg l (leftHeaders OMsg e (mkst (x :: r3) (aused a3))) []) by (unfold LM; rewrite Es; reflexivity). rewrite EL.
    exists (aused a3), (aused a'), NILPTR. cbn [mStart mHdrs mBodies]. split; [lia|]. split; [exact L4|]. split; [eapply zeros_frame; [agr K|intros i Hi; apply Z4; lia]|].
    split; [eapply repLine_frame; [| |exact HS]; agr K|]. split; [exact HH|]. assert (Zb : g16 (mem a') (this + 66) = NILPTR) by (eapply g16_frame; [agr K|apply (zeros_g16 _ _ _ _ Z4); lia]). rewrite Zb. apply bodiesInv_nil. lia. }
  intros [] h a4 r4 E4 Hw4 K4 (L4 & HH). num K4. unfold hdrW in K4. cbn [slotsOff slotsNum rawOff] in K4.
  assert (EL : LM = mkmsg l h (leftBodies h e (mkst r4 (aused a4)))) by (unfold LM; rewrite E4; reflexivity). rewrite EL. clear EL LM.
  assert (Zb : g16 (mem a4) (this + 66) = NILPTR) by (eapply g16_frame; [agr K4|apply (zeros_g16 _ _ _ _ Z4); lia]).
  assert (Z5 : zeros (mem a4) (this + 58) 6) by (eapply zeros_frame; [agr K4|intros i Hi; apply Z4; lia]).
  assert (HS4 : repLine (mem a4) this (aused a2) (aused a3) l) by (eapply repLine_frame; [| |exact HS]; agr K4).
  assert (Hc' : emptyAtEnd e h (aused a4) = false).
  { unfold cornerCase, msgHeaders, bind, onRest in Hc. rewrite E3 in Hc. cbn [rest] in Hc. rewrite E4 in Hc. exact Hc. }
  assert (G : simF e (bodyW this (aused a4)) (mMsgBody this) (bs <- parseMsgBody h ;; ret (mkmsg l h bs)) (fun _ _ _ => True) (fun a' => repMsgC (mem a') this (aused a2) (aused a') None (mkmsg l h (leftBodies h e (mkst r4 (aused a4))))) a4 r4).
  { pose proof (left_msgBody e this (aused a4) Hnet H8 ltac:(lia) (aused a3) (aused a4) h a4 r4 Hw4 ltac:(split; [lia|]; rewrite Zb; apply bodiesInv_nil; lia) HH ltac:(lia) ltac:(lia) Hc') as S0.
    unfold simF in *. unfold bind. destruct (parseMsgBody h e (mkst r4 (aused a4))) as [bs s|s| |]; [| |exact S0|exact S0].
    - destruct S0 as (y & a' & R & U & K & _). exists y, a'. auto.
    - destruct S0 as (a' & R & U & K & prev & L5 & HB). exists a'. split; [exact R|]. split; [exact U|]. split; [exact K|]. num K. unfold bodyW in K. exists (aused a3), (aused a4), prev. split; [lia|]. split; [lia|]. cbn [mStart mHdrs mBodies].
      split; [eapply zeros_frame; [agr K|exact Z5]|]. split; [eapply repLine_frame; [| |exact HS4]; agr K|]. split; [|exact HB]. cbn [hdrsC].
      eapply HInv_frame; [agr K| | |exact HH].
      + intros s0 Hs. unfold slotAt. cbn [slotsOff slotsNum] in *. eapply g16_frame; [agr K|reflexivity].
      + cbn [rawOff]. eapply g16_frame; [agr K|reflexivity]. }
  eapply simF_conseq; [exact G| |auto|auto]. unfold bodyW. slia.
Qed.
Lemma left_boundary e s : hasBoundary (leftMsg e s).
Proof.
  unfold leftMsg. destruct (parseStartLine e s) as [l s1|s1| |]; try (intros H; discriminate H). destruct (rest s1) as [|x r]; [intros H; discriminate H|].
  destruct (parseHeaders OMsg e s1) as [h s2|s2| |]; try (intros H; discriminate H). unfold hasBoundary, hasMulti. cbn [mHdrs mBodies]. unfold leftBodies. destruct (contentTypeOf h) as [[ad t ps| |pr tr hp t ps|n mt|rr c0 mt|n|mn sb t ps|d t ps|w0 w2]|]; try (intros H; discriminate H).
  destruct (equalNoCase mn _); [|intros H; discriminate H]. destruct (boundaryParam _) as [p|] eqn:Eb; [|intros H; discriminate H]. intros _. eauto.
Qed.
