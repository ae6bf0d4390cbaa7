(** UriParam, UriHeader and SipUri on the arena simulate the value layer. *)
From Verif Require Import Base Charset BaseLemmas Num Lws Str Monad Host Uri Arena ArenaProofs Layout Mem MemSim MemTac MemUri MemRep MemList Inv MemHostProofs MemParamProofs.

(** ** Loops "one (sep one)*" *)
Lemma sim_contIf {X A} e (W : N -> Prop) c (x : X) (v : A) (J : arena -> X -> A -> Prop) a r : wfA e a -> J a x v ->
  sim e W (mContIf c x) (contIf c v) (fun a' y w => match y, w with inl x', inl v' => J a' x' v' | inr y', inr w' => J a' y' w' | _, _ => False end) a r.
Proof.
  intros Hw HJ. apply sim_onRest. destruct r as [|y r1]; [apply sim_ret; auto|]. destruct (y =? c); [|apply sim_ret; auto].
  apply sim_goto_bind. apply sim_ret; auto.
Qed.
Lemma sim_sepLoop {X A} e (W : N -> Prop) c (one : X -> M X) (oneP : A -> P A) (J : arena -> X -> A -> Prop) :
  (forall x v a r, wfA e a -> J a x v -> sim e W (one x) (oneP v) J a r) ->
  forall x v a r, wfA e a -> J a x v ->
  sim e W (loopM (fun x => mOnRest (fun r => match r with [] => mret (inr x) | _ => mbind (one x) (mContIf c) end)) x) (sepLoop c oneP v) J a r.
Proof.
  intros H1 x v a r Hw HJ. unfold sepLoop. apply (sim_loop e W _ _ J J); auto.
  clear - H1. intros x v a r Hw HJ. apply sim_onRest. destruct r as [|y r1]; [apply sim_ret; auto|].
  eapply (sim_bind e W W); [apply H1; eassumption|exact Hw|auto|]. intros x1 v1 a1 r2 Hw1 K1 HJ1. now apply sim_contIf.
Qed.

(** A fact about the value. *)
Lemma sim_and {X A} e (W : N -> Prop) (m : M X) (p : P A) Q (R : A -> Prop) a r : sim e W m p Q a r -> (forall v s', p e (mkst r (aused a)) = Ok v s' -> R v) ->
  sim e W m p (fun a' x v => Q a' x v /\ R v) a r.
Proof. unfold sim. intros H HR. destruct (p e _) as [v s| | |]; auto. destruct H as (x & a' & H1 & H2 & H3 & H4). exists x, a'. split; [assumption|]. split; [assumption|]. split; [assumption|]. split; auto. eapply HR; eauto. Qed.
Lemma sim_bindR {X Y A} e (W W1 : N -> Prop) (m : M X) (p : P A) (f : X -> M Y) Q1 Q a r :
  sim e W1 m p Q1 a r -> wfA e a -> (forall i, 8 <= i < aused a -> W1 i -> W i) ->
  (forall x v a1 r1, wfA e a1 -> keeps W1 a a1 -> Q1 a1 x v -> sim e (orS W (from (aused a))) (f x) (ret v) Q a1 r1) ->
  sim e W (mbind m f) p Q a r.
Proof.
  intros H Hw HW K. pose proof (sim_bind e W W1 m p f (fun v => ret v) Q1 Q a r H Hw HW K) as G. unfold sim, bind, ret in G. unfold sim.
  destruct (p e (mkst r (aused a))) as [v [sr su]| | |]; exact G.
Qed.

Lemma sim_mapR {X A B} e (W : N -> Prop) (m : M X) (p : P A) (f : A -> B) Q (Q' : arena -> X -> B -> Prop) a r : sim e W m p Q a r ->
  (forall a' x v, keeps W a a' -> Q a' x v -> Q' a' x (f v)) -> sim e W m (v <- p ;; ret (f v)) Q' a r.
Proof.
  unfold sim, bind, ret. intros H HQ. destruct (p e _) as [v s| | |]; auto. destruct H as (x & a' & H1 & H2 & H3 & H4). exists x, a'. auto.
Qed.

(** ** UriParam *)
Lemma repUParam_frame m m' p q x : (forall i, p <= i < q -> ~ inR (p + 4) 2 i -> m' i = m i) -> repUParam m p q x -> repUParam m' p q x.
Proof.
  intros A (H1 & H2). assert (L : p + 6 <= q) by (destruct H1 as (G1 & G2 & _); lia). assert (A2 : agreeR m m' (p + 6) q) by (intros i Hi; apply A; slia).
  assert (E1 : g16 m' p = g16 m p) by (unfold g16; rewrite !A by slia; reflexivity).
  assert (E2 : g16 m' (p + 2) = g16 m (p + 2)) by (unfold g16; rewrite !A by slia; reflexivity).
  split; [rewrite E1|rewrite E2]; [eapply str_frame; eauto|eapply ostr_frame; eauto].
Qed.
Definition uparamQ (this : N) (lo : N) : arena -> unit -> uparam -> Prop := fun a' _ v =>
  exists mid, lo <= mid /\ mid <= aused a' /\ str (mem a') lo mid (g16 (mem a') this) (upName v) /\ ostr (mem a') mid (aused a') (g16 (mem a') (this + 2)) (upValue v) /\ upName v <> [].
Lemma zeros16 m p n q : zeros m p n -> p <= q -> q + 2 <= p + n -> g16 m q = NILPTR.
Proof. intros Z H1 H2. unfold g16. rewrite !Z by lia. reflexivity. Qed.

Lemma sim_uriParam e cn cv this a r : wfA e a -> 8 <= this -> this + 6 <= aused a -> zeros (mem a) this 6 ->
  sim e (inR this 4) (mUriParam cn cv this) (parseUriParam cn cv) (uparamQ this (aused a)) a r.
Proof.
  intros Hw H8 Hl Z. num Hw. assert (Z2 : g16 (mem a) (this + 2) = NILPTR) by (eapply zeros16; [exact Z|lia|lia]). clear Z.
  unfold mUriParam, parseUriParam. eapply (sim_bind e _ nowhere); [eapply sim_and; [apply sim_Escapable, Hw|intros v s' E; exact (proj1 (escapable_inv _ _ _ _ _ E))]|exact Hw|slia|].
  intros q n a1 r1 Hw1 K1 ((Hs & Hq & Hq1 & Hu) & Hne). carry K1.
  apply sim_set16; [exact Hw1|exact Hq|slia|]. step_in a2. apply sim_onRest.
  assert (N0 : forall r2, sim e (orS (orS (inR this 4) (from (aused a))) (from (aused a1))) (mret tt) (ret (mkup n None)) (uparamQ this (aused a)) a2 r2).
  { intros r2. apply sim_ret; [exact Hw0|]. exists (aused a2). split; [lia|]. split; [lia|]. split; [rewrite V; eapply str_mono; [exact Hs|lia|lia]|split; [exact Z2|exact Hne]]. }
  destruct r1 as [|x r2]; [apply N0|]. destruct (x =? 61); [|apply N0]. apply sim_goto_bind.
  eapply (sim_bind e _ nowhere); [apply sim_Escapable, Hw0|exact Hw0|slia|].
  intros q2 v a3 r3 Hw3 K3 (Hs2 & Hq2 & Hq3 & Hu2). carry K3. apply sim_eta.
  apply sim_set16; [exact Hw3|exact Hq2|slia|]. intros a4 Hw4 K4 U4 V4. carry K4. apply sim_ret; [exact Hw4|].
  exists (aused a2). split; [lia|]. split; [lia|]. split; [rewrite V; eapply str_mono; [exact Hs|lia|lia]|]. split; [|exact Hne]. cbn [upValue ostr]. rewrite V4. eapply str_mono; [exact Hs2|lia|lia].
Qed.
Lemma sim_uriHeader e this a r : wfA e a -> 8 <= this -> this + 6 <= aused a -> zeros (mem a) this 6 ->
  sim e (inR this 4) (mUriHeader this) parseUriHeader (uparamQ this (aused a)) a r.
Proof.
  intros Hw H8 Hl Z. num Hw. assert (Z2 : g16 (mem a) (this + 2) = NILPTR) by (eapply zeros16; [exact Z|lia|lia]). clear Z.
  unfold mUriHeader, parseUriHeader. eapply (sim_bind e _ nowhere); [eapply sim_and; [apply sim_Escapable, Hw|intros v s' E; exact (proj1 (escapable_inv _ _ _ _ _ E))]|exact Hw|slia|].
  intros q n a1 r1 Hw1 K1 ((Hs & Hq & Hq1 & Hu) & Hne). carry K1.
  apply sim_set16; [exact Hw1|exact Hq|slia|]. step_in a2. apply sim_onRest.
  destruct r1 as [|x r2]; [apply sim_fail, Hw0|]. destruct (x =? 61); [|apply sim_fail, Hw0]. apply sim_goto_bind.
  destruct r2 as [|y r2].
  { apply sim_ret; [exact Hw0|]. exists (aused a2). split; [lia|]. split; [lia|]. split; [rewrite V; eapply str_mono; [exact Hs|lia|lia]|split; [exact Z2|exact Hne]]. }
  eapply (sim_bind e _ nowhere); [apply sim_EscapableEmpty, Hw0|exact Hw0|slia|].
  intros q2 v a3 r3 Hw3 K3 (Hs2 & Hq2 & Hq3 & Hu2). carry K3. apply sim_eta.
  apply sim_set16; [exact Hw3|exact Hq2|slia|]. intros a4 Hw4 K4 U4 V4. carry K4. apply sim_ret; [exact Hw4|].
  exists (aused a2). split; [lia|]. split; [lia|]. split; [rewrite V; eapply str_mono; [exact Hs|lia|lia]|]. split; [|exact Hne]. cbn [upValue ostr]. rewrite V4. eapply str_mono; [exact Hs2|lia|lia].
Qed.
Lemma sim_withEnvL {X Y A} e (W : N -> Prop) (m : env -> M X) (f : X -> M Y) (p : P A) Q a r : sim e W (mbind (m e) f) p Q a r -> sim e W (mbind (mWithEnv m) f) p Q a r.
Proof. exact (fun H => H). Qed.

Section Loops.
  Variable e : env.
  Notation UL := (LInv repUParam 6 4 6).
  Lemma UL_frame m m' lo hi hi' head prev t k l : agreeR m m' lo hi -> hi <= hi' -> UL m lo hi head prev t k l -> UL m' lo hi' head prev t k l.
  Proof. apply LInv_frame; [lia|exact repUParam_frame]. Qed.

  Definition uriJ (tbl lo : N) : arena -> N * N -> known uparam * list uparam -> Prop := fun a hp kl =>
    lo <= aused a /\ UL (mem a) lo (aused a) (fst hp) (snd hp) (g16 (mem a) tbl) (fst kl) (snd kl).
  Lemma sim_uriParamOne cn cv this lo hp kl a r : wfA e a -> 8 <= this -> this + 18 <= lo -> uriJ (this + 16) lo a hp kl ->
    sim e (orS (inR (this + 16) 2) (from lo)) (mUriParamOne cn cv (Some (mSipUriSet this)) hp) (uriParamOne cn cv sipUriSet kl) (uriJ (this + 16) lo) a r.
  Proof.
    intros Hw H8 Hlo (Hla & HJ). num Hw. unfold mUriParamOne, uriParamOne.
    eapply (sim_bind e _ nowhere); [apply sim_new; [exact Hw|lia|lia]|exact Hw|slia|]. intros p [] a1 r1 Hw1 K1 (-> & U1 & Z1). num K1.
    eapply UL_frame in HJ; [|agr K1|apply N.le_refl].
    replace (g16 (mem a) (this + 16)) with (g16 (mem a1) (this + 16)) in HJ by (eapply g16_frame; [|reflexivity]; agr K1).
    eapply (sim_bind e _ (inR (aused a) 4)); [apply sim_uriParam; [exact Hw1|lia|lia|exact Z1]|exact Hw1|slia|]. intros [] v a2 r2 Hw2 K2 (mid & Hm1 & Hm2 & Hs & Hv & Hne).
    assert (Hz : g16 (mem a2) (aused a + 4) = NILPTR) by (eapply g16_frame; [|eapply zeros16; [exact Z1|lia|lia]]; agr K2). num K2.
    eapply UL_frame in HJ; [|agr K2|apply N.le_refl].
    replace (g16 (mem a1) (this + 16)) with (g16 (mem a2) (this + 16)) in HJ by (eapply g16_frame; [|reflexivity]; agr K2).
    apply sim_assoc, sim_get16, sim_withEnvL. destruct kl as [k l].
    pose proof (str_small _ _ _ _ _ _ _ Hs Hw2 Hm2) as Hsm. assert (Hsl : g16 (mem a2) (aused a) < aused a2) by (destruct Hs as (_ & G & _); destruct (upName v); [congruence|]; rewrite len_cons in G; lia).
    pose proof (LInv_head repUParam 6 4 6 ltac:(lia) repUParam_frame _ _ _ _ _ _ _ _ HJ) as (_ & Hpv & Htb & _).
    eapply sim_conseq.
    - apply (sim_addParam repUParam 6 4 sipUriKnownNames upName ltac:(lia) repUParam_frame e ltac:(vm_compute; split; reflexivity) (fSipUriKnown e) lo (aused a) (this + 16) k l v (aused a) (aused a2) (g16 (mem a2) (aused a)) hp a2 r2 Hw2); try lia; auto.
      + split; [eapply str_mono; [exact Hs|lia|lia]|eapply ostr_mono; [exact Hv|lia|lia]].
      + eapply str_mono; [exact Hs|lia|lia].
      + intros E _. unfold bigTables. rewrite E. reflexivity.
    - unfold apW. slia.
    - intros a' x w K (HL & _). split; [num K; lia|exact HL].
  Qed.
  Lemma sim_uriParams cn cv this lo a r : wfA e a -> 8 <= this -> this + 18 <= lo -> lo <= aused a -> g16 (mem a) (this + 16) = NILPTR ->
    sim e (orS (inR (this + 16) 2) (from lo)) (mUriParams cn cv (Some (mSipUriSet this))) (parseUriParams cn cv sipUriSet (None, []))
      (fun a' p kl => exists hp, fst hp = p /\ uriJ (this + 16) lo a' hp kl) a r.
  Proof.
    intros Hw H8 Hlo Hla Hz. num Hw. apply sim_onRest. destruct r as [|x r1]; [apply sim_fail, Hw|].
    apply (sim_bindR e _ (orS (inR (this + 16) 2) (from lo)) _ _ _ (uriJ (this + 16) lo)); [|exact Hw|slia|].
    - apply sim_sepLoop; [|exact Hw|split; [exact Hla|]; cbn [fst snd]; rewrite Hz; apply LInv_nil; lia].
      intros hp kl a0 r0 Hw0 HJ. apply sim_uriParamOne; auto.
    - intros hp kl a1 r2 Hw1 K1 HJ. apply sim_ret; [exact Hw1|]. exists hp. auto.
  Qed.

  (** Lists without a table. *)
  Definition listJ (lo : N) : arena -> N * N -> list uparam -> Prop := fun a hp l => lo <= aused a /\ UL (mem a) lo (aused a) (fst hp) (snd hp) NILPTR None l.
  Lemma sim_appendOne (m : N -> M unit) (p : P uparam) lo hp l a r :
    (forall this a r, wfA e a -> 8 <= this -> this + 6 <= aused a -> zeros (mem a) this 6 -> sim e (inR this 4) (m this) p (uparamQ this (aused a)) a r) ->
    wfA e a -> 8 <= lo -> listJ lo a hp l ->
    sim e (from lo) (p <~ mNew 6 ;; m p ;~ mAppend 4 hp p) (allocStruct 6 ;;; (h <- p ;; ret (l ++ [h]))) (listJ lo) a r.
  Proof.
    intros Hm Hw Hlo (Hla & HJ). num Hw.
    eapply (sim_bind e _ nowhere); [apply sim_new; [exact Hw|lia|lia]|exact Hw|slia|]. intros q [] a1 r1 Hw1 K1 (-> & U1 & Z1). num K1.
    eapply UL_frame in HJ; [|agr K1|apply N.le_refl].
    eapply (sim_bind e _ (inR (aused a) 4)); [apply Hm; [exact Hw1|lia|lia|exact Z1]|exact Hw1|slia|]. intros [] v a2 r2 Hw2 K2 (mid & Hm1 & Hm2 & Hs & Hv & Hne).
    assert (Hz : g16 (mem a2) (aused a + 4) = NILPTR) by (eapply g16_frame; [|eapply zeros16; [exact Z1|lia|lia]]; agr K2). num K2.
    eapply UL_frame in HJ; [|agr K2|apply N.le_refl].
    pose proof (LInv_head repUParam 6 4 6 ltac:(lia) repUParam_frame _ _ _ _ _ _ _ _ HJ) as (_ & Hpv & _).
    eapply (sim_conseq e (orS (from lo) (from (aused a)))).
    - eapply (sim_append repUParam 6 4 [[]; []; []; []; []; []] upName ltac:(lia) repUParam_frame e ltac:(vm_compute; split; reflexivity) _ lo (aused a) NILPTR None l v (aused a) (aused a2) hp a2 r2 Hw2 HJ); try lia; auto.
      + split; [eapply str_mono; [exact Hs|lia|lia]|eapply ostr_mono; [exact Hv|lia|lia]].
      + slia.
    - slia.
    - intros a' x w K (HL & _). split; [num K; lia|exact HL].
  Qed.
  Lemma sim_uriHeaders lo a r : wfA e a -> 8 <= lo -> lo <= aused a ->
    sim e (from lo) mUriHeaders parseUriHeaders (fun a' p l => exists hp, fst hp = p /\ listJ lo a' hp l) a r.
  Proof.
    intros Hw Hlo Hla. num Hw. apply sim_onRest. destruct r as [|x r1]; [apply sim_fail, Hw|].
    apply (sim_bindR e _ (from lo) _ _ _ (listJ lo)); [|exact Hw|slia|].
    - apply sim_sepLoop; [|exact Hw|split; [exact Hla|]; apply LInv_nil; lia].
      intros hp kl a0 r0 Hw0 HJ. apply sim_appendOne; auto. intros. now apply sim_uriHeader.
    - intros hp kl a1 r2 Hw1 K1 HJ. apply sim_ret; [exact Hw1|]. exists hp. auto.
  Qed.
End Loops.

(** ** Frames of lists and tables *)
Section Frames.
  Context {A : Type} (node : (N -> N) -> N -> N -> A -> Prop) (size next : N).
  Hypothesis Hnext : next + 2 <= size.
  Hypothesis node_frame : forall m m' p q x, agreeR m m' p q -> node m p q x -> node m' p q x.
  Lemma repList_frame m m' lo hi p l : agreeR m m' lo hi -> repList node size next m lo hi p l -> repList node size next m' lo hi p l.
  Proof.
    intros Ag. revert lo p Ag. induction l as [|x l IH]; intros lo p Ag; cbn [repList]; [auto|]. intros (H1 & H2 & (q & Q1 & Q2 & Q3) & H4).
    split; [exact H1|]. split; [exact H2|]. split.
    - exists q. split; [exact Q1|]. split; [exact Q2|]. eapply node_frame; [|exact Q3]. eapply agreeR_sub; [exact Ag|lia|lia].
    - assert (E : g16 m' (p + next) = g16 m (p + next)) by (unfold g16; rewrite !Ag by lia; reflexivity). rewrite E. apply IH; [|exact H4]. eapply agreeR_sub; [exact Ag|lia|lia].
  Qed.
  Lemma repList_mono m lo hi lo' hi' p l : repList node size next m lo hi p l -> lo' <= lo -> hi <= hi' -> repList node size next m lo' hi' p l.
  Proof using Type. clear Hnext node_frame.
    intros H L1 L2. revert lo lo' p L1 H. induction l as [|x l IH]; intros lo lo' p L1; cbn [repList]; [auto|]. intros (H1 & H2 & (q & Q1 & Q2 & Q3) & H4).
    split; [lia|]. split; [exact H2|]. split; [|eapply IH; [|exact H4]; lia]. exists q. split; [exact Q1|]. split; [lia|exact Q3].
  Qed.
  Lemma repTable_frame n m m' lo hi t k : agreeR m m' lo hi -> repTable node size n m lo hi t k -> repTable node size n m' lo hi t k.
  Proof using node_frame. clear Hnext.
    intros Ag. destruct k as [tbl|]; [|auto]. intros (H1 & H2 & H3 & H4 & H5). split; [exact H1|]. split; [exact H2|]. split; [exact H3|]. split; [exact H4|].
    intros i Hi. specialize (H5 i Hi). assert (E : g16 m' (t + 2 * N.of_nat i) = g16 m (t + 2 * N.of_nat i)) by (unfold g16; rewrite !Ag by lia; reflexivity).
    rewrite E. destruct (nth i tbl None) as [x|]; [|exact H5]. destruct H5 as (G1 & G2 & q & Q1 & Q2 & Q3).
    split; [exact G1|]. split; [exact G2|]. exists q. split; [exact Q1|]. split; [exact Q2|]. eapply node_frame; [|exact Q3]. eapply agreeR_sub; [exact Ag|lia|lia].
  Qed.
  Lemma repTable_mono n m lo hi lo' hi' t k : repTable node size n m lo hi t k -> lo' <= lo -> hi <= hi' -> repTable node size n m lo' hi' t k.
  Proof using Type. clear Hnext node_frame.
    intros H L1 L2. destruct k as [tbl|]; [|exact H]. destruct H as (H1 & H2 & H3 & H4 & H5). split; [lia|]. split; [exact H2|]. split; [lia|]. split; [exact H4|].
    intros i Hi. specialize (H5 i Hi). destruct (nth i tbl None) as [x|]; [|exact H5]. destruct H5 as (G1 & G2 & q & Q1 & Q2 & Q3).
    split; [lia|]. split; [exact G2|]. exists q. split; [exact Q1|]. split; [lia|exact Q3].
  Qed.
End Frames.
Lemma repUParam_agree m m' p q x : agreeR m m' p q -> repUParam m p q x -> repUParam m' p q x.
Proof. intros Ag. apply repUParam_frame. intros i Hi _. now apply Ag. Qed.
Lemma repUParams_frame m m' lo hi p l : agreeR m m' lo hi -> repUParams m lo hi p l -> repUParams m' lo hi p l.
Proof. apply repList_frame; [lia|exact repUParam_agree]. Qed.
Lemma repSipUri_frame m m' this lo hi u : agreeR m m' this (this + 18) -> agreeR m m' lo hi -> repSipUri m this lo hi u -> repSipUri m' this lo hi u.
Proof.
  intros A1 A2 (H1 & H2 & H3 & H4 & H5 & H6 & H7). assert (E : forall i, i + 2 <= 18 -> g16 m' (this + i) = g16 m (this + i)) by (intros i Hi; unfold g16; rewrite !A1 by lia; reflexivity).
  unfold repSipUri. rewrite !E by lia. rewrite A1 by lia. split; [exact H1|]. split; [eapply ostr_frame; eauto|]. split; [eapply ostr_frame; eauto|].
  split; [eapply repHostPort_frame; [|exact A2|exact H4]; eapply agreeR_sub; [exact A1|lia|lia]|].
  split; [eapply repUParams_frame; eauto|]. split; [eapply repUParams_frame; eauto|]. eapply repTable_frame; [exact repUParam_agree|exact A2|exact H7].
Qed.
Lemma repSipUri_mono m this lo hi lo' hi' u : repSipUri m this lo hi u -> lo' <= lo -> hi <= hi' -> repSipUri m this lo' hi' u.
Proof.
  intros (H1 & H2 & H3 & H4 & H5 & H6 & H7) L1 L2. split; [exact H1|]. split; [eapply ostr_mono; eauto|]. split; [eapply ostr_mono; eauto|].
  split; [eapply repHostPort_mono; eauto|]. split; [eapply repList_mono; eauto|]. split; [eapply repList_mono; eauto|]. eapply repTable_mono; eauto.
Qed.
