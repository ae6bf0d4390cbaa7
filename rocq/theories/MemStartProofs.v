(** Methods, versions and start lines on the arena simulate the value layer. *)
From Verif Require Import Base Charset BaseLemmas Num Lws Str Monad MethodTree Lookup NameSpec NameProofs Host Uri Tel GenParam Addr StartLine Arena ArenaProofs ArenaOpsProofs StrProofs ArenaTop Layout Mem MemSim MemTac MemUri MemRep MemList Inv MemHostProofs MemParamProofs MemUriProofs MemSipUriProofs MemEnc MemEncProofs MemTel MemTelProofs MemGen MemGenProofs MemAddr MemAddrProofs MemSteps MemStart Extension.

(** ** Tagged words *)
Lemma isPtr_small w : w < 32768 -> isPtr w = true.
Proof.
  intros H. unfold isPtr. apply N.eqb_eq. change 32768 with (2 ^ 15). apply N.bits_inj_0. intros n. rewrite N.land_spec, N.pow2_bits_eqb.
  destruct (N.eqb_spec 15 n) as [<-|_]; [|apply andb_false_r]. rewrite andb_true_r. destruct (N.eq_dec w 0) as [->|Hz]; [reflexivity|].
  apply N.bits_above_log2. apply N.log2_lt_pow2; [lia|exact H].
Qed.
Definition repMethod (m : N -> N) (p lo hi : N) (v : method) : Prop :=
  match v with
  | MKnown i => g16 m p = setTag i /\ i < 14
  | MOther t => str m lo hi (g16 m p) t
  end.
Definition repVersion (m : N -> N) (p lo hi : N) (v : version) : Prop :=
  match v with
  | V20 => g16 m p = setTag 1
  | VOther t => str m lo hi (g16 m p) t
  end.
Definition repStartLine (m : N -> N) (this lo hi : N) (l : startline) : Prop :=
  match l with
  | SRequest mt ad v => m this = 1 /\ repMethod m (this + 4) lo hi mt /\ repAddr m (this + 8) lo hi ad /\ repVersion m (this + 6) lo hi v
  | SStatus v c t => m this = 0 /\ repVersion m (this + 6) lo hi v /\ g16 m (this + 2) = c /\ str m lo hi (g16 m (this + 18)) t
  end.
Lemma repMethod_frame m m' p lo hi v : g16 m' p = g16 m p -> agreeR m m' lo hi -> repMethod m p lo hi v -> repMethod m' p lo hi v.
Proof. intros E A. unfold repMethod. rewrite E. destruct v; [auto|]. eapply str_frame; eauto. Qed.
Lemma repMethod_mono m p lo hi lo' hi' v : repMethod m p lo hi v -> lo' <= lo -> hi <= hi' -> repMethod m p lo' hi' v.
Proof. unfold repMethod. destruct v; [auto|]. apply str_mono. Qed.
Lemma repVersion_frame m m' p lo hi v : g16 m' p = g16 m p -> agreeR m m' lo hi -> repVersion m p lo hi v -> repVersion m' p lo hi v.
Proof. intros E A. unfold repVersion. rewrite E. destruct v; [auto|]. eapply str_frame; eauto. Qed.
Lemma repVersion_mono m p lo hi lo' hi' v : repVersion m p lo hi v -> lo' <= lo -> hi <= hi' -> repVersion m p lo' hi' v.
Proof. unfold repVersion. destruct v; [auto|]. apply str_mono. Qed.
Lemma repStartLine_frame m m' this lo hi l : agreeR m m' this (this + 20) -> agreeR m m' lo hi -> repStartLine m this lo hi l -> repStartLine m' this lo hi l.
Proof.
  intros A1 A2. assert (E : forall i, i + 2 <= 20 -> g16 m' (this + i) = g16 m (this + i)) by (intros i Hi; unfold g16; rewrite !A1 by lia; reflexivity).
  unfold repStartLine. rewrite (A1 this) by lia. destruct l as [mt ad v|v c t].
  - intros (H1 & H2 & H3 & H4). split; [exact H1|]. split; [eapply repMethod_frame; [apply E; lia|exact A2|exact H2]|].
    split; [eapply repAddr_frame; [eapply agreeR_sub; [exact A1|lia|lia]|exact A2|exact H3]|eapply repVersion_frame; [apply E; lia|exact A2|exact H4]].
  - intros (H1 & H2 & H3 & H4). rewrite !E by lia. split; [exact H1|]. split; [eapply repVersion_frame; [apply E; lia|exact A2|exact H2]|]. split; [exact H3|eapply str_frame; eauto].
Qed.
Lemma repStartLine_mono m this lo hi lo' hi' l : repStartLine m this lo hi l -> lo' <= lo -> hi <= hi' -> repStartLine m this lo' hi' l.
Proof.
  unfold repStartLine. destruct l as [mt ad v|v c t]; intros (H1 & H2 & H3 & H4) L1 L2; (split; [exact H1|]).
  - split; [eapply repMethod_mono; eauto|]. split; [eapply repAddr_mono; eauto|eapply repVersion_mono; eauto].
  - split; [eapply repVersion_mono; eauto|]. split; [exact H3|eapply str_mono; eauto].
Qed.

(** ** Parsers *)
Lemma method_index r i r' : GetSipMethodIndex r = Some (i, r') -> i < 14.
Proof.
  intros H. destruct (N.eq_dec i 0) as [->|Hz]; [lia|]. destruct (method_sound _ _ _ H Hz) as (n & Hin & _).
  assert (G : forallb (fun q => snd q <? 14) methodNames = true) by (vm_compute; reflexivity). rewrite forallb_forall in G. specialize (G _ Hin). cbn in G. lia.
Qed.
Lemma setTag_small i : i < 14 -> setTag i < two16.
Proof.
  intros H. assert (G : forall n, (n < 14)%nat -> setTag (N.of_nat n) < two16).
  { intros n Hn. do 14 (destruct n as [|n]; [vm_compute; reflexivity|]). lia. }
  specialize (G (N.to_nat i) ltac:(lia)). rewrite N2Nat.id in G. exact G.
Qed.
Definition methodQ (p lo : N) : arena -> unit -> method -> Prop := fun a' _ v => repMethod (mem a') p lo (aused a') v.
Lemma sim_method e p a r : wfA e a -> 8 <= p -> p + 2 <= aused a -> sim e (inR p 2) (mMethod p) parseMethod (methodQ p (aused a)) a r.
Proof.
  intros Hw H8 Hl. num Hw. apply sim_onRest. destruct (GetSipMethodIndex r) as [[i mid]|] eqn:E; [|apply sim_panic].
  destruct (i =? SIP_METHOD_UNKNOWN) eqn:Ei.
  - apply sim_eta. eapply sim_strInto; [apply sim_FromPos; [exact Hw|]|exact Hw|auto|exact H8|exact Hl|].
    { destruct (method_skips _ _ _ E) as (q & Eq & _). exists q. exact Eq. }
    intros b a1 r1 Hw1 K1 Hs. apply sim_ret; [exact Hw1|exact Hs].
  - apply sim_goto_bind. apply sim_set16_end; [exact Hw|apply setTag_small; eapply method_index; eauto|auto|]. intros a1 _ _ _ V. split; [exact V|eapply method_index; eauto].
Qed.
Definition versionQ (p lo : N) : arena -> unit -> version -> Prop := fun a' _ v => repVersion (mem a') p lo (aused a') v.
Lemma sim_versionDigits e p r a r0 : wfA e a -> 8 <= p -> p + 2 <= aused a -> suffix r r0 -> sim e (inR p 2) (mVersionDigits p r) (versionDigits r) (versionQ p (aused a)) a r0.
Proof.
  intros Hw H8 Hl Hs. num Hw. unfold mVersionDigits, versionDigits. destruct (span (inset DIGIT) r) as [major r1] eqn:E. destruct major as [|d major]; [apply sim_fail, Hw|].
  destruct r1 as [|x mid]; [apply sim_panic|]. destruct (negb (x =? 46)); [apply sim_goto_bind, sim_fail, Hw|].
  eapply sim_strInto; [apply sim_FromPos; [exact Hw|]|exact Hw|auto|exact H8|exact Hl|].
  { pose proof (span_app (inset DIGIT) r _ _ E) as G. destruct Hs as [q ->]. exists (q ++ (d :: major) ++ [x]). rewrite G, <- !app_assoc. reflexivity. }
  intros b a1 r1 Hw1 K1 Hb. apply sim_onRest. destruct (Nat.leb _ _); [apply sim_fail, Hw1|apply sim_ret; [exact Hw1|exact Hb]].
Qed.
Lemma sim_versionAfter e p a r : wfA e a -> 8 <= p -> p + 2 <= aused a -> sim e (inR p 2) (mVersionAfter p) parseVersionAfter (versionQ p (aused a)) a r.
Proof.
  intros Hw H8 Hl. num Hw. apply sim_onRest.
  assert (D : sim e (inR p 2) (mVersionDigits p r) (versionDigits r) (versionQ p (aused a)) a r) by (apply sim_versionDigits; auto; exists []; reflexivity).
  assert (G : forall r', sim e (inR p 2) (mGoto r' ;~ set16 p (setTag 1)) (goto r' ;;; ret V20) (versionQ p (aused a)) a r).
  { intros r'. apply sim_goto_bind. apply sim_set16_end; [exact Hw|apply setTag_small; vm_compute; reflexivity|auto|]. intros a1 _ _ _ V. exact V. }
  destruct r as [|x1 r1]; [apply sim_panic|]. destruct (x1 =? 50); [|exact D]. destruct r1 as [|x2 r2]; [apply sim_panic|]. destruct (x2 =? 46); [|exact D].
  destruct r2 as [|x3 r3]; [apply sim_panic|]. destruct (x3 =? 48); [|exact D]. destruct r3 as [|x4 r4]; [apply G|]. destruct (negb (IsDigit x4)); [apply G|exact D].
Qed.
Lemma sim_version e p a r : wfA e a -> 8 <= p -> p + 2 <= aused a -> sim e (inR p 2) (mVersion p) parseVersion (versionQ p (aused a)) a r.
Proof.
  intros Hw H8 Hl. apply sim_onRest. destruct (versionStart r) as [r4|]; [|apply sim_fail, Hw]. apply sim_goto_bind. apply sim_versionAfter; auto.
Qed.

Definition startQ (this lo : N) : arena -> unit -> startline -> Prop := fun a' _ l => repStartLine (mem a') this lo (aused a') l.
Lemma sim_requestLine e this a r : netLen e -> wfA e a -> 8 <= this -> this + 20 <= aused a -> g16 (mem a) (this + 14) = NILPTR ->
  sim e (inR this 20) (mRequestLine this) parseRequestLine (startQ this (aused a)) a r.
Proof.
  intros Hn Hw H8 Hl Z. num Hw. unfold mRequestLine, parseRequestLine.
  eapply (sim_bind e _ (inR (this + 4) 2)); [apply sim_method; [exact Hw|lia|lia]|exact Hw|slia|]. intros [] mt a1 r1 Hw1 K1 Hm. unfold methodQ in Hm. num K1. carry1 K1.
  apply sim_posB; [apply posOnly_expect|exact Hw1|]. intros _ r2.
  eapply (sim_bind e _ (inR (this + 8) 10)); [apply (sim_addrSpec e Hn (this + 8)); [lia|exact Hw1|lia|replace (this + 8 + 6) with (this + 14) by lia; exact Z]|exact Hw1|slia|].
  intros [] ad a2 r3 Hw2 K2 Ha. unfold addrQ in Ha. num K2. clear Z.
  assert (Hm2 : repMethod (mem a2) (this + 4) (aused a) (aused a1) mt) by (eapply repMethod_frame; [eapply g16_frame; [agr K2|reflexivity]|agr K2|exact Hm]).
  apply sim_posB; [apply posOnly_expect|exact Hw2|]. intros _ r4.
  eapply (sim_bind e _ (inR (this + 6) 2)); [apply sim_version; [exact Hw2|lia|lia]|exact Hw2|slia|]. intros [] v a3 r5 Hw3 K3 Hv. unfold versionQ in Hv. num K3.
  assert (Hm3 : repMethod (mem a3) (this + 4) (aused a) (aused a1) mt) by (eapply repMethod_frame; [eapply g16_frame; [agr K3|reflexivity]|agr K3|exact Hm2]).
  assert (Ha3 : repAddr (mem a3) (this + 8) (aused a1) (aused a2) ad) by (eapply repAddr_frame; [agr K3|agr K3|exact Ha]).
  apply sim_posB; [apply posOnly_liftB|exact Hw3|]. intros _ r6.
  apply sim_set8_end; [exact Hw3|slia|]. intros a4 Hw4 K4 U4 V4. num K4. split; [exact V4|].
  split; [eapply repMethod_mono; [eapply repMethod_frame; [| |exact Hm3]; [eapply g16_frame; [agr K4|reflexivity]|agr K4]|lia|lia]|].
  split; [eapply repAddr_mono; [eapply repAddr_frame; [| |exact Ha3]; agr K4|lia|lia]|].
  eapply repVersion_mono; [eapply repVersion_frame; [| |exact Hv]; [eapply g16_frame; [agr K4|reflexivity]|agr K4]|lia|lia].
Qed.
Lemma sim_statusLine e this a r : wfA e a -> 8 <= this -> this + 20 <= aused a ->
  sim e (inR this 20) (mStatusLine this) parseStatusLine (startQ this (aused a)) a r.
Proof.
  intros Hw H8 Hl. num Hw. unfold mStatusLine, parseStatusLine.
  eapply (sim_bind e _ (inR (this + 6) 2)); [apply sim_versionAfter; [exact Hw|lia|lia]|exact Hw|slia|]. intros [] v a1 r1 Hw1 K1 Hv. unfold versionQ in Hv. num K1.
  apply sim_posB; [apply posOnly_expect|exact Hw1|]. intros _ r2.
  eapply (sim_bind e _ (inR (this + 2) 2) _ _ _ _ (fun a' _ c => aused a' = aused a1 /\ g16 (mem a') (this + 2) = c)); [|exact Hw1|slia|].
  { unfold pUIntW, pUInt. unfold sim, bind, onRest, mOnRest. cbn [rest used]. destruct (ParseUInt r2) as [[[c n] r3]|].
    - cbn. eexists tt, _. split; [reflexivity|]. assert (L : u16 c < two16) by (apply N.mod_lt; discriminate).
      split; [reflexivity|]. split; [|split; [reflexivity|]].
      + destruct Hw1 as (_ & _ & _ & Hc). repeat split; cbn; auto; try lia. intros i _ Hi. now apply p16_other.
      + cbn. rewrite g16_p16 by exact L. reflexivity.
    - cbn. eexists. split; [reflexivity|]. split; [reflexivity|]. destruct Hw1 as (_ & _ & _ & Hc). repeat split; cbn; auto; try lia. intros i _ Hi. now apply p16_other. }
  intros [] c a2 r3 Hw2 K2 (U2 & V2). num K2.
  assert (Hv2 : repVersion (mem a2) (this + 6) (aused a) (aused a1) v) by (eapply repVersion_frame; [eapply g16_frame; [agr K2|reflexivity]|agr K2|exact Hv]).
  apply sim_posB; [apply posOnly_expect|exact Hw2|]. intros _ r4.
  eapply sim_strInto; [apply sim_EscapableEmpty, Hw2|exact Hw2|slia|lia|lia|]. intros t a3 r5 Hw3 K3 Ht. num K3.
  assert (Hv3 : repVersion (mem a3) (this + 6) (aused a) (aused a1) v) by (eapply repVersion_frame; [eapply g16_frame; [agr K3|reflexivity]|agr K3|exact Hv2]). carry1 K3.
  apply sim_posB; [apply posOnly_liftB|exact Hw3|]. intros _ r6.
  apply sim_set8_end; [exact Hw3|slia|]. intros a4 Hw4 K4 U4 V4. num K4. split; [exact V4|].
  split; [eapply repVersion_mono; [eapply repVersion_frame; [| |exact Hv3]; [eapply g16_frame; [agr K4|reflexivity]|agr K4]|lia|lia]|]. repeat carry1 K4.
  split; [exact V2|]. assert (E : g16 (mem a4) (this + 18) = g16 (mem a3) (this + 18)) by (eapply g16_frame; [agr K4|reflexivity]). rewrite E.
  eapply str_mono; [exact Ht|lia|lia].
Qed.
Lemma sim_startLine e this a r : netLen e -> wfA e a -> 8 <= this -> this + 20 <= aused a -> g16 (mem a) (this + 14) = NILPTR ->
  sim e (inR this 20) (mStartLine this) parseStartLine (startQ this (aused a)) a r.
Proof.
  intros Hn Hw H8 Hl Z. apply sim_onRest. destruct (versionStart r) as [r4|]; [apply sim_goto_bind; apply sim_statusLine; auto|apply sim_requestLine; auto].
Qed.

(** ** Encoders: the pointers must fit in 15 bits. *)
Section Enc.
  Variable e : env.
  Variable a : arena.
  Variable hi : N.
  Hypothesis Hw : wfA e a.
  Hypothesis Hhi : hi <= aused a.
  Hypothesis Hcap : hi < cap a.
  Lemma str_isPtr m lo p b : hi < 32768 -> str m lo hi p b -> isPtr p = true.
  Proof using Type. clear. intros H15 (H1 & H2 & _). apply isPtr_small. lia. Qed.
  Lemma known_tag i : i < 14 -> isPtr (setTag i) = false /\ nth_error methodTable (N.to_nat (tagValue (setTag i))) = Some (nth (N.to_nat i) methodTable []).
  Proof using Type.
    intros H. clear - H. assert (G : forall n, (n < 14)%nat -> isPtr (setTag (N.of_nat n)) = false /\ nth_error methodTable (N.to_nat (tagValue (setTag (N.of_nat n)))) = Some (nth n methodTable [])).
    { intros n Hn. do 14 (destruct n as [|n]; [split; vm_compute; reflexivity|]). lia. }
    specialize (G (N.to_nat i) ltac:(lia)). rewrite N2Nat.id in G. exact G.
  Qed.
  Lemma enc_method p lo v : (extMethod v = true -> hi < 32768) -> repMethod (mem a) p lo hi v -> mEncMethod p e a = WOk (encMethod v).
  Proof.
    unfold repMethod, mEncMethod, eMem, encMethod. intros H15. destruct v as [i|t].
    - intros (-> & Hi). destruct (known_tag i Hi) as (-> & ->). reflexivity.
    - intros H. rewrite (str_isPtr _ _ _ _ (H15 eq_refl) H). cbn [negb]. eapply enc_cstr; eauto.
  Qed.
  Lemma enc_version p lo v : (extVersion v = true -> hi < 32768) -> repVersion (mem a) p lo hi v -> mEncVersion p e a = WOk (encVersion v).
  Proof.
    unfold repVersion, mEncVersion, eMem, encVersion. intros H15. destruct v as [|t].
    - intros ->. reflexivity.
    - intros H. rewrite (str_isPtr _ _ _ _ (H15 eq_refl) H). cbn [negb]. apply enc_app; [reflexivity|]. eapply enc_cstr; eauto.
  Qed.
  Lemma enc_startLine this lo l : (extLine l = true -> hi < 32768) -> 8 <= lo -> repStartLine (mem a) this lo hi l -> mEncStartLine this e a = WOk (encStartLine e l).
  Proof.
    intros H15 H8. unfold repStartLine, mEncStartLine, eMem, encStartLine. destruct l as [mt ad v|v c t]; cbn [extLine] in H15.
    1: assert (Hm : extMethod mt = true -> hi < 32768) by (intros Ee; apply H15; rewrite Ee; reflexivity); assert (Hv : extVersion v = true -> hi < 32768) by (intros Ee; apply H15; rewrite Ee; apply orb_true_r).
    - intros (-> & H2 & H3 & H4). cbn [negb N.eqb]. apply enc_app; [|reflexivity].
      apply enc_app; [eapply enc_method; eauto|]. apply (enc_app e a (eOut [32]) _ [32] _); [reflexivity|].
      apply enc_app; [eapply enc_addrSpec; eauto|]. apply (enc_app e a (eOut [32]) _ [32] _); [reflexivity|]. eapply enc_version; eauto.
    - intros (-> & H2 & H3 & H4). cbn [negb N.eqb]. rewrite H3. apply enc_app; [|reflexivity].
      apply enc_app; [eapply enc_version; eauto|]. apply (enc_app e a (eOut [32]) _ [32] _); [reflexivity|].
      apply enc_app; [reflexivity|]. apply (enc_app e a (eOut [32]) _ [32] _); [reflexivity|].
      unfold eEnv. destruct (eReasonNoEscape e); cbn [negb]; [eapply enc_cstr; eauto|eapply enc_escape; eauto].
  Qed.
End Enc.
