(** Start lines that may be the rest of a failed Parse: a field of the status line that was not reached is 0. *)
From Verif Require Import Base Charset BaseLemmas Num Lws Str Monad MethodTree HeaderTree Lookup NameSpec NameProofs Host Uri Tel GenParam Addr StartLine Headers RawHeaders Msg Arena ArenaProofs ArenaOpsProofs StrProofs ArenaTop Layout Mem MemSim MemTac MemUri MemRep MemList Inv MemHostProofs MemParamProofs MemUriProofs MemSipUriProofs MemEnc MemEncProofs MemTel MemTelProofs MemGen MemGenProofs MemAddr MemAddrProofs MemSteps MemStart MemStartProofs MemHdr MemHdrProofs MemBlocks MemMsg MemMsgProofs MemHeadersProofs MemBodyProofs Extension.

Definition repVer (m : N -> N) (p lo hi : N) (v : version) : Prop :=
  match v with
  | V20 => g16 m p = setTag 1
  | VOther t => dataOk m lo hi (g16 m p) t
  end.
Definition repLine (m : N -> N) (this lo hi : N) (l : startline) : Prop :=
  match l with
  | SRequest _ _ _ => repStartLine m this lo hi l
  | SStatus v c t => m this = 0 /\ repVer m (this + 6) lo hi v /\ g16 m (this + 2) = c /\ dataOk m lo hi (g16 m (this + 18)) t
  end.
Lemma repVersion_ver m p lo hi v : repVersion m p lo hi v -> repVer m p lo hi v.
Proof. destruct v; cbn [repVersion repVer]; [auto|]. now right. Qed.
Lemma repStartLine_line m this lo hi l : repStartLine m this lo hi l -> repLine m this lo hi l.
Proof. destruct l; cbn [repLine]; [auto|]. intros (H1 & H2 & H3 & H4). split; [exact H1|]. split; [now apply repVersion_ver|]. split; [exact H3|now right]. Qed.
Lemma dataOk_mono m lo hi lo' hi' p t : dataOk m lo hi p t -> lo' <= lo -> hi <= hi' -> dataOk m lo' hi' p t.
Proof. intros [H|H] L1 L2; [now left|right; eapply str_mono; eauto]. Qed.
Lemma repVer_frame m m' p lo hi v : g16 m' p = g16 m p -> agreeR m m' lo hi -> repVer m p lo hi v -> repVer m' p lo hi v.
Proof. intros E A. unfold repVer. rewrite E. destruct v; [auto|]. apply dataOk_frame, A. Qed.
Lemma repVer_mono m p lo hi lo' hi' v : repVer m p lo hi v -> lo' <= lo -> hi <= hi' -> repVer m p lo' hi' v.
Proof. unfold repVer. destruct v; [auto|]. apply dataOk_mono. Qed.
Lemma repLine_frame m m' this lo hi l : agreeR m m' this (this + 20) -> agreeR m m' lo hi -> repLine m this lo hi l -> repLine m' this lo hi l.
Proof.
  intros A1 A2. destruct l as [mt ad v|v c t]; [now apply repStartLine_frame|]. assert (E : forall i, i + 2 <= 20 -> g16 m' (this + i) = g16 m (this + i)) by (intros i Hi; unfold g16; rewrite !A1 by lia; reflexivity).
  unfold repLine. rewrite (A1 this) by lia. intros (H1 & H2 & H3 & H4). rewrite !E by lia. split; [exact H1|]. split; [eapply repVer_frame; [apply E; lia|exact A2|exact H2]|]. split; [exact H3|eapply dataOk_frame; eauto].
Qed.
Lemma repLine_mono m this lo hi lo' hi' l : repLine m this lo hi l -> lo' <= lo -> hi <= hi' -> repLine m this lo' hi' l.
Proof.
  destruct l as [mt ad v|v c t]; [apply repStartLine_mono|]. unfold repLine. intros (H1 & H2 & H3 & H4) L1 L2. split; [exact H1|]. split; [eapply repVer_mono; eauto|]. split; [exact H3|eapply dataOk_mono; eauto].
Qed.
Lemma enc_line e a hi this lo l : wfA e a -> hi <= aused a -> hi < cap a -> (extLine l = true -> hi < 32768) -> 8 <= lo -> repLine (mem a) this lo hi l -> mEncStartLine this e a = WOk (encStartLine e l).
Proof.
  intros Hw Hh Hc H15 H8. destruct l as [mt ad v|v c t]; [cbn [repLine]; intros H; exact (enc_startLine e a hi Hw Hh Hc this lo _ H15 H8 H)|]. unfold repLine, mEncStartLine, eMem, encStartLine. intros (-> & H2 & H3 & H4). cbn [negb N.eqb]. rewrite H3.
  apply enc_app; [|reflexivity]. apply enc_app.
  { unfold repVer, mEncVersion, eMem, encVersion in *. destruct v as [|t0]; [rewrite H2; reflexivity|]. destruct H2 as [(-> & ->)|H2]; [reflexivity|].
    rewrite (str_isPtr _ _ _ _ _ (H15 eq_refl) H2). cbn [negb]. apply enc_app; [reflexivity|]. eapply enc_cstr; eauto. }
  apply (enc_app e a (eOut [32]) _ [32] _); [reflexivity|]. apply enc_app; [reflexivity|]. apply (enc_app e a (eOut [32]) _ [32] _); [reflexivity|].
  unfold eEnv. destruct H4 as [(-> & ->)|H4]; [destruct (eReasonNoEscape e); reflexivity|]. destruct (eReasonNoEscape e); cbn [negb]; [eapply enc_cstr; eauto|eapply enc_escape; eauto].
Qed.
