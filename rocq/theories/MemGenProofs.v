(** The generic parameters of the headers on the arena simulate the value layer. *)
From Verif Require Import Base Charset BaseLemmas Num Lws Str Monad Host Uri GenParam Arena ArenaProofs ArenaOpsProofs StrProofs ArenaTop Layout Mem MemSim MemTac MemUri MemRep MemList Inv MemHostProofs MemParamProofs MemUriProofs MemEnc MemEncProofs MemGen.

(** ** The representation *)
(** SipGenericParam: name, value, next, valueType. *)
Definition repGValue (m : N -> N) (p lo hi : N) (v : option gvalue) : Prop :=
  match v with
  | None => g16 m (p + 2) = NILPTR
  | Some (GToken t) => m (p + 6) = 0 /\ str m lo hi (g16 m (p + 2)) t
  | Some (GQuoted t) => m (p + 6) = 1 /\ str m lo hi (g16 m (p + 2)) t
  | Some (GBracket t) => m (p + 6) = 2 /\ str m lo hi (g16 m (p + 2)) t
  end.
Definition repGParam (m : N -> N) (p q : N) (x : gparam) : Prop :=
  str m (p + 8) q (g16 m p) (gpName x) /\ repGValue m p (p + 8) q (gpValue x).
Definition repGParams := repList repGParam 8 4.

Lemma repGValue_frame m m' p lo hi v : m' (p + 6) = m (p + 6) -> g16 m' (p + 2) = g16 m (p + 2) -> agreeR m m' lo hi -> repGValue m p lo hi v -> repGValue m' p lo hi v.
Proof.
  intros E1 E2 A. unfold repGValue. rewrite E1, E2. destruct v as [[t|t|t]|]; auto; (intros (H1 & H2); split; [exact H1|eapply str_frame; eauto]).
Qed.
Lemma repGValue_mono m p lo hi lo' hi' v : repGValue m p lo hi v -> lo' <= lo -> hi <= hi' -> repGValue m p lo' hi' v.
Proof. unfold repGValue. destruct v as [[t|t|t]|]; auto; (intros (H1 & H2) ? ?; split; [exact H1|eapply str_mono; eauto]). Qed.
Lemma repGParam_frame m m' p q x : (forall i, p <= i < q -> ~ inR (p + 4) 2 i -> m' i = m i) -> repGParam m p q x -> repGParam m' p q x.
Proof.
  intros A (H1 & H2). assert (L : p + 8 <= q) by (destruct H1 as (G1 & G2 & _); lia). assert (A2 : agreeR m m' (p + 8) q) by (intros i Hi; apply A; slia).
  assert (E1 : g16 m' p = g16 m p) by (unfold g16; rewrite !A by slia; reflexivity).
  assert (E2 : g16 m' (p + 2) = g16 m (p + 2)) by (unfold g16; rewrite !A by slia; reflexivity).
  split; [rewrite E1; eapply str_frame; eauto|]. eapply repGValue_frame; [|exact E2|exact A2|exact H2]. apply A; slia.
Qed.
Lemma repGParam_agree m m' p q x : agreeR m m' p q -> repGParam m p q x -> repGParam m' p q x.
Proof. intros Ag. apply repGParam_frame. intros i Hi _. now apply Ag. Qed.
Lemma repGParams_frame m m' lo hi p l : agreeR m m' lo hi -> repGParams m lo hi p l -> repGParams m' lo hi p l.
Proof. apply repList_frame; [lia|exact repGParam_agree]. Qed.

(** ** One parameter *)
Lemma posOnly_liftB f : posOnly (liftB f).
Proof. intros e s. unfold liftB. destruct (f (rest s)) as [r []]; reflexivity. Qed.
Lemma posOnly_SWS : posOnly pSWS.
Proof. intros e s. reflexivity. Qed.
Lemma posOnly_SWSMarkCanOmmit c : posOnly (pSWSMarkCanOmmit c).
Proof. intros e s. unfold pSWSMarkCanOmmit. destruct (ParseSWSMarkCanOmmit c (rest s)) as [[r b] []]; reflexivity. Qed.

Definition gvalQ (this lo : N) : arena -> unit -> gvalue -> Prop := fun a' _ v => repGValue (mem a') this lo (aused a') (Some v).
Lemma sim_genValue e this a r : wfA e a -> 8 <= this -> this + 8 <= aused a ->
  sim e (orS (inR (this + 2) 2) (inR (this + 6) 1)) (mGenValue this) parseGenValue (gvalQ this (aused a)) a r.
Proof.
  intros Hw H8 Hl. num Hw. apply sim_onRest. destruct r as [|x r1]; [apply sim_fail, Hw|].
  assert (G : forall (f : arena -> bytes -> ares) (p : P bytes) (n : N) (C : bytes -> gvalue), sim e nowhere (mStr f) p (strQ a) a (x :: r1) ->
     (forall m t lo hi, m (this + 6) = n -> str m lo hi (g16 m (this + 2)) t -> repGValue m this lo hi (Some (C t))) ->
     sim e (orS (inR (this + 2) 2) (inR (this + 6) 1)) (mInto (this + 2) (mStr f) ;~ set8 (this + 6) n) (t <- p ;; ret (C t)) (gvalQ this (aused a)) a (x :: r1)).
  { intros f p n C Hf HC. eapply (sim_bind e _ (orS nowhere (inR (this + 2) 2))); [eapply sim_into; [exact Hw|exact Hf|intros a' q v K (_ & Hq & _); exact Hq]|exact Hw|slia|].
    intros [] v a2 r2 Hw2 K2 (q & a1 & (S1 & S2 & S3 & S4) & K1 & U1 & V1). num K2. num K1. repeat carry1 K1.
    apply sim_eta. apply sim_set8; [exact Hw2|slia|]. intros a3 Hw3 K3 U3 V3. num K3. repeat carry1 K3. apply sim_ret; [exact Hw3|].
    apply HC; [exact V3|]. rewrite V1. eapply str_mono; [exact S1|lia|lia]. }
  destruct (IsSipToken x); [apply (G _ (paCString SIP_TOKEN) 0 GToken); [apply sim_CString, Hw|intros; split; auto]|].
  destruct ((x =? 34) || IsLwsChar x); [apply (G _ paQuoted 1 GQuoted); [apply sim_Quoted, Hw|intros; split; auto]|].
  destruct (x =? 91); [|apply sim_fail, Hw].
  destruct (cutAfter 93 (x :: r1)) as [[tok r']|]; [|apply sim_fail, Hw].
  unfold paSlice.
  assert (E : forall W (m : M unit) Q, sim e W m (t <- allocCString tok ;; (goto r' ;;; ret (GBracket t))) Q a (x :: r1) -> sim e W m (t <- (b <- allocCString tok ;; goto r' ;;; ret b) ;; ret (GBracket t)) Q a (x :: r1)).
  { intros W m Q. unfold sim, bind, goto, ret. destruct (allocCString tok e _); exact (fun H => H). }
  apply E. clear E.
  eapply (sim_bind e _ (orS nowhere (inR (this + 2) 2))); [eapply sim_into; [exact Hw|apply sim_cstring, Hw|intros a' q v K (_ & Hq & _); exact Hq]|exact Hw|slia|].
  intros [] v a2 r2 Hw2 K2 (q & a1 & (S1 & S2 & S3 & S4) & K1 & U1 & V1). num K2. num K1. repeat carry1 K1.
  apply sim_goto_bind. apply sim_eta. apply sim_set8; [exact Hw2|slia|]. intros a3 Hw3 K3 U3 V3. num K3. repeat carry1 K3. apply sim_ret; [exact Hw3|].
  split; [exact V3|]. rewrite V1. eapply str_mono; [exact S1|lia|lia].
Qed.

Definition gparamQ (this : N) (lo : N) : arena -> unit -> gparam -> Prop := fun a' _ v =>
  str (mem a') lo (aused a') (g16 (mem a') this) (gpName v) /\ repGValue (mem a') this lo (aused a') (gpValue v) /\ gpName v <> [].
Lemma sim_genParam e this a r : wfA e a -> 8 <= this -> this + 8 <= aused a -> zeros (mem a) this 8 ->
  sim e (orS (inR this 4) (inR (this + 6) 1)) (mGenParam this) parseGenParam (gparamQ this (aused a)) a r.
Proof.
  intros Hw H8 Hl Z. num Hw. assert (Z2 : g16 (mem a) (this + 2) = NILPTR) by (eapply zeros16; [exact Z|lia|lia]). clear Z.
  unfold mGenParam, parseGenParam.
  eapply (sim_bind e _ (orS nowhere (inR this 2))).
  { eapply sim_into; [exact Hw|eapply sim_and; [apply sim_Escapable, Hw|intros v s' E; exact (proj1 (escapable_inv _ _ _ _ _ E))]|intros a' q v K ((_ & Hq & _) & _); exact Hq]. }
  { exact Hw. } { slia. }
  intros [] n a2 r2 Hw2 K2 (q & a1 & ((S1 & S2 & S3 & S4) & Hne) & K1 & U1 & V1). num K2. num K1. repeat carry1 K1.
  assert (Z3 : g16 (mem a2) (this + 2) = NILPTR) by (eapply g16_frame; [|exact Z2]; agr K2). clear Z2.
  assert (Nm : str (mem a2) (aused a) (aused a2) (g16 (mem a2) this) n) by (rewrite V1; eapply str_mono; [exact S1|lia|lia]).
  apply sim_onRest.
  assert (N0 : forall (W : N -> Prop) r2, sim e W (mret tt) (ret (mkgp n None)) (gparamQ this (aused a)) a2 r2).
  { intros W r3. apply sim_ret; [exact Hw2|]. split; [exact Nm|]. split; [exact Z3|exact Hne]. }
  destruct r2 as [|x r3]; [apply N0|]. destruct (negb (x =? 61) && negb (IsLwsChar x)); [apply N0|].
  eapply (sim_bind e _ nowhere); [apply sim_pos; [exact Hw2|apply posOnly_SWSMarkCanOmmit]|exact Hw2|slia|]. intros b b' a3 r4 Hw3 K3 (-> & ->).
  destruct b'; [|apply N0].
  eapply sim_conseq; [eapply sim_mapR; [apply (sim_genValue e this a2 r4 Hw2 H8 ltac:(lia))|]|slia|intros a' x0 v K H; exact H].
  intros a4 [] v K4 HG. num K4. split; cbn [gpName gpValue].
  - assert (E : g16 (mem a4) this = g16 (mem a2) this) by (eapply g16_frame; [|reflexivity]; agr K4). rewrite E. eapply str_mono; [eapply str_frame; [|exact Nm]; agr K4|lia|lia].
  - split; [|exact Hne]. eapply repGValue_mono; [exact HG|lia|lia].
Qed.

(** ** The list *)
Lemma sim_unassoc {X Y Z A} e (W : N -> Prop) (m : M X) (f : X -> M Y) (g : Y -> M Z) (p : P A) Q a r :
  sim e W (mbind (mbind m f) g) p Q a r -> sim e W (mbind m (fun x => mbind (f x) g)) p Q a r.
Proof. unfold sim, mbind. destruct (m e a r); exact (fun H => H). Qed.

Section GenParams.
  Variables (e : env) (sep tbl lo : N) (on : env -> bool) (names : list bytes) (known0 : option (N -> N -> M bool)).
  Let n := N.of_nat (List.length names).
  Hypothesis Hn : 0 < n /\ n < 400.
  Hypothesis Hbig : on e = true -> 4 < n -> bigTables e = true.
  Hypothesis H8 : 8 <= tbl.
  Hypothesis Hlo : tbl + 2 <= lo.
  Hypothesis H0 : known0 = None \/ known0 = Some (fun _ _ => mret false).
  Notation GL := (LInv repGParam 8 4 n).
  Notation kn := (if on e then Some (mSetKnown names tbl) else known0).
  Lemma GL_frame m m' hi hi' head prev t k l : agreeR m m' lo hi -> hi <= hi' -> GL m lo hi head prev t k l -> GL m' lo hi' head prev t k l.
  Proof using Type. apply LInv_frame; [vm_compute; discriminate|exact repGParam_frame]. Qed.
  Definition genJ : arena -> N * N -> known gparam * list gparam -> Prop := fun a hp kl =>
    lo <= aused a /\ GL (mem a) lo (aused a) (fst hp) (snd hp) (g16 (mem a) tbl) (fst kl) (snd kl).
  Definition genW : N -> Prop := orS (inR tbl 2) (from lo).

  Lemma sim_genOne hp kl a r : wfA e a -> genJ a hp kl ->
    sim e genW
      (p <~ mNew 8 ;; mGenParam p ;~ done <~ match kn with None => mret false | Some set => n <~ get16 p ;; set n p end ;; hp' <~ (if done : bool then mret hp else mAppend 4 hp p) ;; mret (inl hp'))
      (allocStruct 8 ;;; p <- parseGenParam ;; a' <- addParam (on e) names gpName kl p ;; ret (inl a'))
      (fun a' (y : (N * N) + (N * N)) (w : (known gparam * list gparam) + (known gparam * list gparam)) => match y, w with inl x', inl v' => genJ a' x' v' | inr y', inr w' => genJ a' y' w' | _, _ => False end) a r.
  Proof.
    intros Hw (Hla & HJ). num Hw. unfold genW in *.
    eapply (sim_bind e _ nowhere); [apply sim_new; [exact Hw|lia|lia]|exact Hw|slia|]. intros p [] a1 r1 Hw1 K1 (-> & U1 & Z1). num K1.
    eapply GL_frame in HJ; [|agr K1|apply N.le_refl].
    replace (g16 (mem a) tbl) with (g16 (mem a1) tbl) in HJ by (eapply g16_frame; [|reflexivity]; agr K1).
    eapply (sim_bind e _ (orS (inR (aused a) 4) (inR (aused a + 6) 1))); [apply sim_genParam; [exact Hw1|lia|lia|exact Z1]|exact Hw1|slia|]. intros [] v a2 r2 Hw2 K2 (Hs & Hv & Hne).
    assert (Hz : g16 (mem a2) (aused a + 4) = NILPTR) by (eapply g16_frame; [|eapply zeros16; [exact Z1|lia|lia]]; agr K2). num K2.
    eapply GL_frame in HJ; [|agr K2|apply N.le_refl].
    replace (g16 (mem a1) tbl) with (g16 (mem a2) tbl) in HJ by (eapply g16_frame; [|reflexivity]; agr K2).
    pose proof (str_small _ _ _ _ _ _ _ Hs Hw2 (N.le_refl _)) as Hsm. assert (Hsl : g16 (mem a2) (aused a) < aused a2) by (destruct Hs as (_ & G & _); destruct (gpName v); [congruence|]; rewrite len_cons in G; lia).
    pose proof (LInv_head repGParam 8 4 n ltac:(lia) repGParam_frame _ _ _ _ _ _ _ _ HJ) as (_ & Hpv & Htb & _).
    assert (E : forall (W : N -> Prop) (p : P ((known gparam * list gparam) + (known gparam * list gparam))) (Q : arena -> (N * N) + (N * N) -> (known gparam * list gparam) + (known gparam * list gparam) -> Prop),
       sim e W (mbind (done <~ (if on e then mSetKnown names tbl (g16 (mem a2) (aused a)) (aused a) else mret false) ;; (if done : bool then mret hp else mAppend 4 hp (aused a))) (fun hp' => mret (inl hp'))) p Q a2 r2 ->
       sim e W (done <~ match kn with None => mret false | Some set => n <~ get16 (aused a) ;; set n (aused a) end ;; hp' <~ (if done : bool then mret hp else mAppend 4 hp (aused a)) ;; mret (inl hp')) p Q a2 r2).
    { intros W p Q H. apply sim_unassoc. destruct (on e); [exact H|]. destruct H0 as [->| ->]; exact H. }
    apply E. clear E. destruct kl as [k l].
    eapply (sim_bind e _ (apW 4 names tbl (g16 (mem a2) tbl) (snd hp))).
    - apply (sim_addParam repGParam 8 4 names gpName ltac:(lia) repGParam_frame e Hn (on e) lo (aused a) tbl k l v (aused a) (aused a2) (g16 (mem a2) (aused a)) hp a2 r2 Hw2); try lia; auto.
      + split; [eapply str_mono; [exact Hs|lia|lia]|eapply repGValue_mono; [exact Hv|lia|lia]].
      + eapply str_mono; [exact Hs|lia|lia].
    - exact Hw2.
    - unfold apW. slia.
    - intros hp' kl' a3 r3 Hw3 K3 (HL & _). apply sim_ret; [exact Hw3|]. split; [num K3; lia|exact HL].
  Qed.
  (** ParseSipGenericParams: the list at the returned address, the table at [tbl]. *)
  Definition genQ : arena -> N -> known gparam * list gparam -> Prop := fun a' p kl =>
    (p = NILPTR \/ p < two16) /\ lo <= aused a' /\ repGParams (mem a') lo (aused a') p (snd kl) /\ repTable repGParam 8 n (mem a') lo (aused a') (g16 (mem a') tbl) (fst kl).
  Lemma sim_genParams a r : wfA e a -> lo <= aused a -> g16 (mem a) tbl = NILPTR ->
    sim e genW (mGenParams sep kn) (parseGenParams sep on names) genQ a r.
  Proof.
    intros Hw Hla Hz. num Hw. unfold mGenParams, parseGenParams.
    apply (sim_bindR e _ genW _ _ _ genJ); [|exact Hw|auto|].
    - apply (sim_loop e genW _ _ genJ genJ); [|exact Hw|split; [exact Hla|]; cbn [fst snd]; rewrite Hz; apply LInv_nil; lia].
      clear a r Hw Hla Hz Nw Nw0 Nw1. intros hp kl a r Hw HJ. num Hw. apply sim_onRest. destruct r as [|x r1]; [apply sim_ret; auto|].
      destruct (IsOnlyCRLF (x :: r1)); [apply sim_ret; auto|]. destruct (negb (x =? sep) && negb (IsLwsChar x)); [apply sim_ret; auto|].
      destruct (ParseSWSMarkCanOmmit sep (x :: r1)) as [[r' []] []].
      + apply sim_goto_bind. apply sim_genOne; auto.
      + apply sim_goto_bind. apply sim_fail, Hw.
      + apply sim_ret; auto.
      + apply sim_goto_bind. apply sim_fail, Hw.
    - intros hp kl a1 r2 Hw1 K1 (HL1 & HL2). num Hw1. apply sim_ret; [exact Hw1|].
      pose proof (LInv_head repGParam 8 4 n ltac:(lia) repGParam_frame _ _ _ _ _ _ _ _ HL2) as (Hh & _).
      split; [destruct Hh as [Hh|Hh]; [left; exact Hh|right; unfold two16; lia]|]. split; [exact HL1|].
      split; [exact (LInv_list repGParam 8 4 n ltac:(lia) repGParam_frame _ _ _ _ _ _ _ _ HL2)|exact (LInv_table repGParam 8 4 n ltac:(lia) repGParam_frame _ _ _ _ _ _ _ _ HL2)].
  Qed.
End GenParams.

(** ** Encode *)
Section Enc.
  Variables (e : env) (a : arena) (hi : N).
  Hypothesis Hw : wfA e a.
  Hypothesis Hhi : hi <= aused a.
  Hypothesis Hcap : hi < cap a.
  Lemma enc_genValue p lo v : repGValue (mem a) p lo hi v -> mEncGenValue p e a = WOk (encGenValue v).
  Proof.
    unfold repGValue, mEncGenValue, eMem. destruct v as [[t|t|t]|].
    - intros (E & H). rewrite (str_nonnil _ _ _ _ _ H), E. cbn [negb]. change (encGenValue (Some (GToken t))) with ([61] ++ t). apply enc_app; [reflexivity|]. eapply enc_cstr; eauto.
    - intros (E & H). rewrite (str_nonnil _ _ _ _ _ H), E. cbn [negb]. change (encGenValue (Some (GQuoted t))) with ([61] ++ ([34] ++ (t ++ [34]))). apply enc_app; [reflexivity|].
      unfold mEncQuoted. apply enc_app; [reflexivity|]. apply enc_app; [eapply enc_cstr; eauto|reflexivity].
    - intros (E & H). rewrite (str_nonnil _ _ _ _ _ H), E. cbn [negb]. change (encGenValue (Some (GBracket t))) with ([61] ++ t). apply enc_app; [reflexivity|]. eapply enc_cstr; eauto.
    - intros H. rewrite H. reflexivity.
  Qed.
  Lemma enc_genParam p q x : q <= hi -> repGParam (mem a) p q x -> mEncGenParam p e a = WOk (encGenParam x).
  Proof.
    intros L (H1 & H2). unfold mEncGenParam, eMem. rewrite (str_nonnil _ _ _ _ _ H1). cbn [negb]. apply enc_app.
    - eapply enc_cstr; eauto. eapply str_mono; [exact H1|apply N.le_refl|lia].
    - eapply enc_genValue. eapply repGValue_mono; [exact H2|apply N.le_refl|lia].
  Qed.
  Lemma enc_genKnown names lo t k : 8 <= lo -> repTable repGParam 8 (N.of_nat (List.length names)) (mem a) lo hi t k ->
    mEncGenKnown names t e a = WOk (encKnown names (fun n p => 59 :: n ++ encGenValue (gpValue p)) k).
  Proof.
    intros H8 H. unfold mEncGenKnown. destruct k as [tb|]; [|cbn [repTable] in H; rewrite H; reflexivity].
    destruct H as (H1 & H2 & H3 & H4 & H5). replace (t =? NILPTR) with false by lia. eapply (enc_deref e a hi Hhi Hcap); [lia|].
    eapply (enc_table e a hi Hhi Hcap repGParam 8); [lia|lia| |exact H8|exact H5].
    intros n p q x _ L1 L2 Hx. change (59 :: n ++ encGenValue (gpValue x)) with ((59 :: n) ++ encGenValue (gpValue x)).
    apply enc_app; [reflexivity|]. eapply (enc_deref e a hi Hhi Hcap); [lia|]. eapply enc_genValue. eapply repGValue_mono; [apply Hx|apply N.le_refl|lia].
  Qed.
  Lemma enc_genParams sep names lo t p k l : 8 <= lo -> repTable repGParam 8 (N.of_nat (List.length names)) (mem a) lo hi t k -> repGParams (mem a) lo hi p l ->
    mEncGenParams sep names t p e a = WOk (encGenParams sep names k l).
  Proof.
    intros H8 Ht Hl. unfold mEncGenParams, encGenParams. apply enc_app; [eapply enc_genKnown; eauto|].
    rewrite <- joined_nil. eapply (enc_list e a hi Hhi Hcap repGParam 8); [lia| |exact H8|exact Hl].
    intros p0 q x _ _ L Hx. change (sep :: encGenParam x) with ([sep] ++ encGenParam x). apply enc_app; [reflexivity|]. eapply enc_genParam; eauto.
  Qed.
End Enc.
