(** The structured headers on the arena simulate the value layer. *)
From Verif Require Import Base Charset BaseLemmas Num Lws Str Monad MethodTree Lookup NameSpec NameProofs Host Uri Tel GenParam Addr StartLine Headers Arena ArenaProofs ArenaOpsProofs StrProofs ArenaTop Layout Mem MemSim MemTac MemUri MemRep MemList Inv MemHostProofs MemParamProofs MemUriProofs MemSipUriProofs MemEnc MemEncProofs MemTel MemTelProofs MemGen MemGenProofs MemAddr MemAddrProofs MemSteps MemStart MemStartProofs MemHdr Extension.

(** ** The representation *)
(** The number of entries of the table of recognised parameters (the Route family never has one). *)
Definition tblLen (k : hkind) : N := match knownNames k with [] => 1 | l => N.of_nat (List.length l) end.
Definition repParams (k : hkind) (m : N -> N) (this lo hi : N) (t : known gparam) (ps : list gparam) : Prop :=
  repTable repGParam 8 (tblLen k) m lo hi (g16 m (this + knownOff k)) t /\ repGParams m lo hi (g16 m (this + paramsOff k)) ps.
(** sentProtocol: a tag, or the address of a SipHeaderViaSentProtocol struct: two pointers. *)
Definition repProto (m : N -> N) (this lo hi : N) (p : sentproto) : Prop :=
  let q := g16 m this in
  match p with
  | Proto20 => q = setTag 1
  | ProtoOther n v => lo <= q /\ q + 4 <= hi /\ str m (q + 4) hi (g16 m q) n /\ str m (q + 4) hi (g16 m (q + 2)) v
  end.
Definition repHVal (k : hkind) (m : N -> N) (this lo hi : N) (v : hval) : Prop :=
  match v with
  | VAddr ad t ps =>
      repAddr m (this + addrOff k) lo hi ad /\
      match k with
      | KPai => t = None /\ ps = []
      | KContact => m this = 0 /\ repParams k m this lo hi t ps
      | KFrom | KTo | KRoute | KRecordRoute | KPath | KServiceRoute => repParams k m this lo hi t ps
      | _ => False
      end
  | VStar => k = KContact /\ m this = 1
  | VVia p tr h t ps => k = KVia /\ repProto m this lo hi p /\ str m lo hi (g16 m (this + 2)) tr /\ repHostPort m (this + 4) lo hi h /\ repParams KVia m this lo hi t ps
  | VCSeq n mt => k = KCSeq /\ g32 m this = n /\ repMethod m (this + 4) lo hi mt
  | VRAck r c mt => k = KRAck /\ g32 m this = r /\ g32 m (this + 4) = c /\ repMethod m (this + 8) lo hi mt
  | VNum n => match k with KMaxForwards => m this = n | KRSeq | KExpires | KContentLength => g32 m this = n | _ => False end
  | VType mn sb t ps => k = KContentType /\ str m lo hi (g16 m this) mn /\ str m lo hi (g16 m (this + 2)) sb /\ repParams KContentType m this lo hi t ps
  | VDisp d t ps => k = KContentDisposition /\ str m lo hi (g16 m this) d /\ repParams KContentDisposition m this lo hi t ps
  | VCall w w2 => k = KCallID /\ str m lo hi (g16 m this) w /\ ostr m lo hi (g16 m (this + 2)) w2
  end.

Lemma g16_agree m m' p n q : agreeR m m' p (p + n) -> p <= q -> q + 2 <= p + n -> g16 m' q = g16 m q.
Proof. intros A L1 L2. unfold g16. rewrite !A by lia. reflexivity. Qed.
Lemma g32_agree m m' p n q : agreeR m m' p (p + n) -> p <= q -> q + 4 <= p + n -> g32 m' q = g32 m q.
Proof. intros A L1 L2. unfold g32. rewrite !(g16_agree m m' p n) by (auto; lia). reflexivity. Qed.
Lemma repParams_frame k m m' this lo hi t ps : agreeR m m' (this + paramsOff k) (this + paramsOff k + 4) -> agreeR m m' lo hi -> repParams k m this lo hi t ps -> repParams k m' this lo hi t ps.
Proof.
  intros A1 A2 (H1 & H2). unfold repParams. rewrite (g16_agree m m' (this + paramsOff k) 4 (this + knownOff k) A1) by (unfold knownOff; lia).
  rewrite (g16_agree m m' (this + paramsOff k) 4 (this + paramsOff k) A1) by lia.
  split; [eapply repTable_frame; [exact repGParam_agree|exact A2|exact H1]|eapply repGParams_frame; eauto].
Qed.
Lemma repParams_mono k m this lo hi lo' hi' t ps : repParams k m this lo hi t ps -> lo' <= lo -> hi <= hi' -> repParams k m this lo' hi' t ps.
Proof. intros (H1 & H2) L1 L2. split; [eapply repTable_mono; eauto|eapply repList_mono; eauto]. Qed.
Lemma repProto_frame m m' this lo hi p : g16 m' this = g16 m this -> agreeR m m' lo hi -> repProto m this lo hi p -> repProto m' this lo hi p.
Proof.
  intros E A. unfold repProto. rewrite E. destruct p as [|n v]; [auto|]. intros (H1 & H2 & H3 & H4).
  assert (A4 : agreeR m m' (g16 m this) (g16 m this + 4)) by (eapply agreeR_sub; [exact A|lia|lia]). assert (A5 : agreeR m m' (g16 m this + 4) hi) by (eapply agreeR_sub; [exact A|lia|lia]).
  split; [exact H1|]. split; [exact H2|]. split.
  - rewrite (g16_agree _ _ _ 4 (g16 m this) A4) by lia. eapply str_frame; eauto.
  - rewrite (g16_agree _ _ _ 4 (g16 m this + 2) A4) by lia. eapply str_frame; eauto.
Qed.
Lemma repProto_mono m this lo hi lo' hi' p : repProto m this lo hi p -> lo' <= lo -> hi <= hi' -> repProto m this lo' hi' p.
Proof.
  unfold repProto. destruct p as [|n v]; [auto|]. intros (H1 & H2 & H3 & H4) L1 L2. split; [lia|]. split; [lia|]. split; (eapply str_mono; [eassumption|lia|lia]).
Qed.
Lemma repHVal_frame0 k m m' this lo hi v : agreeR m m' this (this + nextOff k) -> agreeR m m' lo hi -> repHVal k m this lo hi v -> repHVal k m' this lo hi v.
Proof.
  intros A1 A2. pose proof (fun q => g16_agree m m' this (nextOff k) q A1) as E2. pose proof (fun q => g32_agree m m' this (nextOff k) q A1) as E4.
  unfold repHVal. destruct v as [ad t ps| |p tr h t ps|n mt|r c mt|n|mn sb t ps|d t ps|w w2].
  - assert (G : this <= this + addrOff k /\ (this + addrOff k) + 10 <= this + nextOff k -> repAddr m (this + addrOff k) lo hi ad -> repAddr m' (this + addrOff k) lo hi ad).
    { intros (L1 & L2). apply repAddr_frame; [eapply agreeR_sub; [exact A1|lia|lia]|exact A2]. }
    assert (F : paramsOff k + 4 <= nextOff k -> repParams k m this lo hi t ps -> repParams k m' this lo hi t ps).
    { intros L. apply repParams_frame; [eapply agreeR_sub; [exact A1|lia|lia]|exact A2]. }
    destruct k; cbn [addrOff paramsOff nextOff hvalSize] in *; intros (H1 & H2); try contradiction;
    try (split; [apply G; [lia|exact H1]|]; first [exact H2|apply F; [lia|exact H2]]).
    split; [apply G; [lia|exact H1]|]. destruct H2 as (H2 & H3). split; [rewrite A1 by lia; exact H2|apply F; [lia|exact H3]].
  - intros (-> & H). cbn [nextOff hvalSize] in *. split; [reflexivity|]. rewrite A1 by lia. exact H.
  - intros (-> & H1 & H2 & H3 & H4). cbn [nextOff hvalSize] in *. rewrite !E2 by lia. split; [reflexivity|]. split; [eapply repProto_frame; [apply E2; lia|exact A2|exact H1]|].
    split; [eapply str_frame; eauto|]. split; [eapply repHostPort_frame; [eapply agreeR_sub; [exact A1|lia|lia]|exact A2|exact H3]|].
    eapply repParams_frame; [eapply agreeR_sub; [exact A1|lia|cbn [paramsOff]; lia]|exact A2|exact H4].
  - intros (-> & H1 & H2). cbn [nextOff hvalSize] in *. rewrite E4 by lia. split; [reflexivity|]. split; [exact H1|]. eapply repMethod_frame; [apply E2; lia|exact A2|exact H2].
  - intros (-> & H1 & H2 & H3). cbn [nextOff hvalSize] in *. rewrite !E4 by lia. split; [reflexivity|]. split; [exact H1|]. split; [exact H2|]. eapply repMethod_frame; [apply E2; lia|exact A2|exact H3].
  - destruct k; auto; cbn [nextOff hvalSize] in *; rewrite ?E4 by lia; auto. rewrite A1 by lia. auto.
  - intros (-> & H1 & H2 & H3). cbn [nextOff hvalSize] in *. rewrite !E2 by lia. split; [reflexivity|]. split; [eapply str_frame; eauto|]. split; [eapply str_frame; eauto|].
    eapply repParams_frame; [eapply agreeR_sub; [exact A1|lia|cbn [paramsOff]; lia]|exact A2|exact H3].
  - intros (-> & H1 & H2). cbn [nextOff hvalSize] in *. rewrite !E2 by lia. split; [reflexivity|]. split; [eapply str_frame; eauto|].
    eapply repParams_frame; [eapply agreeR_sub; [exact A1|lia|cbn [paramsOff]; lia]|exact A2|exact H2].
  - intros (-> & H1 & H2). cbn [nextOff hvalSize] in *. rewrite !E2 by lia. split; [reflexivity|]. split; [eapply str_frame; eauto|eapply ostr_frame; eauto].
Qed.
Lemma nextOff_le k : nextOff k <= hvalSize k. Proof. destruct k; vm_compute; discriminate. Qed.
Lemma repHVal_frame k m m' this lo hi v : agreeR m m' this (this + hvalSize k) -> agreeR m m' lo hi -> repHVal k m this lo hi v -> repHVal k m' this lo hi v.
Proof. intros A1 A2. apply repHVal_frame0; [|exact A2]. pose proof (nextOff_le k). eapply agreeR_sub; [exact A1|lia|lia]. Qed.
Lemma repHVal_mono k m this lo hi lo' hi' v : repHVal k m this lo hi v -> lo' <= lo -> hi <= hi' -> repHVal k m this lo' hi' v.
Proof.
  intros H L1 L2. revert H. unfold repHVal. destruct v as [ad t ps| |p tr h t ps|n mt|r c mt|n|mn sb t ps|d t ps|w w2].
  - intros (H1 & H2). split; [eapply repAddr_mono; eauto|]. destruct k; auto; try (eapply repParams_mono; eauto). destruct H2 as (H2 & H3). split; [exact H2|eapply repParams_mono; eauto].
  - auto.
  - intros (E & H1 & H2 & H3 & H4). split; [exact E|]. split; [eapply repProto_mono; eauto|]. split; [eapply str_mono; eauto|]. split; [eapply repHostPort_mono; eauto|eapply repParams_mono; eauto].
  - intros (E & H1 & H2). split; [exact E|]. split; [exact H1|eapply repMethod_mono; eauto].
  - intros (E & H1 & H2 & H3). split; [exact E|]. split; [exact H1|]. split; [exact H2|eapply repMethod_mono; eauto].
  - auto.
  - intros (E & H1 & H2 & H3). split; [exact E|]. split; [eapply str_mono; eauto|]. split; [eapply str_mono; eauto|eapply repParams_mono; eauto].
  - intros (E & H1 & H2). split; [exact E|]. split; [eapply str_mono; eauto|eapply repParams_mono; eauto].
  - intros (E & H1 & H2). split; [exact E|]. split; [eapply str_mono; eauto|eapply ostr_mono; eauto].
Qed.

(** ** Parameters *)
Definition paramsQ (k : hkind) (this lo : N) : arena -> unit -> known gparam * list gparam -> Prop := fun a' _ tp => repParams k (mem a') this lo (aused a') (fst tp) (snd tp).
Lemma sim_params k e this a r : wfA e a -> 8 <= this -> this + paramsOff k + 4 <= aused a -> g16 (mem a) (this + knownOff k) = NILPTR ->
  sim e (inR (this + paramsOff k) 4) (mParams k this) (parseParams k) (paramsQ k this (aused a)) a r.
Proof.
  intros Hw H8 Hl Z. num Hw.
  assert (G : forall (on : env -> bool) (names : list bytes) (known0 : option (N -> N -> M bool)), N.of_nat (List.length names) = tblLen k -> 0 < N.of_nat (List.length names) < 400 ->
     (on e = true -> 4 < N.of_nat (List.length names) -> bigTables e = true) -> (known0 = None \/ known0 = Some (fun _ _ => mret false)) ->
     sim e (inR (this + paramsOff k) 4) (mInto (this + paramsOff k) (mGenParams 59 (if on e then Some (mSetKnown names (this + knownOff k)) else known0))) (parseGenParams 59 on names) (paramsQ k this (aused a)) a r).
  { intros on names known0 El Hn Hb H0.
    eapply sim_conseq; [eapply sim_into; [exact Hw|apply (sim_genParams e 59 (this + knownOff k) (aused a) on names known0 Hn Hb); [unfold knownOff; lia|unfold knownOff; lia|exact H0|exact Hw|lia|exact Z]|]| |].
    - intros a' x v _ ([->|Hx] & _); [vm_compute; reflexivity|exact Hx].
    - unfold genW, knownOff. slia.
    - intros a' [] tp K (q & a0 & (_ & L & Q1 & Q2) & K0 & U0 & V0). num K. num K0. unfold paramsQ, repParams. rewrite <- El, V0, U0. split.
      + assert (E : g16 (mem a') (this + knownOff k) = g16 (mem a0) (this + knownOff k)) by (eapply g16_frame; [|reflexivity]; unfold knownOff; agr K0). rewrite E.
        eapply repTable_frame; [exact repGParam_agree| |exact Q2]. agr K0.
      + eapply repGParams_frame; [|exact Q1]. agr K0. }
  destruct k; [apply (G fFromKnown (knownNames KFrom) (Some (fun _ _ => mret false)))|apply (G fToKnown (knownNames KTo) (Some (fun _ _ => mret false)))|apply (G fViaKnown (knownNames KVia) (Some (fun _ _ => mret false)))|
    apply (G fContactKnown (knownNames KContact) (Some (fun _ _ => mret false)))|apply (G noKnown [[]] (Some (fun _ _ => mret false)))|apply (G noKnown [[]] (Some (fun _ _ => mret false)))|
    apply (G noKnown [[]] (Some (fun _ _ => mret false)))|apply (G noKnown [[]] (Some (fun _ _ => mret false)))|apply (G noKnown [[]] (Some (fun _ _ => mret false)))|apply (G noKnown [[]] (Some (fun _ _ => mret false)))|
    apply (G noKnown [[]] (Some (fun _ _ => mret false)))|apply (G noKnown [[]] (Some (fun _ _ => mret false)))|apply (G noKnown [[]] (Some (fun _ _ => mret false)))|apply (G noKnown [[]] (Some (fun _ _ => mret false)))|
    apply (G noKnown [[]] (Some (fun _ _ => mret false)))|apply (G fContentTypeKnown (knownNames KContentType) (Some (fun _ _ => mret false)))|
    apply (G fContentDispositionKnown (knownNames KContentDisposition) (Some (fun _ _ => mret false)))|apply (G noKnown [[]] (Some (fun _ _ => mret false)))];
  try reflexivity; try (split; vm_compute; reflexivity); try (right; reflexivity); try (intros _ F; exfalso; revert F; vm_compute; discriminate).
  intros F _. unfold bigTables. rewrite F. apply orb_true_r.
Qed.

(** ** Values *)
Definition hvalQ (k : hkind) (this lo : N) : arena -> unit -> hval -> Prop := fun a' _ v => repHVal k (mem a') this lo (aused a') v.
Lemma posOnly_LWS : posOnly pLWS. Proof. apply posOnly_liftB. Qed.
Lemma posOnly_SWSMark c : posOnly (pSWSMark c). Proof. apply posOnly_liftB. Qed.

(** The parameters as the last step, after a part [V] that the step does not disturb. *)
Lemma sim_lastParams {A} k e this lo a r (R : (N -> N) -> N -> Prop) (mk : known gparam -> list gparam -> A) (Q : arena -> unit -> A -> Prop) :
  wfA e a -> 8 <= this -> this + paramsOff k + 4 <= aused a -> g16 (mem a) (this + knownOff k) = NILPTR -> lo <= aused a -> R (mem a) (aused a) ->
  (forall a', keeps (inR (this + paramsOff k) 4) a a' -> R (mem a) (aused a) -> R (mem a') (aused a')) ->
  (forall a' t ps, R (mem a') (aused a') -> repParams k (mem a') this lo (aused a') t ps -> Q a' tt (mk t ps)) ->
  sim e (inR (this + paramsOff k) 4) (mParams k this) (tp <- parseParams k ;; ret (mk (fst tp) (snd tp))) Q a r.
Proof.
  intros Hw H8 Hl Z Hlo HR HK HQ.
  apply (sim_mapR e _ (mParams k this) (parseParams k) (fun tp => mk (fst tp) (snd tp)) (paramsQ k this (aused a))); [apply sim_params; auto|].
  intros a' [] tp K H. apply HQ; [apply HK; auto|]. eapply repParams_mono; [exact H|exact Hlo|lia].
Qed.
Definition addrKind (k : hkind) : bool := match k with KFrom | KTo | KContact | KRoute | KRecordRoute | KPath | KServiceRoute => true | _ => false end.
Lemma sim_addrParams k e this a r (m : M unit) (p : P addr) : netLen e -> addrKind k = true -> wfA e a -> 8 <= this -> this + hvalSize k <= aused a ->
  zeros (mem a) this (hInit k) ->
  (forall r, sim e (inR (this + addrOff k) 10) m p (addrQ (this + addrOff k) (aused a)) a r) ->
  sim e (inR this (nextOff k)) (m ;~ mParams k this) (x <- p ;; tp <- parseParams k ;; ret (VAddr x (fst tp) (snd tp))) (hvalQ k this (aused a)) a r.
Proof.
  intros Hn Hk Hw H8 Hl Z Hm. num Hw.
  assert (L : this + addrOff k + 10 = this + paramsOff k /\ paramsOff k + 4 <= nextOff k /\ nextOff k <= hvalSize k /\ hInit k = hvalSize k) by (destruct k; cbn in *; try discriminate; repeat split; lia).
  destruct L as (L1 & L2 & L4 & L3). rewrite L3 in Z.
  assert (Zk : g16 (mem a) (this + knownOff k) = NILPTR) by (eapply zeros16; [exact Z|unfold knownOff; lia|unfold knownOff; lia]).
  assert (Z0 : k = KContact -> mem a this = 0) by (intros _; apply Z; lia).
  eapply (sim_bind e _ (inR (this + addrOff k) 10)); [apply Hm|exact Hw|slia|]. intros [] x a1 r1 Hw1 K1 Hx. unfold addrQ in Hx. num K1. clear Z.
  assert (Zk1 : g16 (mem a1) (this + knownOff k) = NILPTR) by (eapply g16_frame; [|exact Zk]; unfold knownOff; agr K1).
  assert (Z01 : k = KContact -> mem a1 this = 0).
  { intros E. rewrite <- (Z0 E). apply K1; [lia|]. subst k. cbn [addrOff]. slia. }
  apply (sim_sub e (inR (this + paramsOff k) 4)); [|slia].
  apply (sim_lastParams k e this (aused a) a1 r1 (fun m hi => repAddr m (this + addrOff k) (aused a) hi x /\ (k = KContact -> m this = 0)));
    [exact Hw1|exact H8|lia|exact Zk1|lia|split; [exact Hx|exact Z01]| |].
  - intros a' K (G1 & G2). num K. split; [eapply repAddr_mono; [eapply repAddr_frame; [| |exact G1]; agr K|lia|lia]|].
    intros E. rewrite <- (G2 E). apply K; [lia|]. subst k. cbn [addrOff] in *. slia.
  - intros a' t ps (G1 & G2) G3. split; [exact G1|]. destruct k; try discriminate; auto.
Qed.
Lemma sim_fromTo k e this a r : netLen e -> addrKind k = true -> wfA e a -> 8 <= this -> this + hvalSize k <= aused a -> zeros (mem a) this (hInit k) ->
  sim e (inR this (nextOff k)) (mFromTo k this) (parseFromTo k) (hvalQ k this (aused a)) a r.
Proof.
  intros Hn Hk Hw H8 Hl Z. apply sim_addrParams; auto. intros r0.
  assert (L : addrOff k + 10 <= hInit k /\ addrOff k + 10 <= hvalSize k) by (destruct k; cbn in *; try discriminate; lia).
  apply (sim_addr e Hn (this + addrOff k)); [lia|exact Hw|lia|apply Z; lia|eapply zeros16; [exact Z|lia|lia]].
Qed.
Definition routeKind (k : hkind) : bool := match k with KRoute | KRecordRoute | KPath | KServiceRoute => true | _ => false end.
Lemma sim_route k e this a r : netLen e -> routeKind k = true -> wfA e a -> 8 <= this -> this + hvalSize k <= aused a -> zeros (mem a) this (hInit k) ->
  sim e (inR this (nextOff k)) (mRoute k this) (parseRoute k) (hvalQ k this (aused a)) a r.
Proof.
  intros Hn Hk Hw H8 Hl Z. apply sim_addrParams; auto; [destruct k; try discriminate; reflexivity|]. intros r0.
  assert (L : addrOff k = 0 /\ 10 <= hInit k /\ 10 <= hvalSize k) by (destruct k; cbn in *; try discriminate; repeat split; lia). destruct L as (-> & L1 & L2). rewrite N.add_0_r.
  apply (sim_nameAddr e Hn this); [lia|exact Hw|lia|eapply zeros16; [exact Z|lia|lia]].
Qed.
Lemma sim_contact e this a r : netLen e -> wfA e a -> 8 <= this -> this + 18 <= aused a -> zeros (mem a) this 18 ->
  sim e (inR this 16) (mContact this) parseContact (hvalQ KContact this (aused a)) a r.
Proof.
  intros Hn Hw H8 Hl Z. num Hw. unfold mContact, parseContact. apply sim_posB; [apply posOnly_SWS|exact Hw|]. intros _ r1. apply sim_onRest.
  destruct r1 as [|x r2]; [apply sim_fail, Hw|]. destruct (x =? 42).
  - apply sim_goto_bind. apply sim_set8; [exact Hw|slia|]. intros a1 Hw1 K1 U1 V1. num K1. apply sim_eta. apply sim_posB; [apply posOnly_SWS|exact Hw1|]. intros [] r3.
    apply sim_ret; [exact Hw1|]. split; [reflexivity|exact V1].
  - eapply sim_sub; [apply (sim_fromTo KContact); auto|cbn [nextOff]; slia].
Qed.
Lemma sim_num32 {X A} e (W : N -> Prop) p (k : unit -> M X) (g : N -> P A) (Q : arena -> X -> A -> Prop) a r : wfA e a -> (forall i, 8 <= i < aused a -> inR p 4 i -> W i) ->
  (forall n a1 r1, wfA e a1 -> keeps (inR p 4) a a1 -> aused a1 = aused a -> g32 (mem a1) p = n -> sim e (orS W (from (aused a))) (k tt) (g n) Q a1 r1) ->
  sim e W (mbind (mNum32 p) k) (bind (pUIntW two32) g) Q a r.
Proof.
  intros Hw HW H.
  eapply (sim_bind e _ (inR p 4) _ _ _ _ (fun a' _ c => aused a' = aused a /\ g32 (mem a') p = c)); [|exact Hw|exact HW|].
  { unfold pUIntW. unfold mNum32. eapply (sim_bind e _ nowhere); [apply sim_UInt, Hw|exact Hw|slia|]. intros n n' a1 r1 Hw1 K1 (-> & ->).
    pose proof (N.mod_lt n' two32 ltac:(discriminate)) as L.
    assert (K : keeps (inR p 4) a (setMem a (p32 (mem a) p n'))).
    { destruct Hw as (_ & _ & _ & Hc). repeat split; cbn; auto; try lia. intros i _ Hi. unfold p32, inR in *. rewrite !p16_other by (unfold inR; lia). reflexivity. }
    unfold sim. cbn. eexists tt, _. split; [reflexivity|]. split; [reflexivity|]. split; [eapply keeps_sub; [exact K|slia]|]. cbn. split; [reflexivity|].
    rewrite <- (g32_p32 (mem a) p (n' mod two32) L). unfold p32. f_equal. f_equal; [f_equal|]; unfold u32; rewrite N.mod_mod by discriminate; reflexivity. }
  intros [] n a1 r1 Hw1 K1 (U1 & V1). apply H; auto.
Qed.
Lemma sim_cseq e this a r : wfA e a -> 8 <= this -> this + 8 <= aused a -> sim e (inR this 8) (mCSeq this) parseCSeq (hvalQ KCSeq this (aused a)) a r.
Proof.
  intros Hw H8 Hl. num Hw. unfold mCSeq, parseCSeq. apply sim_num32; [exact Hw|slia|]. intros n a1 r1 Hw1 K1 U1 V1. num K1.
  apply sim_posB; [apply posOnly_LWS|exact Hw1|]. intros _ r2.
  apply sim_eta. eapply (sim_bind e _ (inR (this + 4) 2)); [apply sim_method; [exact Hw1|lia|lia]|exact Hw1|slia|]. intros [] mt a2 r3 Hw2 K2 Hm. unfold methodQ in Hm. num K2.
  repeat carry1 K2. apply sim_ret; [exact Hw2|]. split; [reflexivity|]. split; [exact V1|]. rewrite <- U1. exact Hm.
Qed.
Lemma sim_rack e this a r : wfA e a -> 8 <= this -> this + 12 <= aused a -> sim e (inR this 12) (mRAck this) parseRAck (hvalQ KRAck this (aused a)) a r.
Proof.
  intros Hw H8 Hl. num Hw. unfold mRAck, parseRAck. apply sim_num32; [exact Hw|slia|]. intros n a1 r1 Hw1 K1 U1 V1. num K1.
  apply sim_posB; [apply posOnly_LWS|exact Hw1|]. intros _ r2.
  apply sim_num32; [exact Hw1|slia|]. intros c a2 r3 Hw2 K2 U2 V2. num K2. repeat carry1 K2.
  apply sim_posB; [apply posOnly_LWS|exact Hw2|]. intros _ r4.
  apply sim_eta. eapply (sim_bind e _ (inR (this + 8) 2)); [apply sim_method; [exact Hw2|lia|lia]|exact Hw2|slia|]. intros [] mt a3 r5 Hw3 K3 Hm. unfold methodQ in Hm. num K3.
  repeat carry1 K3. apply sim_ret; [exact Hw3|]. split; [reflexivity|]. split; [exact V1|]. split; [exact V2|]. replace (aused a) with (aused a2) by lia. exact Hm.
Qed.
Definition protoQ (this lo : N) : arena -> unit -> sentproto -> Prop := fun a' _ p => repProto (mem a') this lo (aused a') p.
Lemma sim_otherProtocol e this a r : wfA e a -> 8 <= this -> this + 2 <= aused a -> sim e (inR this 2) (mOtherProtocol this) otherProtocol (protoQ this (aused a)) a r.
Proof.
  intros Hw H8 Hl. num Hw. unfold mOtherProtocol, otherProtocol.
  eapply (sim_bind e _ (orS nowhere (inR this 2))); [eapply sim_into; [exact Hw|apply sim_new; [exact Hw|lia|lia]|intros a' x v K (-> & U & _); num K; unfold two16; lia]|exact Hw|slia|].
  intros [] [] a1 r1 Hw1 K1 (q & a0 & (-> & U0 & Z0) & K0 & U1 & V1). num K1. num K0. clear Z0. apply sim_get16. rewrite V1.
  eapply sim_strInto; [apply sim_CString, Hw1|exact Hw1|slia|lia|lia|]. intros n a2 r2 Hw2 K2 Hs. num K2. repeat carry1 K2.
  apply sim_posB; [apply posOnly_SWSMark|exact Hw2|]. intros _ r3.
  eapply sim_strInto; [apply sim_CString, Hw2|exact Hw2|slia|lia|lia|]. intros v a3 r4 Hw3 K3 Hv. num K3.
  assert (E : g16 (mem a3) (aused a) = g16 (mem a2) (aused a)) by (eapply g16_frame; [agr K3|reflexivity]). rewrite <- E in Hs. clear E.
  repeat carry1 K3.
  apply sim_eta. apply sim_posB; [apply posOnly_SWSMark|exact Hw3|]. intros [] r5. apply sim_ret; [exact Hw3|]. unfold protoQ, repProto. rewrite V1.
  split; [lia|]. split; [lia|]. split; (eapply str_mono; [eassumption|lia|lia]).
Qed.
Lemma sim_sentProtocol e this a r : wfA e a -> 8 <= this -> this + 2 <= aused a -> sim e (inR this 2) (mSentProtocol this) parseSentProtocol (protoQ this (aused a)) a r.
Proof.
  intros Hw H8 Hl. apply sim_onRest. pose proof (sim_otherProtocol e this a r Hw H8 Hl) as G.
  destruct r as [|x1 [|x2 [|x3 [|x4 [|x5 [|x6 [|x7 [|x8 r]]]]]]]]; try exact G.
  destruct (lc x1 115 && lc x2 105 && lc x3 112 && (x4 =? 47) && (x5 =? 50) && (x6 =? 46) && (x7 =? 48) && negb (IsDigit x8)); [|exact G].
  apply sim_goto_bind. apply sim_posB; [apply posOnly_SWSMark|exact Hw|]. intros _ r1. apply sim_set16_end; [exact Hw|vm_compute; reflexivity|slia|]. intros a1 _ _ _ V. exact V.
Qed.
Lemma sim_via e this a r : netLen e -> wfA e a -> 8 <= this -> this + 16 <= aused a -> zeros (mem a) this 14 -> sim e (inR this 14) (mVia this) parseVia (hvalQ KVia this (aused a)) a r.
Proof.
  intros Hn Hw H8 Hl Z. num Hw. unfold mVia, parseVia.
  assert (Z1 : mem a (this + 5) = 0) by (apply Z; lia). assert (Z2 : g16 (mem a) (this + 12) = NILPTR) by (eapply zeros16; [exact Z|lia|lia]). clear Z.
  eapply (sim_bind e _ (inR this 2)); [apply sim_sentProtocol; [exact Hw|lia|lia]|exact Hw|slia|]. intros [] p a1 r1 Hw1 K1 Hp. unfold protoQ in Hp. num K1. repeat carry1 K1.
  eapply sim_strInto; [apply sim_CString, Hw1|exact Hw1|slia|lia|lia|]. intros tr a2 r2 Hw2 K2 Ht. num K2.
  assert (Hp2 : repProto (mem a2) this (aused a) (aused a2) p) by (eapply repProto_mono; [eapply repProto_frame; [eapply g16_frame; [agr K2|reflexivity]| |exact Hp]; agr K2|lia|lia]).
  repeat carry1 K2.
  apply sim_posB; [apply posOnly_LWS|exact Hw2|]. intros _ r3.
  eapply (sim_bind e _ (inR (this + 4) 6)); [apply (sim_hostPort e Hn (this + 4)); [exact Hw2|lia|lia|replace (this + 4 + 1) with (this + 5) by lia; exact Z1]|exact Hw2|slia|].
  intros [] h a3 r4 Hw3 K3 Hh. num K3. clear Z1.
  assert (Hp3 : repProto (mem a3) this (aused a) (aused a3) p) by (eapply repProto_mono; [eapply repProto_frame; [eapply g16_frame; [agr K3|reflexivity]| |exact Hp2]; agr K3|lia|lia]).
  assert (Ht3 : str (mem a3) (aused a) (aused a3) (g16 (mem a3) (this + 2)) tr).
  { assert (E : g16 (mem a3) (this + 2) = g16 (mem a2) (this + 2)) by (eapply g16_frame; [agr K3|reflexivity]). rewrite E. eapply str_mono; [eapply str_frame; [|exact Ht]; agr K3|lia|lia]. }
  assert (Z3 : g16 (mem a3) (this + 12) = NILPTR) by (eapply g16_frame; [|exact Z2]; agr K3).
  apply (sim_sub e (inR (this + paramsOff KVia) 4)); [|cbn [paramsOff]; slia].
  apply (sim_lastParams KVia e this (aused a) a3 r4 (fun m hi => repProto m this (aused a) hi p /\ str m (aused a) hi (g16 m (this + 2)) tr /\ repHostPort m (this + 4) (aused a) hi h));
    [exact Hw3|exact H8|cbn [paramsOff]; lia|exact Z3|lia| | |].
  - split; [exact Hp3|]. split; [exact Ht3|]. eapply repHostPort_mono; [exact Hh|lia|lia].
  - cbn [paramsOff]. intros a' K (G1 & G2 & G3). num K. split; [eapply repProto_mono; [eapply repProto_frame; [eapply g16_frame; [agr K|reflexivity]| |exact G1]; agr K|lia|lia]|].
    split; [|eapply repHostPort_mono; [eapply repHostPort_frame; [| |exact G3]; agr K|lia|lia]].
    assert (E : g16 (mem a') (this + 2) = g16 (mem a3) (this + 2)) by (eapply g16_frame; [agr K|reflexivity]). rewrite E. eapply str_mono; [eapply str_frame; [|exact G2]; agr K|lia|lia].
  - intros a' t ps (G1 & G2 & G3) G4. split; [reflexivity|]. auto.
Qed.
Lemma sim_contentType e this a r : wfA e a -> 8 <= this -> this + 8 <= aused a -> zeros (mem a) this 8 ->
  sim e (inR this 8) (mContentType this) parseContentType (hvalQ KContentType this (aused a)) a r.
Proof.
  intros Hw H8 Hl Z. num Hw. unfold mContentType, parseContentType. assert (Z2 : g16 (mem a) (this + 6) = NILPTR) by (eapply zeros16; [exact Z|lia|lia]). clear Z.
  eapply sim_strInto; [apply sim_CString, Hw|exact Hw|slia|lia|lia|]. intros mn a1 r1 Hw1 K1 Hm. num K1.
  assert (Z3 : g16 (mem a1) (this + 6) = NILPTR) by (eapply g16_frame; [|exact Z2]; agr K1).
  apply sim_posB; [apply posOnly_SWSMark|exact Hw1|]. intros _ r2.
  eapply sim_strInto; [apply sim_CString, Hw1|exact Hw1|slia|lia|lia|]. intros sb a2 r3 Hw2 K2 Hs. num K2.
  assert (Hm2 : str (mem a2) (aused a) (aused a2) (g16 (mem a2) this) mn).
  { assert (E : g16 (mem a2) this = g16 (mem a1) this) by (eapply g16_frame; [agr K2|reflexivity]). rewrite E. eapply str_mono; [eapply str_frame; [|exact Hm]; agr K2|lia|lia]. }
  assert (Z4 : g16 (mem a2) (this + 6) = NILPTR) by (eapply g16_frame; [|exact Z3]; agr K2).
  apply (sim_sub e (inR (this + paramsOff KContentType) 4)); [|cbn [paramsOff]; slia].
  apply (sim_lastParams KContentType e this (aused a) a2 r3 (fun m hi => str m (aused a) hi (g16 m this) mn /\ str m (aused a) hi (g16 m (this + 2)) sb));
    [exact Hw2|exact H8|cbn [paramsOff]; lia|exact Z4|lia| | |].
  - split; [exact Hm2|]. eapply str_mono; [exact Hs|lia|lia].
  - cbn [paramsOff]. intros a' K (G1 & G2). num K.
    assert (E1 : g16 (mem a') this = g16 (mem a2) this) by (eapply g16_frame; [agr K|reflexivity]). assert (E2 : g16 (mem a') (this + 2) = g16 (mem a2) (this + 2)) by (eapply g16_frame; [agr K|reflexivity]).
    rewrite E1, E2. split; [eapply str_mono; [eapply str_frame; [|exact G1]; agr K|lia|lia]|eapply str_mono; [eapply str_frame; [|exact G2]; agr K|lia|lia]].
  - intros a' t ps (G1 & G2) G3. split; [reflexivity|]. auto.
Qed.
Lemma sim_contentDisposition e this a r : wfA e a -> 8 <= this -> this + 6 <= aused a -> zeros (mem a) this 6 ->
  sim e (inR this 6) (mContentDisposition this) parseContentDisposition (hvalQ KContentDisposition this (aused a)) a r.
Proof.
  intros Hw H8 Hl Z. num Hw. unfold mContentDisposition, parseContentDisposition. assert (Z2 : g16 (mem a) (this + 4) = NILPTR) by (eapply zeros16; [exact Z|lia|lia]). clear Z.
  eapply sim_strInto; [apply sim_CString, Hw|exact Hw|slia|lia|lia|]. intros d a1 r1 Hw1 K1 Hm. num K1.
  assert (Z3 : g16 (mem a1) (this + 4) = NILPTR) by (eapply g16_frame; [|exact Z2]; agr K1).
  apply (sim_sub e (inR (this + paramsOff KContentDisposition) 4)); [|cbn [paramsOff]; slia].
  apply (sim_lastParams KContentDisposition e this (aused a) a1 r1 (fun m hi => str m (aused a) hi (g16 m this) d));
    [exact Hw1|exact H8|cbn [paramsOff]; lia|exact Z3|lia|exact Hm| |].
  - cbn [paramsOff]. intros a' K G1. num K. assert (E1 : g16 (mem a') this = g16 (mem a1) this) by (eapply g16_frame; [agr K|reflexivity]).
    rewrite E1. eapply str_mono; [eapply str_frame; [|exact G1]; agr K|lia|lia].
  - intros a' t ps G1 G3. split; [reflexivity|]. auto.
Qed.
Lemma sim_word {X A} e (W : N -> Prop) p (k : unit -> M X) (g : bytes -> P A) (Q : arena -> X -> A -> Prop) a r :
  wfA e a -> (forall i, 8 <= i < aused a -> inR p 2 i -> W i) -> 8 <= p -> p + 2 <= aused a ->
  (forall b a1 r1, wfA e a1 -> keeps (inR p 2) a a1 -> str (mem a1) (aused a) (aused a1) (g16 (mem a1) p) b -> sim e (orS W (from (aused a))) (k tt) (g b) Q a1 r1) ->
  sim e W (mbind (mWord p) k) (bind (paCString SIP_WORD) g) Q a r.
Proof.
  intros Hw HW H8 Hl H. apply sim_assoc. eapply sim_strInto; [apply sim_CString, Hw|exact Hw|exact HW|exact H8|exact Hl|]. intros b a1 r1 Hw1 K1 Hs.
  apply sim_assoc. apply sim_get16. rewrite (str_nonnil _ _ _ _ _ Hs). apply sim_ret_bind. apply H; auto.
Qed.
Lemma sim_callID e this a r : wfA e a -> 8 <= this -> this + 4 <= aused a -> zeros (mem a) this 4 -> sim e (inR this 4) (mCallID this) parseCallID (hvalQ KCallID this (aused a)) a r.
Proof.
  intros Hw H8 Hl Z. num Hw. unfold mCallID, parseCallID. assert (Z2 : g16 (mem a) (this + 2) = NILPTR) by (eapply zeros16; [exact Z|lia|lia]). clear Z.
  apply sim_word; [exact Hw|slia|lia|lia|]. intros w a1 r1 Hw1 K1 Hm. num K1. repeat carry1 K1. apply sim_onRest.
  assert (N0 : forall (W : N -> Prop) r, sim e W (mret tt) (ret (VCall w None)) (hvalQ KCallID this (aused a)) a1 r).
  { intros W r2. apply sim_ret; [exact Hw1|]. split; [reflexivity|]. split; [exact Hm|exact Z2]. }
  destruct r1 as [|x r2]; [apply N0|]. destruct (x =? 64); [|apply N0]. apply sim_goto_bind. apply sim_eta.
  apply sim_word; [exact Hw1|slia|lia|lia|]. intros w2 a2 r3 Hw2 K2 Hs. num K2. apply sim_ret; [exact Hw2|]. split; [reflexivity|].
  assert (E : g16 (mem a2) this = g16 (mem a1) this) by (eapply g16_frame; [agr K2|reflexivity]). rewrite E.
  split; [eapply str_mono; [eapply str_frame; [|exact Hm]; agr K2|lia|lia]|eapply str_mono; [exact Hs|lia|lia]].
Qed.
Lemma sim_hval k e this a r : netLen e -> wfA e a -> 8 <= this -> this + hvalSize k <= aused a -> zeros (mem a) this (hInit k) ->
  sim e (inR this (nextOff k)) (mHVal k this) (parseHVal k) (hvalQ k this (aused a)) a r.
Proof.
  intros Hn Hw H8 Hl Z. num Hw.
  assert (G32 : forall k, (k = KRSeq \/ k = KExpires \/ k = KContentLength) -> this + 4 <= aused a -> sim e (inR this 4) (mNum32 this) (parseNum two32) (hvalQ k this (aused a)) a r).
  { intros k0 Hk L. apply sim_eta. unfold parseNum. apply sim_num32; [exact Hw|slia|]. intros n a1 r1 Hw1 K1 U1 V1. apply sim_ret; [exact Hw1|]. destruct Hk as [->|[->| ->]]; exact V1. }
  destruct k; cbn [mHVal parseHVal hvalSize hInit nextOff] in *.
  - apply (sim_fromTo KFrom); auto.
  - apply (sim_fromTo KTo); auto.
  - apply sim_via; auto.
  - apply sim_contact; auto.
  - apply (sim_route KRoute); auto.
  - apply (sim_route KRecordRoute); auto.
  - apply (sim_route KPath); auto.
  - apply (sim_route KServiceRoute); auto.
  - unfold parsePai. apply (sim_sub e (inR this 10)); [|slia].
    eapply sim_mapR; [apply (sim_addr e Hn this); [lia|exact Hw|lia|apply Z; lia|eapply zeros16; [exact Z|lia|lia]]|]. intros a' [] x _ H. split; [rewrite N.add_0_r; exact H|auto].
  - apply sim_cseq; auto.
  - apply sim_rack; auto.
  - apply G32; auto.
  - apply G32; auto.
  - unfold parseNum, pUIntW. 
    assert (E : forall (W : N -> Prop) (m : M unit) Q, sim e W m (n <- pUInt ;; ret (VNum (n mod two8))) Q a r -> sim e W m (x <- (n <- pUInt ;; ret (n mod two8)) ;; ret (VNum x)) Q a r).
    { intros W m Q. unfold sim, bind, ret. destruct (pUInt e _); exact (fun H => H). }
    apply E. clear E. eapply (sim_bind e _ nowhere); [apply sim_UInt, Hw|exact Hw|slia|]. intros n n' a1 r1 _ _ (-> & ->).
    apply sim_set8_end; [exact Hw|slia|]. intros a2 _ _ _ V. exact V.
  - apply (sim_sub e (inR this 4)); [apply G32; auto; lia|slia].
  - apply sim_contentType; auto.
  - apply sim_contentDisposition; auto.
  - apply sim_callID; auto.
Qed.
Lemma posOnly_hName k : posOnly (parseHName k).
Proof. intros e s. unfold parseHName, onRest. destruct (firstMatch _ _); reflexivity. Qed.
Lemma hInit_le k : 0 < hInit k /\ hInit k <= hvalSize k.
Proof. destruct k; vm_compute; split; congruence. Qed.
(** Parse, whatever the struct contained. *)
Lemma sim_header k e this a r : netLen e -> wfA e a -> 8 <= this -> this + hvalSize k <= aused a ->
  sim e (inR this (hvalSize k)) (mHeaderParse k this) (parseHeader k) (hvalQ k this (aused a)) a r.
Proof.
  intros Hn Hw H8 Hl. num Hw. pose proof (hInit_le k) as (L1 & L2). unfold mHeaderParse, parseHeader. apply sim_init; [exact Hw|slia|]. intros a1 Hw1 K1 U1 V1. num K1.
  apply sim_posB; [apply posOnly_hName|exact Hw1|]. intros _ r1. apply sim_posB; [apply posOnly_liftB|exact Hw1|]. intros _ r2. rewrite <- U1.
  pose proof (nextOff_le k). apply (sim_sub e (inR this (nextOff k))); [apply sim_hval; auto; lia|slia].
Qed.
Lemma sim_hvalParse k e this a r : netLen e -> wfA e a -> 8 <= this -> this + hvalSize k <= aused a ->
  sim e (inR this (hvalSize k)) (mHValParse k this) (parseHVal k) (hvalQ k this (aused a)) a r.
Proof.
  intros Hn Hw H8 Hl. num Hw. pose proof (hInit_le k) as (L1 & L2). unfold mHValParse. apply sim_init; [exact Hw|slia|]. intros a1 Hw1 K1 U1 V1. num K1. rewrite <- U1.
  pose proof (nextOff_le k). apply (sim_sub e (inR this (nextOff k))); [apply sim_hval; auto; lia|slia].
Qed.
(** The ParseSip... functions; the field [next] is NIL. *)
Lemma sim_sipX k e a r : netLen e -> wfA e a ->
  sim e nowhere (mSipX k) (parseSipX k)
    (fun a' p v => p = aused a /\ p + hvalSize k <= aused a' /\ repHVal k (mem a') p (p + hvalSize k) (aused a') v /\ zeros (mem a') (p + nextOff k) (hvalSize k - nextOff k)) a r.
Proof.
  intros Hn Hw. num Hw. pose proof (hInit_le k) as (L1 & L2). pose proof (nextOff_le k) as L3. assert (Hs : hvalSize k < 1000) by (destruct k; vm_compute; reflexivity). unfold mSipX, parseSipX.
  eapply (sim_bind e _ nowhere); [apply sim_new; [exact Hw|lia|lia]|exact Hw|slia|]. intros p [] a1 r1 Hw1 K1 (-> & U1 & Z1). num K1.
  apply (sim_bindR e _ (inR (aused a) (nextOff k)) _ _ _ (hvalQ k (aused a) (aused a1))); [apply sim_hval; auto; [lia|intros i Hi; apply Z1; lia]|exact Hw1|slia|].
  intros [] v a2 r2 Hw2 K2 HR. num K2. apply sim_ret; [exact Hw2|]. split; [reflexivity|]. split; [lia|]. rewrite <- U1. split; [exact HR|].
  intros i Hi. rewrite (proj2 (proj2 (proj2 K2))); [apply Z1; lia|lia|slia].
Qed.

(** ** Encode *)
Section Enc.
  Variable e : env.
  Variable a : arena.
  Variable hi : N.
  Hypothesis Hw : wfA e a.
  Hypothesis Hhi : hi <= aused a.
  Hypothesis Hcap : hi < cap a.
  Lemma enc_params k this lo t ps : 8 <= lo -> repParams k (mem a) this lo hi t ps -> mEncParams k this e a = WOk (encGenParams 59 (knownNames k) t ps).
  Proof.
    intros H8 (H1 & H2). unfold mEncParams, eMem. unfold tblLen in H1. destruct (knownNames k) as [|n0 ns] eqn:E.
    - unfold encGenParams. assert (Ek : encKnown [] (fun n p => 59 :: n ++ encGenValue (gpValue p)) t = []) by (destruct t as [[|? ?]|]; reflexivity). rewrite Ek. cbn [app].
      rewrite <- joined_nil. eapply (enc_list e a hi Hhi Hcap repGParam 8); [lia| |exact H8|exact H2].
      intros p0 q x _ _ L Hx. change (59 :: encGenParam x) with ([59] ++ encGenParam x). apply enc_app; [reflexivity|]. eapply enc_genParam; eauto.
    - eapply enc_genParams; eauto.
  Qed.
  Lemma enc_proto this lo p : (extProto p = true -> hi < 32768) -> 8 <= lo -> repProto (mem a) this lo hi p -> mEncProto this e a = WOk (encProto p).
  Proof.
    intros H15 H8. unfold repProto, mEncProto, eMem, encProto. destruct p as [|n v].
    - intros ->. reflexivity.
    - intros (H1 & H2 & H3 & H4). specialize (H15 eq_refl). rewrite isPtr_small by lia. cbn [negb]. eapply (enc_deref e a hi Hhi Hcap); [lia|].
      apply enc_app; [eapply enc_cstr; eauto|]. apply (enc_app e a (eOut [47]) _ [47] _); [reflexivity|]. apply enc_app; [eapply enc_cstr; eauto|reflexivity].
  Qed.
  Lemma enc_hval k this lo v : (extHVal v = true -> hi < 32768) -> 8 <= lo -> repHVal k (mem a) this lo hi v -> mEncHVal k this e a = WOk (encHVal e k v).
  Proof.
    intros H15 H8. unfold repHVal, mEncHVal, eMem, encHVal. destruct v as [ad t ps| |p tr h t ps|n mt|r c mt|n|mn sb t ps|d t ps|w w2].
    - intros (H1 & H2). destruct k; try contradiction; cbn [addrOff] in H1; rewrite ?N.add_0_r in H1;
        try (apply enc_app; [eapply enc_addr; eauto|eapply enc_params; eauto]; fail).
      + destruct H2 as (-> & H2). cbn [negb N.eqb]. apply enc_app; [eapply enc_addr; eauto|eapply enc_params; eauto].
      + destruct H2 as (-> & ->). change (encGenParams 59 (knownNames KPai) None []) with (@nil N). rewrite app_nil_r. eapply enc_addr; eauto.
    - intros (-> & ->). reflexivity.
    - intros (-> & H1 & H2 & H3 & H4). apply enc_app; [eapply enc_proto; eauto|]. apply enc_app; [eapply enc_cstr; eauto|].
      apply (enc_app e a (eOut [32]) _ [32] _); [reflexivity|]. apply enc_app; [eapply enc_hostPort; eauto|eapply (enc_params KVia); eauto].
    - intros (-> & H1 & H2). rewrite H1. apply enc_app; [reflexivity|]. apply (enc_app e a (eOut [32]) _ [32] _); [reflexivity|]. eapply enc_method; eauto.
    - intros (-> & H1 & H2 & H3). rewrite H1, H2. apply enc_app; [reflexivity|]. apply (enc_app e a (eOut [32]) _ [32] _); [reflexivity|].
      apply enc_app; [reflexivity|]. apply (enc_app e a (eOut [32]) _ [32] _); [reflexivity|]. eapply enc_method; eauto.
    - destruct k; try contradiction; intros ->; reflexivity.
    - intros (-> & H1 & H2 & H3). apply enc_app; [eapply enc_cstr; eauto|]. apply (enc_app e a (eOut [47]) _ [47] _); [reflexivity|].
      apply enc_app; [eapply enc_cstr; eauto|eapply (enc_params KContentType); eauto].
    - intros (-> & H1 & H2). apply enc_app; [eapply enc_cstr; eauto|eapply (enc_params KContentDisposition); eauto].
    - intros (-> & H1 & H2). apply enc_app; [eapply enc_cstr; eauto|]. destruct w2 as [w2|]; cbn [ostr] in H2.
      + rewrite (str_nonnil _ _ _ _ _ H2). cbn [negb]. apply (enc_app e a (eOut [64]) _ [64] _); [reflexivity|]. eapply enc_cstr; eauto.
      + rewrite H2. reflexivity.
  Qed.
  Lemma enc_header k this lo v : (extHVal v = true -> hi < 32768) -> 8 <= lo -> repHVal k (mem a) this lo hi v -> mEncHeader k this e a = WOk (encHeader e k v).
  Proof. intros H15 H8 H. unfold mEncHeader, encHeader. apply enc_app; [reflexivity|]. apply enc_app; [reflexivity|]. eapply enc_hval; eauto. Qed.
End Enc.
