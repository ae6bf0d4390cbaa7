(** The simulation between the memory-level parsers and the value-layer ones, and its rules. *)
From Verif Require Import Base Charset BaseLemmas Num Lws Str Monad Arena ArenaProofs ArenaTop ArenaOps ArenaOpsProofs Ref RefProofs Layout Mem.

(** An arena of less than 64 KB in a legal state, used by a context with the settings [e]. *)
Definition wfA (e : env) (a : arena) : Prop := memend e = Some (cap a) /\ cap a < two16 /\ 8 <= aused a /\ aused a <= cap a.

(** From [a] to [a']: nothing allocated is released, and what was allocated is unchanged except possibly at the addresses in [W]. *)
Definition keeps (W : N -> Prop) (a a' : arena) : Prop :=
  cap a' = cap a /\ aused a <= aused a' /\ aused a' <= cap a /\ forall i, 8 <= i < aused a -> ~ W i -> mem a' i = mem a i.

Definition inR (p n : N) : N -> Prop := fun i => p <= i < p + n.
Definition nowhere : N -> Prop := fun _ => False.
Definition from (lo : N) : N -> Prop := fun i => lo <= i.
Definition orS (A B : N -> Prop) : N -> Prop := fun i => A i \/ B i.

(** The settings under which the table of recognised parameters has more entries than fit in the unused prefix. *)
Definition bigTables (e : env) : bool := fSipUriKnown e || fViaKnown e.

Definition sim {X A} (e : env) (W : N -> Prop) (m : M X) (p : P A) (Q : arena -> X -> A -> Prop) (a : arena) (r : bytes) : Prop :=
  match p e (mkst r (aused a)) with
  | Ok v s => exists x a', m e a r = MOk x a' (rest s) /\ aused a' = used s /\ keeps W a a' /\ Q a' x v
  | Fail s => exists a', m e a r = MFail a' (rest s) /\ aused a' = used s /\ keeps W a a'
  | Panic => bigTables e = false -> m e a r = MPanic
  | Loop => m e a r = MLoop
  end.

Lemma keeps_refl W e a : wfA e a -> keeps W a a.
Proof. intros (_ & _ & _ & H). split; [reflexivity|]. split; [lia|]. split; [exact H|]. auto. Qed.
Lemma keeps_wf W e a a' : wfA e a -> keeps W a a' -> wfA e a'.
Proof. intros (H1 & H2 & H3 & H4) (K1 & K2 & K3 & _). unfold wfA. rewrite K1. repeat split; auto; lia. Qed.
Lemma keeps_sub (W W' : N -> Prop) a a' : keeps W a a' -> (forall i, 8 <= i < aused a -> W i -> W' i) -> keeps W' a a'.
Proof. intros (K1 & K2 & K3 & K4) H. do 3 (split; [assumption|]). intros i Hi Hw. apply K4; auto. Qed.
Lemma keeps_trans W a a1 a2 : keeps W a a1 -> keeps (orS W (from (aused a))) a1 a2 -> keeps W a a2.
Proof.
  intros (K1 & K2 & K3 & K4) (L1 & L2 & L3 & L4). repeat split; try congruence; try lia.
  intros i Hi Hw. rewrite L4, K4; auto; [lia|]. unfold orS, from. intros [H|H]; [auto|lia].
Qed.

Lemma sim_conseq {X A} e (W W' : N -> Prop) (m : M X) (p : P A) (Q Q' : arena -> X -> A -> Prop) a r :
  sim e W m p Q a r -> (forall i, 8 <= i < aused a -> W i -> W' i) ->
  (forall a' x v, keeps W a a' -> Q a' x v -> Q' a' x v) -> sim e W' m p Q' a r.
Proof.
  unfold sim. intros H HW HQ. destruct (p e _) as [v s|s| |]; auto.
  - destruct H as (x & a' & E & U & K & q). exists x, a'. split; [exact E|]. split; [exact U|]. split; [exact (keeps_sub _ _ _ _ K HW)|eauto].
  - destruct H as (a' & E & U & K). exists a'. split; [exact E|]. split; [exact U|]. exact (keeps_sub _ _ _ _ K HW).
Qed.
Lemma sim_sub {X A} e (W W' : N -> Prop) (m : M X) (p : P A) Q a r :
  sim e W m p Q a r -> (forall i, 8 <= i < aused a -> W i -> W' i) -> sim e W' m p Q a r.
Proof. intros H HW. eapply sim_conseq; eauto. Qed.

Lemma sim_bind {X Y A B} e (W W1 : N -> Prop) (m : M X) (p : P A) (f : X -> M Y) (g : A -> P B) Q1 Q a r :
  sim e W1 m p Q1 a r -> wfA e a -> (forall i, 8 <= i < aused a -> W1 i -> W i) ->
  (forall x v a1 r1, wfA e a1 -> keeps W1 a a1 -> Q1 a1 x v -> sim e (orS W (from (aused a))) (f x) (g v) Q a1 r1) ->
  sim e W (mbind m f) (bind p g) Q a r.
Proof.
  unfold sim, bind, mbind. intros H Hw HW K. destruct (p e (mkst r (aused a))) as [v s|s| |].
  - destruct H as (x & a1 & E & U & K1 & q). rewrite E. pose proof (keeps_wf _ _ _ _ Hw K1) as Hw1.
    specialize (K x v a1 (rest s) Hw1 K1 q). rewrite U in K. destruct s as [sr su]. cbn [rest used] in *. subst su.
    pose proof (keeps_sub _ _ _ _ K1 HW) as K1'.
    destruct (g v e (mkst sr (aused a1))) as [v2 s2|s2| |]; auto.
    + destruct K as (y & a2 & E2 & U2 & K2 & q2). exists y, a2. split; [exact E2|]. split; [exact U2|]. split; [exact (keeps_trans _ _ _ _ K1' K2)|exact q2].
    + destruct K as (a2 & E2 & U2 & K2). exists a2. split; [exact E2|]. split; [exact U2|]. exact (keeps_trans _ _ _ _ K1' K2).
  - destruct H as (a1 & E & U & K1). rewrite E. exists a1. split; [reflexivity|]. split; [exact U|]. exact (keeps_sub _ _ _ _ K1 HW).
  - intros N0. now rewrite H.
  - now rewrite H.
Qed.

Lemma sim_ret {X A} e W (x : X) (v : A) (Q : arena -> X -> A -> Prop) a r : wfA e a -> Q a x v -> sim e W (mret x) (ret v) Q a r.
Proof. intros Hw q. exists x, a. cbn. repeat split; auto; apply (keeps_refl W e a Hw). Qed.
Lemma sim_fail {X A} e W (Q : arena -> X -> A -> Prop) a r : wfA e a -> sim e W mfail pfail Q a r.
Proof. intros Hw. exists a. cbn. repeat split; auto; apply (keeps_refl W e a Hw). Qed.
Lemma sim_panic {X A} e W (Q : arena -> X -> A -> Prop) a r : sim e W mpanic panic Q a r.
Proof. intros _. reflexivity. Qed.
Lemma sim_onRest {X A} e W (m : bytes -> M X) (p : bytes -> P A) Q a r :
  sim e W (m r) (p r) Q a r -> sim e W (mOnRest m) (onRest p) Q a r.
Proof. exact (fun H => H). Qed.
Lemma sim_goto_bind {X A} e W r' (f : unit -> M X) (g : unit -> P A) Q a r :
  sim e W (f tt) (g tt) Q a r' -> sim e W (mbind (mGoto r') f) (bind (goto r') g) Q a r.
Proof. exact (fun H => H). Qed.
Lemma sim_goto e W r' (Q : arena -> unit -> unit -> Prop) a r : wfA e a -> Q a tt tt -> sim e W (mGoto r') (goto r') Q a r.
Proof. intros Hw q. exists tt, a. cbn. repeat split; auto; apply (keeps_refl W e a Hw). Qed.
Lemma sim_withEnv {X A} e W (m : env -> M X) (p : env -> P A) Q a r :
  sim e W (m e) (p e) Q a r -> sim e W (mWithEnv m) (withEnv p) Q a r.
Proof. exact (fun H => H). Qed.
Lemma sim_ret_bind {X Y A} e W (x : X) (f : X -> M Y) (p : P A) Q a r : sim e W (f x) p Q a r -> sim e W (mbind (mret x) f) p Q a r.
Proof. exact (fun H => H). Qed.
(** Associativity, for nested sequences. *)
Lemma sim_assoc {X Y Z A} e W (m : M X) (f : X -> M Y) (g : Y -> M Z) (p : P A) Q a r :
  sim e W (mbind m (fun x => mbind (f x) g)) p Q a r -> sim e W (mbind (mbind m f) g) p Q a r.
Proof. unfold sim, mbind. destruct (m e a r); exact (fun H => H). Qed.

Lemma sim_eta {X A} e W (m : M X) (p : P A) Q a r : sim e W (mbind m (fun x => mret x)) p Q a r -> sim e W m p Q a r.
Proof. unfold sim, mbind, mret. destruct (m e a r); exact (fun H => H). Qed.
(** Steps of the memory side only. *)
Lemma sim_left {X Y A} e W (m : M X) (f : X -> M Y) (p : P A) x a1 Q a r :
  m e a r = MOk x a1 r -> keeps W a a1 -> aused a1 = aused a -> sim e (orS W (from (aused a))) (f x) p Q a1 r -> sim e W (mbind m f) p Q a r.
Proof.
  unfold sim, mbind. intros -> K U H. rewrite U in H. destruct (p e _) as [v s|s| |]; auto.
  - destruct H as (y & a2 & E & U2 & K2 & q). exists y, a2. split; [exact E|]. split; [exact U2|]. split; [exact (keeps_trans _ _ _ _ K K2)|exact q].
  - destruct H as (a2 & E & U2 & K2). exists a2. split; [exact E|]. split; [exact U2|]. exact (keeps_trans _ _ _ _ K K2).
Qed.
Lemma g16_p16 m p v : v < two16 -> g16 (p16 m p v) p = v.
Proof.
  intros H. unfold g16, p16. rewrite upd_other by lia. rewrite !upd_same. unfold u16. rewrite (N.mod_small v) by exact H.
  pose proof (N.div_mod v 256 ltac:(discriminate)). lia.
Qed.
Lemma p16_other m p v i : ~ inR p 2 i -> p16 m p v i = m i.
Proof. unfold inR, p16. intros H. now rewrite !upd_other by lia. Qed.
Lemma sim_set16 {X A} e (W : N -> Prop) p v (f : unit -> M X) (q : P A) Q a r : wfA e a -> v < two16 ->
  (forall i, 8 <= i < aused a -> inR p 2 i -> W i) ->
  (forall a1, wfA e a1 -> keeps (inR p 2) a a1 -> aused a1 = aused a -> g16 (mem a1) p = v -> sim e (orS W (from (aused a))) (f tt) q Q a1 r) ->
  sim e W (mbind (set16 p v) f) q Q a r.
Proof.
  intros Hw Hv HW H. assert (K : keeps (inR p 2) a (setMem a (p16 (mem a) p v))).
  { destruct Hw as (_ & _ & _ & Hc). repeat split; cbn; auto; try lia. intros i _ Hi. now apply p16_other. }
  eapply (sim_left _ _ _ _ _ tt (setMem a (p16 (mem a) p v))); [reflexivity|exact (keeps_sub _ _ _ _ K HW)|reflexivity|].
  apply H; [exact (keeps_wf _ _ _ _ Hw K)|exact K|reflexivity|]. now apply g16_p16.
Qed.
Lemma sim_set8 {X A} e (W : N -> Prop) p v (f : unit -> M X) (q : P A) Q a r : wfA e a ->
  (forall i, 8 <= i < aused a -> inR p 1 i -> W i) ->
  (forall a1, wfA e a1 -> keeps (inR p 1) a a1 -> aused a1 = aused a -> mem a1 p = v -> sim e (orS W (from (aused a))) (f tt) q Q a1 r) ->
  sim e W (mbind (set8 p v) f) q Q a r.
Proof.
  intros Hw HW H. assert (K : keeps (inR p 1) a (setMem a (upd (mem a) p v))).
  { destruct Hw as (_ & _ & _ & Hc). repeat split; cbn; auto; try lia. intros i _ Hi. apply upd_other. unfold inR in Hi. lia. }
  eapply (sim_left _ _ _ _ _ tt (setMem a (upd (mem a) p v))); [reflexivity|exact (keeps_sub _ _ _ _ K HW)|reflexivity|].
  apply H; [exact (keeps_wf _ _ _ _ Hw K)|exact K|reflexivity|]. cbn. apply upd_same.
Qed.
Lemma g16_p16_other m p v q : q + 2 <= p \/ p + 2 <= q -> g16 (p16 m p v) q = g16 m q.
Proof. intros H. unfold g16. now rewrite !p16_other by (unfold inR; lia). Qed.
Lemma g32_p32 m p v : v < two32 -> g32 (p32 m p v) p = v.
Proof.
  intros H. unfold g32, p32. rewrite g16_p16_other by lia.
  pose proof (N.mod_lt v two16 ltac:(discriminate)) as L. assert (E : u32 v = v) by (unfold u32; now apply N.mod_small). rewrite E.
  rewrite !g16_p16; [|apply N.div_lt_upper_bound; [discriminate|exact H]|exact L].
  pose proof (N.div_mod v two16 ltac:(discriminate)). lia.
Qed.
Lemma sim_set32 {X A} e (W : N -> Prop) p v (f : unit -> M X) (q : P A) Q a r : wfA e a -> v < two32 ->
  (forall i, 8 <= i < aused a -> inR p 4 i -> W i) ->
  (forall a1, wfA e a1 -> keeps (inR p 4) a a1 -> aused a1 = aused a -> g32 (mem a1) p = v -> sim e (orS W (from (aused a))) (f tt) q Q a1 r) ->
  sim e W (mbind (set32 p v) f) q Q a r.
Proof.
  intros Hw Hv HW H. assert (K : keeps (inR p 4) a (setMem a (p32 (mem a) p v))).
  { destruct Hw as (_ & _ & _ & Hc). repeat split; cbn; auto; try lia. intros i _ Hi. unfold p32. unfold inR in Hi.
    rewrite !p16_other by (unfold inR; lia). reflexivity. }
  eapply (sim_left _ _ _ _ _ tt (setMem a (p32 (mem a) p v))); [reflexivity|exact (keeps_sub _ _ _ _ K HW)|reflexivity|].
  apply H; [exact (keeps_wf _ _ _ _ Hw K)|exact K|reflexivity|]. now apply g32_p32.
Qed.
Lemma sim_get16 {X A} e (W : N -> Prop) p (f : N -> M X) (q : P A) Q a r : sim e W (f (g16 (mem a) p)) q Q a r -> sim e W (mbind (get16 p) f) q Q a r.
Proof. exact (fun H => H). Qed.
Lemma sim_get8 {X A} e (W : N -> Prop) p (f : N -> M X) (q : P A) Q a r : sim e W (f (mem a p)) q Q a r -> sim e W (mbind (get8 p) f) q Q a r.
Proof. exact (fun H => H). Qed.
Lemma sim_deref {X A} e (W : N -> Prop) p (f : unit -> M X) (q : P A) Q a r : p < cap a -> sim e W (f tt) q Q a r -> sim e W (mbind (deref p) f) q Q a r.
Proof. intros Hp H. unfold sim, mbind, deref in *. replace (cap a <=? p) with false by lia. exact H. Qed.
Lemma sim_deref0 {X A} e (W : N -> Prop) p (f : unit -> M X) (q : P A) Q a r : wfA e a -> p < aused a -> sim e W (f tt) q Q a r -> sim e W (mbind (deref p) f) q Q a r.
Proof. intros (_ & _ & _ & Hw) Hp H. apply sim_deref; [lia|exact H]. Qed.
Lemma sim_init {X A} e (W : N -> Prop) p n (f : unit -> M X) (q : P A) Q a r : wfA e a ->
  (forall i, 8 <= i < aused a -> inR p n i -> W i) ->
  (forall a1, wfA e a1 -> keeps (inR p n) a a1 -> aused a1 = aused a -> (forall i, inR p n i -> mem a1 i = 0) -> sim e (orS W (from (aused a))) (f tt) q Q a1 r) ->
  sim e W (mbind (mInit p n) f) q Q a r.
Proof.
  intros Hw HW H. assert (K : keeps (inR p n) a (setMem a (ZeroMem (mem a) p n))).
  { destruct Hw as (_ & _ & _ & Hc). repeat split; cbn; auto; try lia. intros i _ Hi. unfold inR in Hi. rewrite ZeroMem_spec.
    replace ((p <=? i) && (i <? p + n)) with false by lia. reflexivity. }
  eapply (sim_left _ _ _ _ _ tt (setMem a (ZeroMem (mem a) p n))); [reflexivity|exact (keeps_sub _ _ _ _ K HW)|reflexivity|].
  apply H; [exact (keeps_wf _ _ _ _ Hw K)|exact K|reflexivity|]. intros i Hi. unfold inR in Hi. cbn. rewrite ZeroMem_spec.
  replace ((p <=? i) && (i <? p + n)) with true by lia. reflexivity.
Qed.

(** ** What is read from memory *)
Definition agreeR (m m' : N -> N) (lo hi : N) : Prop := forall i, lo <= i < hi -> m' i = m i.
Lemma agreeR_sub m m' lo hi lo' hi' : agreeR m m' lo hi -> lo <= lo' -> hi' <= hi -> agreeR m m' lo' hi'.
Proof. intros H H1 H2 i Hi. apply H. lia. Qed.
Lemma keeps_agree W a a1 lo hi : keeps W a a1 -> 8 <= lo -> hi <= aused a -> (forall i, lo <= i < hi -> ~ W i) -> agreeR (mem a) (mem a1) lo hi.
Proof. intros K H1 H2 H3 i Hi. apply K; [lia|auto]. Qed.

Definition zeros (m : N -> N) (p n : N) : Prop := forall i, p <= i < p + n -> m i = 0.
(** The string [b], with its length prefix, at [p], inside [lo, hi). *)
Definition str (m : N -> N) (lo hi p : N) (b : bytes) : Prop :=
  lo + 2 <= p /\ p + len b <= hi /\ g16 m (p - 2) = len b /\ readBytes m p (List.length b) = b.
Definition ostr (m : N -> N) (lo hi p : N) (b : option bytes) : Prop :=
  match b with None => p = NILPTR | Some b => str m lo hi p b end.

Lemma zeros_frame m m' p n : agreeR m m' p (p + n) -> zeros m p n -> zeros m' p n.
Proof. intros A H i Hi. rewrite A by exact Hi. apply H, Hi. Qed.
Lemma g16_frame m m' p v : agreeR m m' p (p + 2) -> g16 m p = v -> g16 m' p = v.
Proof. intros A <-. unfold g16. now rewrite !A by lia. Qed.
Lemma g32_frame m m' p v : agreeR m m' p (p + 4) -> g32 m p = v -> g32 m' p = v.
Proof. intros A <-. unfold g32, g16. now rewrite !A by lia. Qed.
Lemma mem_frame (m m' : N -> N) p v : agreeR m m' p (p + 1) -> m p = v -> m' p = v.
Proof. intros A <-. apply A. lia. Qed.
Lemma str_frame m m' lo hi p b : agreeR m m' lo hi -> str m lo hi p b -> str m' lo hi p b.
Proof.
  intros A (H1 & H2 & H3 & H4). repeat split; auto.
  - rewrite <- H3. unfold g16. rewrite !A by lia. reflexivity.
  - etransitivity; [|exact H4]. apply readBytes_ext. intros i Hi. apply A. unfold len in H2. lia.
Qed.
Lemma ostr_frame m m' lo hi p b : agreeR m m' lo hi -> ostr m lo hi p b -> ostr m' lo hi p b.
Proof. destruct b; [apply str_frame|auto]. Qed.
Lemma str_mono m lo hi lo' hi' p b : str m lo hi p b -> lo' <= lo -> hi <= hi' -> str m lo' hi' p b.
Proof. intros (H1 & H2 & H3 & H4) ? ?. repeat split; auto; lia. Qed.
Lemma ostr_mono m lo hi lo' hi' p b : ostr m lo hi p b -> lo' <= lo -> hi <= hi' -> ostr m lo' hi' p b.
Proof. destruct b; [apply str_mono|auto]. Qed.
Lemma str_nonnil m lo hi p b : str m lo hi p b -> (p =? NILPTR) = false.
Proof. intros (H & _). unfold NILPTR. lia. Qed.
Lemma str_small m lo hi p b e a : str m lo hi p b -> wfA e a -> hi <= aused a -> p < two16.
Proof. intros (H1 & H2 & _) (_ & Hc & _ & Hu) Hh. unfold len in *. lia. Qed.

(** The library's readers see exactly that string. *)
Lemma str_read e a lo hi p b : wfA e a -> str (mem a) lo hi p b -> hi <= aused a -> p < cap a -> readCString a p = Some b.
Proof.
  intros (_ & Hc & _ & Hu) (H1 & H2 & H3 & H4) Hh Hp. rewrite <- (u16_small p) by (unfold two16 in *; lia).
  apply stored_read; [unfold two16 in *; lia|exact Hp|]. repeat split; auto; [lia|lia|].
  unfold g16 in H3. replace (p - 2 + 1) with (p - 1) in H3 by lia. rewrite H3. symmetry. apply u16_small. unfold two16 in *. lia.
Qed.

(** ** Strings and structs *)
Lemma refines_sim e a r at_ f (p : P bytes) : wfA e a ->
  refines at_ a (f a r) (p e (mkst r (aused a))) ->
  sim e nowhere (mStr f) p (fun a' q b => str (mem a') (aused a) (aused a') q b /\ q < two16 /\ q = aused a + 2 /\ aused a' = q + len b) a r.
Proof.
  intros (H1 & H2 & H3 & H4) R. unfold sim, mStr. destruct (f a r) as [q a' r'|a' r'| |] eqn:E; destruct (p e (mkst r (aused a))) as [v s|s| |]; try contradiction; auto.
  - destruct R as (R1 & R2 & R3 & R4 & R5 & R6 & R7 & (S1 & S2 & S3 & S4)).
    assert (q = aused a + 2) by (rewrite R3; apply u16_small; unfold two16 in *; lia). subst q. rewrite H.
    exists (aused a + 2), a'. repeat split; auto; try congruence; try lia.
    + intros i Hi _. apply R7. lia.
    + unfold g16. replace (aused a + 2 - 2 + 1) with (aused a + 2 - 1) by lia. rewrite S4. apply u16_small. unfold two16 in *. lia.
  - destruct R as (R1 & R2 & R3 & R4 & R5 & R6 & R7). exists a'. repeat split; auto; try congruence; try lia.
    intros i Hi _. apply R4. lia.
Qed.
Lemma wfA_bridge e a : wfA e a -> envCap e a /\ cap a < two32.
Proof. intros (H1 & H2 & _). split; [exact H1|unfold two16, two32 in *; lia]. Qed.
Definition strQ (a : arena) : arena -> N -> bytes -> Prop := fun a' q b => str (mem a') (aused a) (aused a') q b /\ q < two16 /\ q = aused a + 2 /\ aused a' = q + len b.
Lemma sim_CString e cs a r : wfA e a -> sim e nowhere (mStr (ParseAndAllocCString cs)) (paCString cs) (strQ a) a r.
Proof. intros H. destruct (wfA_bridge e a H). eapply refines_sim; [exact H|]. apply refine_CString; auto. Qed.
Lemma sim_CStringEmpty e cs a r : wfA e a -> sim e nowhere (mStr (ParseAndAllocCStringEnableEmpty cs)) (paCStringEmpty cs) (strQ a) a r.
Proof. intros H. destruct (wfA_bridge e a H). eapply refines_sim; [exact H|]. apply refine_CStringEmpty; auto. Qed.
Lemma sim_Escapable e cs a r : wfA e a -> sim e nowhere (mStr (ParseAndAllocCStringEscapable cs)) (paEscapable cs) (strQ a) a r.
Proof. intros H. destruct (wfA_bridge e a H). eapply refines_sim; [exact H|]. apply refine_Escapable; auto. Qed.
Lemma sim_EscapableEmpty e cs a r : wfA e a -> sim e nowhere (mStr (ParseAndAllocCStringEscapableEnableEmpty cs)) (paEscapableEmpty cs) (strQ a) a r.
Proof. intros H. destruct (wfA_bridge e a H). eapply refines_sim; [exact H|]. apply refine_EscapableEmpty; auto. Qed.
Lemma sim_Tel e cs a r : wfA e a -> sim e nowhere (mStr (ParseAndAllocTelNumber cs)) (paTelNumber cs) (strQ a) a r.
Proof. intros H. destruct (wfA_bridge e a H). eapply refines_sim; [exact H|]. apply refine_TelNumber; auto. Qed.
Lemma sim_Quoted e a r : wfA e a -> sim e nowhere (mStr ParseAndAllocSipQuotedString) paQuoted (strQ a) a r.
Proof. intros H. destruct (wfA_bridge e a H). eapply refines_sim; [exact H|]. apply refine_Quoted; auto. Qed.

Definition newQ (n : N) (a : arena) : arena -> N -> unit -> Prop := fun a' p _ => p = aused a /\ aused a' = aused a + n /\ zeros (mem a') p n.
Lemma AllocWithClear_iff e n a : wfA e a -> 0 < n -> n < 1000 ->
  if aused a + n <=? cap a
  then exists a', AllocWithClear n a = (aused a, a') /\ keeps nowhere a a' /\ aused a' = aused a + n /\ zeros (mem a') (aused a) n /\
       (forall i, ~ inR (aused a) n i -> mem a' i = mem a i)
  else exists a', AllocWithClear n a = (NILPTR, a') /\ keeps nowhere a a' /\ aused a' = aused a /\ mem a' = mem a.
Proof.
  intros (H1 & H2 & H3 & H4) Hn Hn'. destruct (Alloc_spec n a) as (Ep & Eu & Em & Ec & _); [unfold two16, two32 in *; lia|].
  destruct (AllocWithClear_case n a H2 (conj H3 H4) ltac:(lia)) as (Hc & Hag & Hcase).
  unfold AllocWithClear in *. destruct (Alloc n a) as [q a1]. cbn [fst snd] in *.
  replace (n =? 0) with false in * by lia. cbn [negb andb] in *. rewrite Eu in *.
  destruct (N.leb_spec (aused a + n) (cap a)) as [L|L].
  - replace (aused a + n =? aused a) with false in * by lia. cbn [fst snd] in *.
    destruct Hcase as [[E _]|(_ & E1 & E2 & E3 & E4)]; [exfalso; rewrite Ep, u16_small in E by (unfold two16 in *; lia); unfold NILPTR in E; lia|].
    eexists. split; [rewrite E1; reflexivity|]. split; [repeat split; auto; cbn; [lia|]|].
    { intros i Hi _. apply Hag. lia. }
    split; [cbn; exact Eu|]. split; intros i Hi; rewrite E4.
    + replace ((aused a <=? i) && (i <? aused a + n)) with true by lia. reflexivity.
    + unfold inR in Hi. replace ((aused a <=? i) && (i <? aused a + n)) with false by lia. reflexivity.
  - rewrite N.eqb_refl in *. cbn [fst snd] in *. exists a1. rewrite Ep. split; [reflexivity|]. split; [|auto]. repeat split; auto; try lia.
    intros i Hi _. now rewrite Em.
Qed.
Lemma sim_new e n a r : wfA e a -> 0 < n -> n < 1000 -> sim e nowhere (mNew n) (allocStruct n) (newQ n a) a r.
Proof.
  intros Hw Hn Hn'. pose proof (AllocWithClear_iff e n a Hw Hn Hn') as H. unfold sim, allocStruct, leMem, mNew, mNewX, mbind. cbn [used rest].
  destruct Hw as (H1 & H2 & H3 & H4). rewrite H1. destruct (N.leb_spec (aused a + n) (cap a)) as [L|L].
  - destruct H as (a' & -> & K & U & Z & _). replace (aused a =? NILPTR) with false by (unfold NILPTR; lia). unfold deref.
    replace (cap a' <=? aused a) with false by (rewrite (proj1 K); lia). exists (aused a), a'. cbn. repeat split; auto; apply K.
  - destruct H as (a' & -> & K & U & _). cbn. exists a'. cbn. repeat split; auto; apply K.
Qed.
Lemma sim_alloc e n a r : wfA e a -> 0 < n -> n < 1000 ->
  sim e nowhere (mAlloc n) (allocStruct n) (fun a' p _ => p = aused a /\ aused a' = aused a + n) a r.
Proof.
  intros (H1 & H2 & H3 & H4) Hn Hn'. destruct (Alloc_spec n a) as (Ep & Eu & Em & Ec & _); [unfold two16, two32 in *; lia|].
  unfold sim, allocStruct, leMem, mAlloc, mAllocX, mbind. cbn [used rest]. rewrite H1.
  destruct (Alloc n a) as [q a1]. cbn [fst snd] in *. replace (n =? 0) with false in * by lia. cbn [negb andb] in *.
  assert (K : aused a1 <= cap a -> aused a <= aused a1 -> keeps nowhere a a1). { intros ? ?. repeat split; auto. intros i _ _. now rewrite Em. }
  destruct (N.leb_spec (aused a + n) (cap a)) as [L|L]; subst q.
  - rewrite u16_small by (unfold two16 in *; lia). replace (aused a =? NILPTR) with false by (unfold NILPTR; lia). exists (aused a), a1. cbn.
    repeat split; auto; try lia. intros i _ _. now rewrite Em.
  - cbn. exists a1. cbn. repeat split; auto; try lia. intros i _ _. now rewrite Em.
Qed.

Lemma sim_cstring e b a r : wfA e a -> sim e nowhere (mCString b) (allocCString b) (strQ a) a r.
Proof.
  intros Hw. pose proof Hw as (H1 & H2 & H3 & H4). unfold sim, allocCString, leMem, mCString. cbn [used rest]. rewrite H1.
  destruct (N.leb_spec (aused a + (len b + 2)) (cap a)) as [L|L].
  - replace (2147483648 <=? len b) with false by (unfold two16, two32 in *; lia).
    pose proof (AllocCString_ok a b r H2 H3 ltac:(lia)) as R. destruct (AllocCString b a) as [q a' r'|a' r'| |]; cbn [withRest] in R; try contradiction.
    destruct R as (_ & R2 & R3 & R4 & R5 & R6 & R7 & (S1 & S2 & S3 & S4)). cbn [used] in R2.
    assert (q = aused a + 2) by (rewrite R3; apply u16_small; unfold two16 in *; lia). subst q. rewrite H.
    exists (aused a + 2), a'. split; [reflexivity|]. split; [cbn; lia|]. split.
    + repeat split; auto; try lia. intros i Hi _. apply R7. lia.
    + repeat split; auto; try lia. unfold g16. replace (aused a + 2 - 2 + 1) with (aused a + 2 - 1) by lia. rewrite S4. apply u16_small. unfold two16 in *. lia.
  - destruct (N.leb_spec 2147483648 (len b)) as [G|G].
    + exists a. split; [reflexivity|]. split; [reflexivity|]. exact (keeps_refl _ e a Hw).
    + destruct (Alloc_spec (u32 (len b + 2)) a) as (Ep & Eu & Em & Ec & _).
      { rewrite u32_small by (unfold two32; lia). unfold two16, two32 in *. lia. }
      unfold AllocCString. destruct (Alloc (u32 (len b + 2)) a) as [q a1]. cbn [fst snd] in *.
      rewrite u32_small in * by (unfold two32; lia). replace (aused a + (len b + 2) <=? cap a) with false in * by lia. rewrite andb_false_r in *. subst q.
      cbn. exists a1. split; [reflexivity|]. split; [cbn; exact Eu|]. repeat split; try lia. intros i _ _. now rewrite Em.
Qed.

(** [this.field, ok = ...]. *)
Definition intoQ {A} (p : N) (Q : arena -> N -> A -> Prop) : arena -> unit -> A -> Prop :=
  fun a' _ v => exists q a0, Q a0 q v /\ keeps (inR p 2) a0 a' /\ aused a' = aused a0 /\ g16 (mem a') p = q.
Lemma sim_into {A} e (W : N -> Prop) p (m : M N) (q : P A) Q a r : wfA e a -> sim e W m q Q a r ->
  (forall a' x v, keeps W a a' -> Q a' x v -> x < two16) ->
  sim e (orS W (inR p 2)) (mInto p m) q (intoQ p Q) a r.
Proof.
  intros Hw H Hx. unfold sim, mInto in *. destruct (q e _) as [v s|s| |].
  - destruct H as (x & a0 & E & U & K & HQ). rewrite E. exists tt. eexists. split; [reflexivity|]. split; [exact U|].
    pose proof (keeps_wf _ _ _ _ Hw K) as Hw0.
    assert (K0 : keeps (inR p 2) a0 (setMem a0 (p16 (mem a0) p x))).
    { destruct Hw0 as (_ & _ & _ & Hc). repeat split; cbn; auto; try lia. intros i _ Hi. now apply p16_other. }
    split.
    + apply (keeps_sub _ (orS W (inR p 2))) in K; [|intros i _ Hi; now left]. eapply keeps_trans; [exact K|].
      eapply keeps_sub; [exact K0|]. intros i _ Hi. left. now right.
    + exists x, a0. split; [exact HQ|]. split; [exact K0|]. split; [reflexivity|]. apply g16_p16. eapply Hx; eauto.
  - destruct H as (a0 & E & U & K). rewrite E. eexists. split; [reflexivity|]. split; [exact U|].
    pose proof (keeps_wf _ _ _ _ Hw K) as Hw0.
    apply (keeps_sub _ (orS W (inR p 2))) in K; [|intros i _ Hi; now left]. eapply keeps_trans; [exact K|].
    destruct Hw0 as (_ & _ & _ & Hc). repeat split; cbn; auto; try lia. intros i _ Hi. apply p16_other. intros Hi'. apply Hi. left. now right.
  - intros B. now rewrite H.
  - now rewrite H.
Qed.

(** Loops: [J] holds before every round. *)
Lemma sim_loop {X Y A B} e (W : N -> Prop) (bm : X -> M (X + Y)) (bp : A -> P (A + B)) (J : arena -> X -> A -> Prop) (Q : arena -> Y -> B -> Prop) :
  (forall x v a r, wfA e a -> J a x v ->
     sim e W (bm x) (bp v) (fun a' y w => match y, w with inl x', inl v' => J a' x' v' | inr y', inr w' => Q a' y' w' | _, _ => False end) a r) ->
  forall x v a r, wfA e a -> J a x v -> sim e W (loopM bm x) (loopP bp v) Q a r.
Proof.
  intros Hb x v a r Hw HJ.
  assert (G : forall f x v a r, wfA e a -> J a x v -> sim e W (iterM f bm x) (iterP f bp v) Q a r).
  { induction f as [|f IH]; intros x0 v0 a0 r0 Hw0 HJ0; [reflexivity|]. cbn [iterM iterP].
    eapply (sim_bind e W W); [apply Hb; eassumption|exact Hw0|auto|].
    intros [x1|y1] [v1|w1] a1 r1 Hw1 K1 HQ1; try contradiction.
    - eapply sim_sub; [apply IH; eassumption|]. intros i _ Hi. now left.
    - apply sim_ret; auto. }
  unfold sim, loopM, loopP. cbn [rest]. apply G; auto.
Qed.
(** Parsers that only move the position. *)
Lemma sim_UInt e a r : wfA e a -> sim e nowhere mUInt pUInt (fun a' x v => a' = a /\ x = v) a r.
Proof.
  intros Hw. apply sim_onRest. destruct (ParseUInt r) as [[[v n] r']|].
  - apply sim_goto_bind. apply sim_ret; auto.
  - apply sim_fail; auto.
Qed.
Definition posOnly {A} (p : P A) : Prop := forall e s, match p e s with Ok _ s' | Fail s' => used s' = used s | _ => True end.
Lemma sim_pos {A} e (p : P A) a r : wfA e a -> posOnly p -> sim e nowhere (mPos p) p (fun a' x v => a' = a /\ x = v) a r.
Proof.
  intros Hw Hp. unfold sim, mPos. specialize (Hp e (mkst r (aused a))). destruct (p e (mkst r (aused a))) as [v s|s| |]; auto.
  - exists v, a. repeat split; auto; apply (keeps_refl nowhere e a Hw).
  - exists a. repeat split; auto; apply (keeps_refl nowhere e a Hw).
Qed.
Lemma sim_orRestore {X A} e (W : N -> Prop) (m n : M X) (p q : P A) Q a r : wfA e a -> sim e W m p Q a r ->
  (forall a1, wfA e a1 -> keeps W a a1 -> sim e (orS W (from (aused a))) n q Q a1 r) -> sim e W (mOrRestore m n) (orRestore p q) Q a r.
Proof.
  unfold sim, mOrRestore, orRestore. intros Hw H H2. destruct (p e (mkst r (aused a))) as [v s|s| |].
  - destruct H as (x & a' & E & R). exists x, a'. rewrite E. split; [reflexivity|exact R].
  - destruct H as (a1 & E & U & K). rewrite E. cbn [rest]. rewrite <- U. specialize (H2 a1 (keeps_wf _ _ _ _ Hw K) K).
    destruct (q e (mkst r (aused a1))) as [v2 s2|s2| |]; auto.
    + destruct H2 as (y & a2 & E2 & U2 & K2 & q2). exists y, a2. split; [exact E2|]. split; [exact U2|]. split; [exact (keeps_trans _ _ _ _ K K2)|exact q2].
    + destruct H2 as (a2 & E2 & U2 & K2). exists a2. split; [exact E2|]. split; [exact U2|]. exact (keeps_trans _ _ _ _ K K2).
  - intros B. now rewrite H.
  - now rewrite H.
Qed.
