(** SipMsg.RemoveContentHeaders on the bytes. *)
From Verif Require Import Base Charset BaseLemmas Num Lws Str Monad Host Uri Arena ArenaProofs Layout Mem MemSim MemTac MemUri MemRep MemEnc MemHostProofs MemList Inv MemParamProofs MemUriProofs MemSipUriProofs MemEncProofs MemHistory Tel MemTel MemTelProofs GenParam Addr MemGen MemGenProofs MemAddr MemAddrProofs MethodTree HeaderTree Lookup StartLine Headers RawHeaders Msg MemSteps MemStart MemStartProofs MemHdr MemHdrProofs MemBlocks MemMsg MemMsgProofs MemHeadersProofs MemBodyProofs MemLine MemMsgEnc MemMsgEncProofs MemMsgTop P18_Memory HeaderList MemWorld StrProofs ListProofs MemAsk MemAskProofs.

Notation elem := (N * N * N * item)%type.
Definition isRaw (t : elem) : Prop := exists r, snd t = IRaw r.
Definition testE (t : elem) : bool := match snd t with IRaw r => contentTest r | IVal _ _ => false end.
Definition hdP (l : list elem) : N := match l with [] => NILPTR | t :: _ => eptr t end.
(** The fields next of the elements of the list. *)
Definition nexts (l : list elem) (i : N) : Prop := exists t, In t l /\ inR (eptr t + 6) 2 i.

Lemma run_isContent e a b p q x : wfA e a -> aused a < cap a -> q <= aused a -> repRaw (mem a) b p q x -> mIsContent p e a [] = MOk (contentTest x) a [].
Proof.
  intros Hw Hc Hh (L1 & L2 & R1 & R2 & R3). unfold mIsContent, contentTest. rget. rewrite R1. set (five := (rId x =? SIP_HDR_CONTENT_ENCODING) || (rId x =? SIP_HDR_CONTENT_TRANSFER_ENCODING) || (rId x =? SIP_HDR_CONTENT_ID) || (rId x =? SIP_HDR_CONTENT_DESCRIPTION) || (rId x =? SIP_HDR_CONTENT_LANGUAGE)).
  destruct five; [reflexivity|]. cbn [orb]. destruct (rId x =? SIP_HDR_UNKNOWN); [|reflexivity]. cbn [andb]. rget.
  unfold mHasPrefix. assert (L3 : p <= aused a) by lia. rewrite (mbind_run _ _ _ _ _ _ _ _ (run_readOpt e a _ _ _ _ Hw Hc L3 R2)). destruct (rName x); reflexivity.
Qed.
Lemma chain_hd next m p ps : chain next m p ps -> p = hd NILPTR ps.
Proof. destruct ps as [|p1 ps]; cbn [chain hd]; [auto|]. intros (-> & _). reflexivity. Qed.
Lemma hdP_hd l : hdP l = hd NILPTR (map eptr l). Proof. destruct l; reflexivity. Qed.
Lemma mset16 p v e a r : set16 p v e a r = MOk tt (setMem a (p16 (mem a) p v)) r. Proof. reflexivity. Qed.
Ltac rset := rewrite (mbind_run _ _ _ _ _ _ _ _ (mset16 _ _ _ _ _)).

Section Loop.
  Variables (e : env) (this hi : N).
  Lemma loop_some prev : 8 <= prev -> forall l fuel a lo addr, wfA e a -> aused a < cap a -> hi <= aused a -> prev + 8 <= lo -> blocks (itemOk OMsg) (mem a) lo hi l -> Forall isRaw l ->
    chain 6 (mem a) addr (map eptr l) -> (List.length l < fuel)%nat ->
    exists a', mRemoveLoop this fuel prev addr e a [] = MOk tt a' [] /\ aused a' = aused a /\ cap a' = cap a /\ (forall i, ~ inR (prev + 6) 2 i -> mem a' i = mem a i) /\
      g16 (mem a') (prev + 6) = match afterLastBy testE l with Some r => hdP r | None => g16 (mem a) (prev + 6) end.
  Proof.
    intros H8. induction l as [|t l IH]; intros fuel a lo addr Hw Hc Hh Hl B F C Hf; (destruct fuel as [|f]; [cbn in Hf; lia|]); cbn [mRemoveLoop map chain List.length] in *.
    - rewrite C. exists a. split; [reflexivity|]. split; [reflexivity|]. split; [reflexivity|]. split; [auto|reflexivity].
    - destruct C as (-> & C). inversion F as [|t0 l0 (x & Ex) F']; subst. destruct t as [[[b p] q] y]. cbn [snd] in Ex. subst y. cbn [blocks] in B. destruct B as (B1 & B2 & B3). change (eptr (b, p, q, IRaw x)) with p in *.
      pose proof B2 as (L1 & L2 & _). cbn [itemOk] in B2. pose proof (blocks_le (itemOk_in OMsg) B3) as L3. assert (Lq : q <= aused a) by lia. num Hw.
      replace (p =? NILPTR) with false by (unfold NILPTR; lia). rder. rewrite (mbind_run _ _ _ _ _ _ _ _ (run_isContent e a b p q x Hw Hc Lq B2)). cbn [afterLastBy]. unfold testE at 2. cbn [snd].
      destruct (contentTest x).
      + rget. replace (prev =? NILPTR) with false by (unfold NILPTR; lia). rset. set (n := g16 (mem a) (p + 6)) in *. set (a1 := setMem a (p16 (mem a) (prev + 6) n)).
        rewrite (mbind_run _ _ _ _ _ _ _ _ (mget16 (p + 6) e a1 [])). assert (En : g16 (mem a1) (p + 6) = n) by (apply g16_write; lia). rewrite En.
        assert (Ag : agreeR (mem a) (mem a1) q hi) by (apply agree_write; intros i Hi; unfold inR; lia).
        destruct (IH f a1 q n) as (a' & R1 & R2 & R3 & R4 & R5); [exact Hw|exact Hc|exact Hh|lia|eapply (blocks_agree (itemOk_frame OMsg) (itemOk_in OMsg)); [exact Ag|exact B3]|exact F'| |lia|].
        { eapply chain_ext; [|exact C]. intros p1 Hp1. apply in_map_iff in Hp1 as (t1 & <- & Ht1). rewrite Forall_forall in F'. destruct (F' t1 Ht1) as (x1 & Ex1). destruct t1 as [[[b1 p1] q1] y1]. cbn [snd] in Ex1. subst y1.
          pose proof (blocks_in (itemOk_in OMsg) B3 Ht1) as (M1 & M2 & (M3 & M4 & _)). change (eptr (b1, p1, q1, IRaw x1)) with p1. apply g16_write. lia. }
        exists a'. split; [exact R1|]. split; [exact R2|]. split; [exact R3|]. split.
        * intros i Hi. rewrite R4 by exact Hi. apply p16_other. exact Hi.
        * rewrite R5. destruct (afterLastBy testE l) as [r|]; [reflexivity|]. cbn [mem a1 setMem]. rewrite g16_p16; [|]. 
          -- unfold n. rewrite hdP_hd. apply (chain_hd _ _ _ _ C).
          -- rewrite (chain_hd _ _ _ _ C). destruct l as [|[[[b1 p1] q1] y1] l]; cbn [map hd]; [reflexivity|]. inversion F' as [|t1 l1 (x1 & Ex1) _]; subst. cbn [snd] in Ex1. subst y1. cbn [blocks] in B3. destruct B3 as (M1 & (M2 & M3 & _) & B3).
             pose proof (blocks_le (itemOk_in OMsg) B3). change (eptr (b1, p1, q1, IRaw x1)) with p1. unfold two16. lia.
      + rget. replace (prev =? NILPTR) with false by (unfold NILPTR; lia). destruct (IH f a q _ Hw Hc Hh ltac:(lia) B3 F' C ltac:(lia)) as (a' & R1 & R2 & R3 & R4 & R5). exists a'. split; [exact R1|]. split; [exact R2|]. split; [exact R3|]. split; [exact R4|].
        rewrite R5. destruct (afterLastBy testE l); reflexivity.
  Qed.
  Lemma chain_suffix next m l r p : chain next m p (map eptr (l ++ r)) -> chain next m (hdP r) (map eptr r).
  Proof.
    revert p. induction l as [|t l IH]; intros p; cbn [app map chain]; [intros H; rewrite hdP_hd, <- (chain_hd _ _ _ _ H); exact H|]. intros (_ & H). now apply IH in H.
  Qed.
  Lemma afterLast_suffix {A} (test : A -> bool) l r : afterLastBy test l = Some r -> exists l0, l = l0 ++ r.
  Proof.
    revert r. induction l as [|x l IH]; intros r; cbn [afterLastBy]; [discriminate|]. destruct (afterLastBy test l) as [r'|]; [intros H; injection H as <-; destruct (IH r' eq_refl) as (l0 & ->); exists (x :: l0); reflexivity|].
    destruct (test x); [|discriminate]. intros H. injection H as <-. exists [x]. reflexivity.
  Qed.
  Lemma loop_none : 8 <= this -> forall l fuel a lo addr, wfA e a -> aused a < cap a -> hi <= aused a -> this + 68 <= lo -> blocks (itemOk OMsg) (mem a) lo hi l -> Forall isRaw l ->
    chain 6 (mem a) addr (map eptr l) -> g16 (mem a) (this + 64) = addr -> (List.length l < fuel)%nat ->
    exists a', mRemoveLoop this fuel NILPTR addr e a [] = MOk tt a' [] /\ aused a' = aused a /\ cap a' = cap a /\ (forall i, ~ inR (this + 64) 2 i -> ~ nexts l i -> mem a' i = mem a i) /\
      chain 6 (mem a') (g16 (mem a') (this + 64)) (map eptr (removeBy testE l)).
  Proof.
    intros H8. induction l as [|t l IH]; intros fuel a lo addr Hw Hc Hh Hl B F C Ha Hf; (destruct fuel as [|f]; [cbn in Hf; lia|]); cbn [mRemoveLoop map chain List.length] in *.
    - rewrite C. exists a. split; [reflexivity|]. split; [reflexivity|]. split; [reflexivity|]. split; [auto|]. cbn [removeBy map chain]. congruence.
    - destruct C as (C0 & C). inversion F as [|t0 l0 (x & Ex) F']; subst. destruct t as [[[b p] q] y]. cbn [snd] in Ex. subst y. cbn [blocks] in B. destruct B as (B1 & B2 & B3). change (eptr (b, p, q, IRaw x)) with p in *.
      pose proof B2 as (L1 & L2 & _). cbn [itemOk] in B2. pose proof (blocks_le (itemOk_in OMsg) B3) as L3. assert (Lq : q <= aused a) by lia. num Hw.
      replace (p =? NILPTR) with false by (unfold NILPTR; lia). rder. rewrite (mbind_run _ _ _ _ _ _ _ _ (run_isContent e a b p q x Hw Hc Lq B2)). cbn [removeBy]. unfold testE at 1. cbn [snd].
      destruct (contentTest x).
      + rget. change (NILPTR =? NILPTR) with true. cbv iota. rset. set (n := g16 (mem a) (p + 6)) in *. set (a1 := setMem a (p16 (mem a) (this + 64) n)).
        rewrite (mbind_run _ _ _ _ _ _ _ _ (mget16 (p + 6) e a1 [])). assert (En : g16 (mem a1) (p + 6) = n) by (apply g16_write; lia). rewrite En.
        assert (Ag : agreeR (mem a) (mem a1) q hi) by (apply agree_write; intros i Hi; unfold inR; lia).
        assert (Nn : n < two16).
        { rewrite (chain_hd _ _ _ _ C). destruct l as [|[[[b1 p1] q1] y1] l]; cbn [map hd]; [reflexivity|]. inversion F' as [|t1 l1 (x1 & Ex1) _]; subst. cbn [snd] in Ex1. subst y1. cbn [blocks] in B3. destruct B3 as (M1 & (M2 & M3 & _) & B3).
          pose proof (blocks_le (itemOk_in OMsg) B3). change (eptr (b1, p1, q1, IRaw x1)) with p1. unfold two16. lia. }
        destruct (IH f a1 q n) as (a' & R1 & R2 & R3 & R4 & R5); [exact Hw|exact Hc|exact Hh|lia|eapply (blocks_agree (itemOk_frame OMsg) (itemOk_in OMsg)); [exact Ag|exact B3]|exact F'| |apply g16_p16; exact Nn|lia|].
        { eapply chain_ext; [|exact C]. intros p1 Hp1. apply in_map_iff in Hp1 as (t1 & <- & Ht1). rewrite Forall_forall in F'. destruct (F' t1 Ht1) as (x1 & Ex1). destruct t1 as [[[b1 p1] q1] y1]. cbn [snd] in Ex1. subst y1.
          pose proof (blocks_in (itemOk_in OMsg) B3 Ht1) as (M1 & M2 & (M3 & M4 & _)). change (eptr (b1, p1, q1, IRaw x1)) with p1. apply g16_write. lia. }
        exists a'. split; [exact R1|]. split; [exact R2|]. split; [exact R3|]. split; [|exact R5]. intros i Hi Hn. rewrite R4; [apply p16_other; exact Hi|exact Hi|]. intros (t & Ht & Hr). apply Hn. exists t. split; [now right|exact Hr].
      + rget. change (NILPTR =? NILPTR) with true. cbv iota. destruct (loop_some p ltac:(lia) l f a q (g16 (mem a) (p + 6)) Hw Hc Hh ltac:(lia) B3 F' C ltac:(lia)) as (a' & R1 & R2 & R3 & R4 & R5). exists a'. split; [exact R1|]. split; [exact R2|]. split; [exact R3|].
        split; [intros i Hi Hn; apply R4; intros Hr; apply Hn; eexists; split; [now left|exact Hr]|].
        set (r := match afterLastBy testE l with Some r => r | None => l end).
        assert (Er : g16 (mem a') (p + 6) = hdP r) by (rewrite R5; unfold r; destruct (afterLastBy testE l); [reflexivity|]; rewrite hdP_hd; apply (chain_hd _ _ _ _ C)).
        assert (Es : exists l0, l = l0 ++ r) by (unfold r; destruct (afterLastBy testE l) as [r'|] eqn:E; [now apply afterLast_suffix in E|exists []; reflexivity]).
        destruct Es as (l0 & Es). cbn [map chain]. change (eptr (b, p, q, IRaw x)) with p. split.
        * rewrite <- Ha. unfold g16. rewrite !R4; [reflexivity|unfold inR; lia|unfold inR; lia].
        * rewrite Er. rewrite Es in C. apply chain_suffix in C. eapply chain_ext; [|exact C]. intros p1 Hp1. apply in_map_iff in Hp1 as (t1 & <- & Ht1). assert (Hin : In t1 l) by (rewrite Es; apply in_or_app; now right).
          pose proof F' as F0. rewrite Forall_forall in F0. destruct (F0 t1 Hin) as (x1 & Ex1). destruct t1 as [[[b1 p1] q1] y1]. cbn [snd] in Ex1. subst y1.
          pose proof (blocks_in (itemOk_in OMsg) B3 Hin) as (M1 & M2 & (M3 & M4 & _)). change (eptr (b1, p1, q1, IRaw x1)) with p1. unfold g16. rewrite !R4; [reflexivity|unfold inR; lia|unfold inR; lia].
  Qed.
End Loop.

(** ** What is left of the trace *)
Inductive sub {A} : list A -> list A -> Prop := sub_nil : sub [] [] | sub_keep x l l' : sub l l' -> sub (x :: l) (x :: l') | sub_drop x l l' : sub l l' -> sub l (x :: l').
Lemma sub_refl {A} (l : list A) : sub l l. Proof. induction l; constructor; auto. Qed.
Lemma sub_in {A} (l l' : list A) x : sub l l' -> In x l -> In x l'.
Proof. induction 1; intros Hx; [exact Hx|destruct Hx as [->|Hx]; [now left|right; auto]|right; auto]. Qed.
Lemma sub_trans {A} (l1 l2 l3 : list A) : sub l1 l2 -> sub l2 l3 -> sub l1 l3.
Proof. intros H1 H2. revert l1 H1. induction H2 as [|x l l' H IH|x l l' H IH]; intros l1 H1; [exact H1| |constructor; auto]. inversion H1; subst; constructor; auto. Qed.
Lemma sub_none {A} (l : list A) : sub [] l. Proof. induction l; constructor; auto. Qed.
Lemma sub_app {A} (l0 l : list A) : sub l (l0 ++ l). Proof. induction l0; cbn [app]; [apply sub_refl|constructor; auto]. Qed.
Lemma removeBy_sub {A} (test : A -> bool) l : sub (removeBy test l) l.
Proof.
  induction l as [|x l IH]; [constructor|]. cbn [removeBy]. destruct (test x); [constructor; exact IH|]. constructor. destruct (afterLastBy test l) as [r|] eqn:E; [|apply sub_refl]. apply afterLast_suffix in E as (l0 & ->). apply sub_app.
Qed.
Lemma blocks_lo {X} (ok : (N -> N) -> N -> N -> N -> X -> Prop) m lo lo' hi tr : lo' <= lo -> blocks ok m lo hi tr -> blocks ok m lo' hi tr.
Proof. destruct tr as [|[[[b p] q] x] tr]; cbn [blocks]; [lia|]. intros L (H1 & H2). split; [lia|exact H2]. Qed.
Lemma blocks_sub m lo hi tr tr' : sub tr' tr -> blocks (itemOk OMsg) m lo hi tr -> blocks (itemOk OMsg) m lo hi tr'.
Proof.
  intros H. revert lo. induction H as [|[[[b p] q] x] l l' H IH|[[[b p] q] x] l l' H IH]; intros lo; cbn [blocks]; [auto| |].
  - intros (H1 & H2 & H3). auto.
  - intros (H1 & H2 & H3). apply itemOk_in in H2 as (L1 & L2 & _). apply (blocks_lo _ _ q lo); [lia|]. apply IH, H3.
Qed.
Lemma sel_sub j (tr : list elem) : sub (sel itemLid j tr) tr.
Proof. induction tr as [|t tr IH]; [constructor|]. unfold sel in *. cbn [filter]. destruct (Nat.eqb _ _); constructor; exact IH. Qed.
Lemma sub_sel j (tr : list elem) : forall L, sub L (sel itemLid j tr) -> exists tr', sub tr' tr /\ sel itemLid j tr' = L /\ forall i, i <> j -> sel itemLid i tr' = sel itemLid i tr.
Proof.
  induction tr as [|t tr IH]; intros L H; unfold sel in *; cbn [filter] in *.
  - inversion H; subst. exists []. split; [constructor|]. split; [reflexivity|]. reflexivity.
  - destruct (Nat.eqb (itemLid (snd t)) j) eqn:E.
    + inversion H as [|x l l' H' E1 E2|x l l' H' E1 E2]; subst.
      * destruct (IH l H') as (tr' & S1 & S2 & S3). exists (t :: tr'). split; [constructor; exact S1|]. cbn [filter]. rewrite E. split; [f_equal; exact S2|]. intros i Hi. rewrite (S3 i Hi). reflexivity.
      * destruct (IH L H') as (tr' & S1 & S2 & S3). exists tr'. split; [constructor; exact S1|]. split; [exact S2|]. intros i Hi. rewrite (S3 i Hi). apply Nat.eqb_eq in E. rewrite E. destruct (Nat.eqb_spec j i); [congruence|reflexivity].
    + destruct (IH L H) as (tr' & S1 & S2 & S3). exists (t :: tr'). split; [constructor; exact S1|]. cbn [filter]. rewrite E. split; [exact S2|]. intros i Hi. rewrite (S3 i Hi). reflexivity.
Qed.
Lemma removeBy_map {A B} (f : A -> B) (test : B -> bool) l : removeBy test (map f l) = map f (removeBy (fun x => test (f x)) l).
Proof.
  assert (G : forall l, afterLastBy test (map f l) = option_map (map f) (afterLastBy (fun x => test (f x)) l)).
  { clear l. induction l as [|x l IH]; [reflexivity|]. cbn [map afterLastBy]. rewrite IH. destruct (afterLastBy _ l); [reflexivity|]. cbn [option_map]. destruct (test (f x)); reflexivity. }
  induction l as [|x l IH]; [reflexivity|]. cbn [map removeBy]. rewrite IH, G. destruct (test (f x)); [reflexivity|]. cbn [map]. destruct (afterLastBy _ l); reflexivity.
Qed.
Lemma removeBy_ext {A} (f g : A -> bool) l : (forall x, In x l -> f x = g x) -> removeBy f l = removeBy g l.
Proof.
  assert (G : forall l, (forall x, In x l -> f x = g x) -> afterLastBy f l = afterLastBy g l).
  { clear l. induction l as [|x l IH]; intros H; [reflexivity|]. cbn [afterLastBy]. rewrite IH by (intros y Hy; apply H; now right). rewrite (H x) by now left. reflexivity. }
  induction l as [|x l IH]; intros H; [reflexivity|]. cbn [removeBy]. rewrite IH, G by (intros y Hy; apply H; now right). rewrite (H x) by now left. reflexivity.
Qed.
Lemma sel_raw (tr : list elem) : Forall isRaw (sel itemLid 0 tr).
Proof. apply Forall_forall. intros [[[b p] q] x] H. unfold sel in H. apply filter_In in H as (_ & H). cbn [snd] in H. destruct x as [r|s v]; [exists r; reflexivity|discriminate]. Qed.

(** ** The headers of the message *)
Definition removedHdrs (h : hset) : hset := mkhset (setNth (hsCommon h) 12 []) (removeRaws (hsRaw h)).
Lemma not_next m lo hi (tr : list elem) b p q x i : blocks (itemOk OMsg) m lo hi tr -> In (b, p, q, x) tr -> b <= i < q -> (itemLid x <> 0%nat \/ ~ nextR (itemNext OMsg) x p i) -> ~ nexts (sel itemLid 0 tr) i.
Proof.
  intros B Hin Hi Hx (t & Ht & Hr). pose proof (sel_raw tr) as F. rewrite Forall_forall in F. destruct (F t Ht) as (r & Er). apply (sub_in _ _ _ (sel_sub 0 tr)) in Ht. destruct t as [[[b0 p0] q0] y]. cbn [snd] in Er. subst y. change (eptr (b0, p0, q0, IRaw r)) with p0 in Hr.
  pose proof (blocks_in (itemOk_in OMsg) B Ht) as (M1 & M2 & (M3 & M4 & _)). unfold inR in Hr.
  destruct (blocks_apart (itemOk_in OMsg) B Hin Ht) as [E|[L|L]]; [|lia|lia]. injection E as -> -> -> ->. destruct Hx as [Hx|Hx]; [now apply Hx|]. apply Hx. unfold nextR. cbn [itemNext]. unfold inR. lia.
Qed.
Lemma HInv_removed m m' this lo hi h tr : blocks (itemOk OMsg) m lo hi tr -> rawInv OMsg m this tr h -> List.length (hsCommon h) = 19%nat -> (forall s, (s < 19)%nat -> slotInv OMsg m this tr h s) ->
  (forall i, lo <= i < hi -> ~ nexts (sel itemLid 0 tr) i -> m' i = m i) -> (forall s, (s < 19)%nat -> s <> 12%nat -> g16 m' (slotAt OMsg this s) = g16 m (slotAt OMsg this s)) ->
  g16 m' (slotAt OMsg this 12) = NILPTR -> chain 6 m' (g16 m' (this + 64)) (map eptr (removeBy testE (sel itemLid 0 tr))) -> HInv OMsg m' this lo hi (removedHdrs h).
Proof.
  intros B (_ & V) HL S0 Ag E1 E2 C.
  destruct (sub_sel 0 tr _ (removeBy_sub testE (sel itemLid 0 tr))) as (tr1 & T1 & T2 & T3). destruct (sub_sel 13 tr1 [] (sub_none _)) as (tr2 & U1 & U2 & U3).
  assert (B' : blocks (itemOk OMsg) m' lo hi tr).
  { eapply (blocks_frame (itemOk OMsg) (itemNext OMsg) (itemOk_frame OMsg)); [|exact B]. intros b p q x i Hin Hi Hn. apply Ag; [pose proof (blocks_in (itemOk_in OMsg) B Hin); lia|]. eapply not_next; [exact B|exact Hin|exact Hi|now right]. }
  exists tr2. split; [apply (blocks_sub _ _ _ tr1 tr2 U1), (blocks_sub _ _ _ tr tr1 T1), B'|]. split; [|split; [cbn [removedHdrs hsCommon]; rewrite setNth_length; exact HL|]].
  - split.
    + unfold iptrs, ptrsOf. rewrite (U3 0%nat) by discriminate. rewrite T2. exact C.
    + unfold ivals, valsOf. rewrite (U3 0%nat) by discriminate. rewrite T2. cbn [removedHdrs hsRaw]. unfold ivals, valsOf in V. unfold removeRaws.
      transitivity (removeBy (fun x => match x with IRaw r => contentTest r | _ => false end) (map snd (sel itemLid 0 tr))); [rewrite removeBy_map; reflexivity|]. rewrite V, removeBy_map. reflexivity.
  - cbn [slotsNum]. intros s Hs. destruct (Nat.eq_dec s 12) as [->|Ns].
    + unfold slotInv. change (slotKind OMsg 12) with (Some (KContentDisposition, false)). cbv iota. unfold iptrs, ptrsOf, ivals, valsOf. rewrite U2. cbn [removedHdrs hsCommon map last]. rewrite nth_setNth by lia. split; [exact E2|reflexivity].
    + specialize (S0 s Hs). assert (Es : sel itemLid (S s) tr2 = sel itemLid (S s) tr) by (rewrite (U3 (S s)) by congruence; apply T3; discriminate).
      assert (G : slotInv OMsg m' this tr h s).
      { eapply slotInv_ext; [apply E1; assumption| |exact S0]. intros k p Ek Hp. apply ptrsOf_in in Hp as (b & q & x & Hin & El). pose proof (blocks_in (itemOk_in OMsg) B Hin) as (M1 & M2 & Ok). apply itemOk_in in Ok as (M3 & M4 & M5). specialize (M5 (nextOff k) (next_slot OMsg s k Ek x El)).
        assert (Q : forall i, b <= i < q -> m' i = m i) by (intros i Hi; apply Ag; [lia|]; eapply not_next; [exact B|exact Hin|exact Hi|left; rewrite El; discriminate]). unfold g16. rewrite !Q by lia. reflexivity. }
      unfold slotInv, iptrs, ivals, ptrsOf, valsOf in *. rewrite Es. cbn [removedHdrs hsCommon]. rewrite nth_setNth_other by congruence. exact G.
Qed.
Lemma remove_msg e a this lo hi c x : wfA e a -> 8 <= this -> this + 68 <= lo -> hi <= aused a -> aused a < cap a -> placed this lo hi (aused a) c -> repMsgC (mem a) this lo hi c x ->
  exists a', mRemoveContent this e a [] = MOk tt a' [] /\ aused a' = aused a /\ keeps (own this lo hi c) a a' /\ repMsgC (mem a') this lo hi c (removeContent x).
Proof.
  intros Hw H8 Hl Hh Hc Hp (q1 & q2 & prev & L1 & L2 & Z & S0 & HH & B). pose proof (bodiesInv_le _ _ _ _ _ _ B) as L3. num Hw.
  set (s12 := slotAt OMsg this 12). assert (E12 : s12 = this + 44) by (unfold s12, slotAt; cbn [slotsOff]; lia). set (a1 := setMem a (p16 (mem a) s12 NILPTR)).
  pose proof (slot7_off this) as E7. set (m0 := match c with None => mem a | Some _ => p16 (mem a) (slot7 this) NILPTR end). set (h0 := match c with None => mHdrs x | Some _ => mkhset (setNth (hsCommon (mHdrs x)) 7 []) (hsRaw (mHdrs x)) end).
  assert (HI : HInv OMsg m0 this q1 q2 h0) by (unfold m0, h0; destruct c; [apply HH|exact HH]).
  assert (Am : forall i, ~ inR (slot7 this) 2 i -> m0 i = mem a i) by (intros i Hi; unfold m0; destruct c; [apply p16_other; exact Hi|reflexivity]).
  pose proof HI as (tr & B0 & R0 & N0 & T0). set (L := sel itemLid 0 tr).
  assert (BL : blocks (itemOk OMsg) (mem a1) q1 q2 L).
  { assert (B1 : blocks (itemOk OMsg) m0 q1 q2 L) by (apply (blocks_sub _ _ _ tr); [apply sel_sub|exact B0]). eapply (blocks_agree (itemOk_frame OMsg) (itemOk_in OMsg)); [|exact B1]. intros i Hi. cbn [mem a1 setMem]. rewrite p16_other by (unfold inR; lia). symmetry. apply Am. unfold inR. lia. }
  assert (Fin : forall t, In t L -> q1 <= eptr t /\ eptr t + 8 <= q2).
  { intros t Ht. pose proof (sel_raw tr) as F. rewrite Forall_forall in F. destruct (F t Ht) as (r & Er). destruct t as [[[b p] q] y]. cbn [snd] in Er. subst y. pose proof (blocks_in (itemOk_in OMsg) BL Ht) as (M1 & M2 & (M3 & M4 & _)). change (eptr (b, p, q, IRaw r)) with p. lia. }
  assert (CL : chain 6 (mem a1) (g16 (mem a1) (this + 64)) (map eptr L)).
  { destruct R0 as (C & _). cbn [rawOff] in C. unfold iptrs, ptrsOf in C. fold L in C. replace (g16 (mem a1) (this + 64)) with (g16 m0 (this + 64)).
    - eapply chain_ext; [|exact C]. intros p Hp0. apply in_map_iff in Hp0 as (t & <- & Ht). apply Fin in Ht. cbn [mem a1 setMem]. rewrite g16_write by lia. unfold g16. rewrite !Am by (unfold inR; lia). reflexivity.
    - cbn [mem a1 setMem]. rewrite g16_write by lia. unfold g16. rewrite !Am by (unfold inR; lia). reflexivity. }
  destruct (loop_none e this q2 H8 L (S (N.to_nat (cap a))) a1 q1 (g16 (mem a1) (this + 64))) as (a' & R1 & R2 & R3 & R4 & R5); [exact Hw|exact Hc|cbn; lia|lia|exact BL|apply sel_raw|exact CL|reflexivity| |].
  { assert (N.of_nat (List.length (map eptr L)) <= q2) by exact (ptrsOf_length (itemOk_in OMsg) 0 B0). rewrite map_length in H. lia. }
  assert (Ch : forall i, ~ inR s12 2 i -> ~ inR (this + 64) 2 i -> ~ nexts L i -> mem a' i = mem a i) by (intros i C1 C2 C3; rewrite R4 by assumption; cbn [mem a1 setMem]; apply p16_other; exact C1).
  assert (Nx : forall i, nexts L i -> q1 <= i < q2) by (intros i (t & Ht & Hr); apply Fin in Ht; unfold inR in Hr; lia).
  exists a'. split; [|split; [exact R2|]; split].
  - unfold mRemoveContent. fold s12. rset. fold a1. rewrite (mbind_run _ _ _ _ _ _ _ _ (mget16 (this + 64) e a1 [])). exact R1.
  - split; [exact R3|]. split; [rewrite R2; cbn; lia|]. split; [rewrite R2; cbn; lia|]. intros i Hi Hn. apply Ch.
    + intros Hr. apply Hn. unfold own. unfold inR in Hr. lia.
    + intros Hr. apply Hn. unfold own. unfold inR in Hr. lia.
    + intros Hr. apply Hn. apply Nx in Hr. unfold own. lia.
  - assert (A : forall p q, q <= s12 \/ s12 + 2 <= p -> q <= this + 64 \/ this + 66 <= p -> q <= q1 \/ q2 <= p -> agreeR (mem a) (mem a') p q).
    { intros p q G1 G2 G3 i Hi. apply Ch; [unfold inR; lia|unfold inR; lia|]. intros Hr. apply Nx in Hr. lia. }
    exists q1, q2, prev. split; [exact L1|]. split; [exact L2|]. split; [eapply zeros_frame; [apply A; lia|exact Z]|].
    split; [eapply repLine_frame; [apply A; lia|apply A; lia|exact S0]|].
    split; [|replace (g16 (mem a') (this + 66)) with (g16 (mem a) (this + 66)) by (unfold g16; rewrite !(A (this + 66) (this + 68)) by lia; reflexivity); eapply bodiesInv_frame; [apply A; lia|exact B]].
    set (m0' := match c with None => mem a' | Some _ => p16 (mem a') (slot7 this) NILPTR end).
    assert (Am' : forall i, ~ inR (slot7 this) 2 i -> m0' i = mem a' i) by (intros i Hi; unfold m0'; destruct c; [apply p16_other; exact Hi|reflexivity]).
    assert (HI' : HInv OMsg m0' this q1 q2 (removedHdrs h0)).
    { apply (HInv_removed m0 m0' this q1 q2 h0 tr B0 R0 N0 T0).
      - intros i Hi Hn. rewrite Am' by (unfold inR; lia). rewrite Am by (unfold inR; lia). apply Ch; [unfold inR; lia|unfold inR; lia|exact Hn].
      - intros s Hs Ns. destruct (Nat.eq_dec s 7) as [->|N7].
        + fold (slot7 this). unfold m0, m0'. destruct c; [rewrite !g16_p16 by reflexivity; reflexivity|]. unfold g16. rewrite !(A (slot7 this) (slot7 this + 2)) by lia. reflexivity.
        + assert (Es : slotAt OMsg this s = this + 20 + 2 * N.of_nat s) by (unfold slotAt; cbn [slotsOff]; lia). unfold g16. rewrite !Am', !Am by (unfold inR; lia). rewrite !(A (slotAt OMsg this s) (slotAt OMsg this s + 2)) by lia. reflexivity.
      - fold s12. replace (g16 m0' s12) with (g16 (mem a') s12) by (unfold g16; rewrite !Am' by (unfold inR; lia); reflexivity).
        unfold g16. rewrite !R4; [apply (g16_p16 (mem a) s12 NILPTR); reflexivity|unfold inR; lia|intros Hr; apply Nx in Hr; lia|unfold inR; lia|intros Hr; apply Nx in Hr; lia].
      - replace (g16 m0' (this + 64)) with (g16 (mem a') (this + 64)) by (unfold g16; rewrite !Am' by (unfold inR; lia); reflexivity). eapply chain_ext; [|exact R5]. intros p Hp0. apply in_map_iff in Hp0 as (t & <- & Ht).
        apply (sub_in _ _ _ (removeBy_sub testE L)) in Ht. apply Fin in Ht. unfold g16. rewrite !Am' by (unfold inR; lia). reflexivity. }
    unfold m0', h0 in HI'. destruct c as [c|]; cbn [hdrsC removeContent mHdrs]; [|exact HI'].
    destruct HH as (G1 & G2 & (n & G3 & G4) & _). cbn [placed] in Hp.
    split; [rewrite <- G1; unfold g16; rewrite !(A (slot7 this) (slot7 this + 2)) by lia; reflexivity|]. split; [cbn [hsCommon]; rewrite setNth_length; exact G2|].
    split; [exists n; cbn [hsCommon]; rewrite nth_setNth_other by discriminate; split; [exact G3|]; rewrite <- G4; apply (g32_agree (mem a) (mem a') c 8); [apply A; lia|lia|lia]|].
    replace (mkhset _ _) with (removedHdrs (mkhset (setNth (hsCommon (mHdrs x)) 7 []) (hsRaw (mHdrs x)))); [exact HI'|]. unfold removedHdrs. cbn [hsCommon hsRaw]. f_equal.
    clear - G2. destruct (hsCommon (mHdrs x)) as [|x0 [|x1 [|x2 [|x3 [|x4 [|x5 [|x6 [|x7 [|x8 [|x9 [|x10 [|x11 [|x12 l]]]]]]]]]]]]]; try discriminate. reflexivity.
Qed.
