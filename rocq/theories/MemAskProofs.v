(** The questions and changes of MemAsk.v on the bytes do what the value layer says. *)
From Verif Require Import Base Charset BaseLemmas Num Lws Str Monad Host Uri Arena ArenaProofs Layout Mem MemSim MemTac MemUri MemRep MemEnc MemHostProofs MemList Inv MemParamProofs MemUriProofs MemSipUriProofs MemEncProofs MemHistory Tel MemTel MemTelProofs GenParam Addr MemGen MemGenProofs MemAddr MemAddrProofs MethodTree HeaderTree Lookup StartLine Headers RawHeaders Msg MemSteps MemStart MemStartProofs MemHdr MemHdrProofs MemBlocks MemMsg MemMsgProofs MemHeadersProofs MemBodyProofs MemLine MemMsgEnc MemMsgEncProofs MemMsgTop P18_Memory HeaderList MemWorld StrProofs ListProofs MemAsk Extension.

Lemma run_strOpt e a lo hi p o : wfA e a -> aused a < cap a -> hi <= aused a -> ostr (mem a) lo hi p o -> mStrOpt p e a [] = MOk o a [].
Proof.
  intros Hw Hc Hh H. unfold mStrOpt. destruct o as [b|]; cbn [ostr] in H.
  - rewrite (str_nonnil _ _ _ _ _ H). unfold mbind, mReadStr. rewrite (str_read e a _ _ _ _ Hw H Hh); [reflexivity|]. destruct H as (L1 & L2 & _). lia.
  - rewrite H. reflexivity.
Qed.
Lemma run_readStr e a lo hi p b : wfA e a -> aused a < cap a -> hi <= aused a -> str (mem a) lo hi p b -> mReadStr p e a [] = MOk b a [].
Proof. intros Hw Hc Hh H. unfold mReadStr. rewrite (str_read e a _ _ _ _ Hw H Hh); [reflexivity|]. destruct H as (L1 & L2 & _). lia. Qed.
Lemma run_readOpt e a lo hi p o : wfA e a -> aused a < cap a -> hi <= aused a -> ostr (mem a) lo hi p o -> mReadStr p e a [] = MOk (orEmpty o) a [].
Proof. intros Hw Hc Hh H. destruct o as [b|]; [now apply (run_readStr e a lo hi)|]. cbn [ostr] in H. rewrite H. reflexivity. Qed.
Lemma run_sameName e a lo hi p o name : wfA e a -> aused a < cap a -> hi <= aused a -> ostr (mem a) lo hi p o ->
  mSameName p name e a [] = match (match o with Some b => CStringEqualNoCase b name | None => Some false end) with Some x => MOk x a [] | None => MPanic end.
Proof.
  intros Hw Hc Hh H. unfold mSameName. destruct o as [b|]; cbn [ostr] in H.
  - rewrite (str_nonnil _ _ _ _ _ H), (str_read e a _ _ _ _ Hw H Hh); [reflexivity|]. destruct H as (L1 & L2 & _). lia.
  - rewrite H. reflexivity.
Qed.

(** ** A URI *)
Lemma run_findParam e a hi name : name <> [] -> wfA e a -> aused a < cap a -> hi <= aused a -> forall ps fuel lo p, 8 <= lo -> (N.to_nat (hi - lo) < fuel)%nat ->
  repUParams (mem a) lo hi p ps -> mFindParam name fuel p e a [] = MOk (findParam name ps) a [].
Proof.
  intros Hn Hw Hc Hh. num Hw. induction ps as [|x ps IH]; intros fuel lo p H8 Hf HR; (destruct fuel as [|f]; [lia|]); cbn [mFindParam].
  - cbn [repUParams repList] in HR. unfold repUParams in HR. cbn [repList] in HR. rewrite HR. reflexivity.
  - unfold repUParams in HR. cbn [repList] in HR. destruct HR as (L1 & Hp & (q & L2 & L3 & (N1 & N2)) & HR). rewrite (proj2 (N.eqb_neq _ _) Hp). rder. rget.
    assert (N3 : ostr (mem a) (p + 6) q (g16 (mem a) p) (Some (upName x))) by exact N1. assert (L4 : q <= aused a) by lia.
    unfold findParam. cbn [find]. unfold equalNoCase. pose proof (CStringEqualNoCase_total (upName x) name Hn) as T.
    pose proof (run_sameName e a _ _ _ _ name Hw Hc L4 N3) as R. cbv iota in R. destruct (CStringEqualNoCase (upName x) name) as [[|]|] eqn:E; [| |congruence]; rewrite (mbind_run _ _ _ _ _ _ _ _ R).
    + rget. rewrite (mbind_run _ _ _ _ _ _ _ _ (run_strOpt e a _ _ _ _ Hw Hc L4 N2)). reflexivity.
    + rget. apply (IH f (p + 6)); [lia|lia|exact HR].
Qed.
Lemma mget8 p e a r : get8 p e a r = MOk (mem a p) a r. Proof. reflexivity. Qed.
Ltac rget8 := rewrite (mbind_run _ _ _ _ _ _ _ _ (mget8 _ _ _ _)).
Lemma ask_uri e a this lo hi u q x : wfA e a -> aused a < cap a -> hi <= aused a -> 8 <= lo -> repSipUri (mem a) this lo hi u -> askUri u q = Some x -> mAskUri this q e a [] = MOk x a [].
Proof.
  intros Hw Hc Hh H8 (R1 & R2 & R3 & (R4 & R5) & R6 & _) Hx. num Hw. destruct q; try discriminate; cbn [askUri mAskUri] in *.
  - rget8. rewrite R1. injection Hx as <-. destruct (uSecure u); reflexivity.
  - rget8. rewrite R1. injection Hx as <-. destruct (uSecure u); reflexivity.
  - rget. rewrite (mbind_run _ _ _ _ _ _ _ _ (run_readOpt e a _ _ _ _ Hw Hc Hh R2)). injection Hx as <-. reflexivity.
  - rget. rewrite (mbind_run _ _ _ _ _ _ _ _ (run_readOpt e a _ _ _ _ Hw Hc Hh R3)). injection Hx as <-. reflexivity.
  - rget8. injection Hx as <-. unfold repHost in R4. destruct (hpHost (uHost u)); first [destruct R4 as (-> & _)|rewrite R4]; reflexivity.
  - rget8. injection Hx as <-. unfold repHost in R4. destruct (hpHost (uHost u)); first [destruct R4 as (-> & _)|rewrite R4]; reflexivity.
  - rget8. injection Hx as <-. unfold repHost in R4. destruct (hpHost (uHost u)); first [destruct R4 as (-> & _)|rewrite R4]; reflexivity.
  - rget8. injection Hx as <-. replace (this + 7) with (this + 6 + 1) by lia. destruct (hpPort (uHost u)); [destruct R5 as (-> & _)|rewrite R5]; reflexivity.
  - rget. replace (this + 8) with (this + 6 + 2) by lia. destruct (hpPort (uHost u)); [|discriminate]. destruct R5 as (_ & ->). injection Hx as <-. reflexivity.
  - rget. destruct name as [|c name]; [discriminate|]. injection Hx as <-. apply (run_findParam e a hi (c :: name)) with (lo := lo); [discriminate|exact Hw|exact Hc|exact Hh|exact H8|lia|exact R6].
Qed.
Lemma ask_addr e a this lo hi v q x : repAddr (mem a) this lo hi v -> askAddr v q = Some x -> mAskAddr this q e a [] = MOk x a [].
Proof.
  intros (R1 & R2 & R3) Hx. destruct q; try discriminate; cbn [askAddr mAskAddr] in *.
  - rget8. injection Hx as <-. unfold repAUri in R3. destruct (aUri v) as [u|t]; destruct R3 as (-> & _); [destruct (uSecure u)|]; reflexivity.
  - rget8. injection Hx as <-. unfold repAUri in R3. destruct (aUri v) as [u|t]; destruct R3 as (-> & _); [destruct (uSecure u)|]; reflexivity.
  - rget. injection Hx as <-. unfold repAName in R2. destruct (aName v) as [[qu b]|]; [destruct R2 as (_ & R2); rewrite (str_nonnil _ _ _ _ _ R2)|rewrite R2]; reflexivity.
Qed.

(** ** Raw headers *)
Definition rawNodes (m : N -> N) (lo hi : N) (ps : list N) (rs : list raw) : Prop := Forall2 (fun p x => exists b q, lo <= b /\ q <= hi /\ repRaw m b p q x) ps rs.
Lemma run_rawAnswer e a b p q x : wfA e a -> aused a < cap a -> q <= aused a -> repRaw (mem a) b p q x -> mRawAnswer p e a [] = MOk (rawAnswer (Some x)) a [].
Proof.
  intros Hw Hc Hh (L1 & L2 & R1 & R2 & R3). unfold mRawAnswer. rget. assert (L3 : p <= aused a) by lia. rewrite (mbind_run _ _ _ _ _ _ _ _ (run_strOpt e a _ _ _ _ Hw Hc L3 R2)). rget.
  rewrite (mbind_run _ _ _ _ _ _ _ _ (run_readStr e a _ _ _ _ Hw Hc Hh R3)). reflexivity.
Qed.
Section Find.
  Variables (e : env) (a : arena) (lo hi : N).
  Hypothesis (Hw : wfA e a) (Hc : aused a < cap a) (Hh : hi <= aused a) (H8 : 8 <= lo).
  Lemma run_findKnown i : forall ps rs fuel p, chain 6 (mem a) p ps -> rawNodes (mem a) lo hi ps rs -> (List.length ps < fuel)%nat ->
    exists r, mFindKnown i fuel p e a [] = MOk r a [] /\ match findKnownRaw rs i with None => r = NILPTR | Some x => r <> NILPTR /\ exists b q, lo <= b /\ q <= hi /\ repRaw (mem a) b r q x end.
  Proof.
    induction ps as [|p1 ps IH]; intros rs fuel p C F Hf; inversion F as [|p1' x1 ps' rs' (b & q & L1 & L2 & R) F']; subst; (destruct fuel as [|f]; [cbn in Hf; lia|]); cbn [mFindKnown].
    - cbn [chain] in C. rewrite C. exists NILPTR. split; reflexivity.
    - cbn [chain] in C. destruct C as (-> & C). pose proof R as R0. destruct R as (L3 & L4 & E & _). replace (p1 =? NILPTR) with false by (unfold NILPTR; lia). rder. rget. rewrite E. cbn [findKnownRaw].
      destruct (rId x1 =? i).
      + exists p1. split; [reflexivity|]. split; [unfold NILPTR; lia|]. exists b, q. auto.
      + rget. apply IH; auto. cbn in Hf. lia.
  Qed.
  Lemma run_findUnknown name : forall ps rs fuel p x, chain 6 (mem a) p ps -> rawNodes (mem a) lo hi ps rs -> (List.length ps < fuel)%nat -> findUnknownRaw rs name = Some x ->
    exists r, mFindUnknown name fuel p e a [] = MOk r a [] /\ match x with None => r = NILPTR | Some x => r <> NILPTR /\ exists b q, lo <= b /\ q <= hi /\ repRaw (mem a) b r q x end.
  Proof.
    induction ps as [|p1 ps IH]; intros rs fuel p x C F Hf Hx; inversion F as [|p1' x1 ps' rs' (b & q & L1 & L2 & R) F']; subst; (destruct fuel as [|f]; [cbn in Hf; lia|]); cbn [mFindUnknown findUnknownRaw] in *.
    - cbn [chain] in C. rewrite C. injection Hx as <-. exists NILPTR. split; reflexivity.
    - cbn [chain] in C. destruct C as (-> & C). pose proof R as R0. destruct R as (L3 & L4 & E & R1 & _). replace (p1 =? NILPTR) with false by (unfold NILPTR; lia). rder. rget.
      assert (L5 : p1 <= aused a) by lia. pose proof (run_sameName e a _ _ _ _ name Hw Hc L5 R1) as RS.
      destruct (match rName x1 with Some b0 => CStringEqualNoCase b0 name | None => Some false end) as [[|]|]; [| |discriminate]; rewrite (mbind_run _ _ _ _ _ _ _ _ RS).
      + injection Hx as <-. exists p1. split; [reflexivity|]. split; [unfold NILPTR; lia|]. exists b, q. auto.
      + rget. eapply IH; eauto. cbn in Hf. lia.
  Qed.
  Lemma run_found m r x : m e a [] = MOk r a [] -> match x with None => r = NILPTR | Some x => r <> NILPTR /\ exists b q, lo <= b /\ q <= hi /\ repRaw (mem a) b r q x end -> mFound m e a [] = MOk (rawAnswer x) a [].
  Proof.
    intros E. unfold mFound. rewrite (mbind_run _ _ _ _ _ _ _ _ E). destruct x as [x|]; [|intros ->; reflexivity]. intros (H1 & b & q & L1 & L2 & R). rewrite (proj2 (N.eqb_neq _ _) H1).
    pose proof R as (L3 & L4 & _). rder. eapply run_rawAnswer; [exact Hw|exact Hc| |exact R]. lia.
  Qed.
  Lemma ask_raws p rs q x : rawRep (mem a) lo hi p rs -> askRaws rs q = Some x -> mAskRaws p q e a [] = MOk x a [].
  Proof.
    intros (ps & C & L & F) Hx. num Hw. destruct q; try discriminate; cbn [askRaws mAskRaws] in *.
    - injection Hx as <-. destruct (run_findKnown i ps rs (S (N.to_nat (cap a))) p C F) as (r & R1 & R2); [lia|]. apply (run_found _ r (findKnownRaw rs i)); [exact R1|exact R2].
    - destruct (findUnknownRaw rs name) as [y|] eqn:Ey; [|discriminate]. injection Hx as <-. destruct (run_findUnknown name ps rs (S (N.to_nat (cap a))) p y C F) as (r & R1 & R2); [lia|exact Ey|]. apply (run_found _ r y); [exact R1|exact R2].
  Qed.
End Find.

(** ** A message *)
Lemma HInv_slot0 m this lo hi h : HInv OMsg m this lo hi h -> g16 m (slotAt OMsg this 0) = NILPTR /\ nth 0 (hsCommon h) [] = [].
Proof.
  intros (tr & B & _ & _ & S0). specialize (S0 0%nat ltac:(cbn; lia)). unfold slotInv in S0. change (slotKind OMsg 0) with (@None (hkind * bool)) in S0. cbv iota in S0. destruct S0 as (E1 & E2).
  assert (Es : sel itemLid 1 tr = []).
  { destruct (sel itemLid 1 tr) as [|[[[b p] q] x] l] eqn:Es; [reflexivity|]. assert (Hin : In (b, p, q, x) (sel itemLid 1 tr)) by (rewrite Es; now left). unfold sel in Hin. apply filter_In in Hin as (H1 & H2). cbn [snd] in H2. apply Nat.eqb_eq in H2.
    pose proof (blocks_in (itemOk_in OMsg) B H1) as (_ & _ & Ok). destruct x as [r|s v]; [discriminate|]. injection H2 as ->. destruct Ok. }
  unfold iptrs, ptrsOf in E1. unfold ivals, valsOf in E2. rewrite Es in E1, E2. cbn in E1, E2. split; [exact E1|]. destruct (nth 0 (hsCommon h) []); [reflexivity|discriminate].
Qed.
Lemma hdrsC_slot0 m this lo hi c h : hdrsC m this lo hi c h -> g16 m (slotAt OMsg this 0) = NILPTR /\ nth 0 (hsCommon h) [] = [].
Proof.
  destruct c as [c|]; [|apply HInv_slot0]. intros (_ & _ & _ & H). apply HInv_slot0 in H as (H1 & H2). cbn [hsCommon] in H2. rewrite nth_setNth_other in H2 by discriminate. split; [|exact H2].
  rewrite g16_write in H1; [exact H1|]. rewrite slot7_off. unfold slotAt. cbn [slotsOff]. lia.
Qed.
(** An entry is NIL exactly when the header is absent. *)
Lemma hdrsC_nil m this lo hi c h s : 8 <= lo -> this + 68 <= lo -> (forall d, c = Some d -> d <> NILPTR) -> hdrsC m this lo hi c h -> (s < 19)%nat ->
  (g16 m (slotAt OMsg this s) =? NILPTR) = match nth s (hsCommon h) [] with [] => true | _ => false end.
Proof.
  intros H8 Hl Hd HH Hs. destruct (Nat.eq_dec s 0) as [->|N0]; [destruct (hdrsC_slot0 _ _ _ _ _ _ HH) as (-> & ->); reflexivity|].
  destruct (Nat.eq_dec s 7) as [->|N7].
  - fold (slot7 this). destruct (hdrsC_length _ _ _ _ _ _ HH) as [(-> & _ & ->)|(n & -> & _ & [Ec|(_ & L1 & _)])]; [reflexivity| |].
    + apply N.eqb_neq. apply Hd. exact Ec.
    + apply N.eqb_neq. unfold NILPTR. lia.
  - destruct (slot_other s ltac:(lia) N7) as (k & multi & Ek & Hk). pose proof (hdrsC_slot _ _ _ _ _ _ s k multi Hl HH Hs N7 Ek) as R. unfold slotRep in R. destruct multi.
    + destruct R as (ps & C & L & F). destruct F as [|p v ps vs (q & L1 & L2 & _) F]; cbn [chain] in C; [rewrite C; reflexivity|]. destruct C as (-> & _). apply N.eqb_neq. unfold NILPTR. lia.
    + destruct R as [(-> & ->)|(v & -> & (q & L1 & L2 & _))]; [reflexivity|]. apply N.eqb_neq. unfold NILPTR. lia.
Qed.
(** The first loop of GetHeaderByIndex. *)
Fixpoint firstSlot (h : hset) (i : N) (ss : list nat) : option nat :=
  match ss with
  | [] => None
  | s :: ss' => if match nth s (hsCommon h) [] with [] => false | _ => nth s (slotIndexes OMsg) 0 =? i end then Some s else firstSlot h i ss'
  end.
Lemma run_findSlot e a this h i ss : (forall s, In s ss -> (g16 (mem a) (slotAt OMsg this s) =? NILPTR) = match nth s (hsCommon h) [] with [] => true | _ => false end) ->
  mFindSlot this i ss e a [] = MOk (firstSlot h i ss) a [].
Proof.
  induction ss as [|s ss IH]; intros H; [reflexivity|]. cbn [mFindSlot firstSlot]. rget. rewrite (H s) by now left. destruct (nth s (hsCommon h) []); cbn [negb andb].
  - apply IH. intros s' Hs'. apply H. now right.
  - destruct (nth s (slotIndexes OMsg) 0 =? i); [reflexivity|]. apply IH. intros s' Hs'. apply H. now right.
Qed.
Lemma firstSlot_common h i : List.length (hsCommon h) = 19%nat ->
  findCommon (combine (slotIndexes OMsg) (hsCommon h)) i = match firstSlot h i (seq 0 19) with Some s => Some (nth s (hsCommon h) []) | None => None end.
Proof.
  intros L. assert (G : forall idx vs n, List.length idx = List.length vs -> (forall j, nth (n + j) (slotIndexes OMsg) 0 = nth j idx 0) -> (forall j, nth (n + j) (hsCommon h) [] = nth j vs []) ->
    findCommon (combine idx vs) i = match firstSlot h i (seq n (List.length vs)) with Some s => Some (nth s (hsCommon h) []) | None => None end).
  { induction idx as [|x idx IH]; intros [|v vs] n E1 E2 E3; try discriminate; [reflexivity|]. cbn [combine findCommon List.length seq firstSlot].
    pose proof (E2 0%nat) as F2. pose proof (E3 0%nat) as F3. rewrite Nat.add_0_r in F2, F3. cbn [nth] in F2, F3. rewrite F2, F3.
    assert (R : findCommon (combine idx vs) i = match firstSlot h i (seq (S n) (List.length vs)) with Some s => Some (nth s (hsCommon h) []) | None => None end).
    { apply IH; [now injection E1|intros j; specialize (E2 (S j))|intros j; specialize (E3 (S j))]; rewrite Nat.add_succ_r in *; assumption. }
    destruct v as [|v0 v]; [exact R|]. destruct (x =? i); [now rewrite F3|exact R]. }
  specialize (G (slotIndexes OMsg) (hsCommon h) 0%nat). rewrite L in G. apply G; [reflexivity|reflexivity|reflexivity].
Qed.
Lemma firstSlot_in h i ss s : firstSlot h i ss = Some s -> In s ss /\ nth s (hsCommon h) [] <> [] /\ nth s (slotIndexes OMsg) 0 = i.
Proof.
  induction ss as [|s' ss IH]; [discriminate|]. cbn [firstSlot]. destruct (nth s' (hsCommon h) []) as [|v vs] eqn:Ev; [intros H; destruct (IH H); split; [now right|assumption]|].
  destruct (nth s' (slotIndexes OMsg) 0 =? i) eqn:Ei; [|intros H; destruct (IH H); split; [now right|assumption]]. intros H. injection H as <-. apply N.eqb_eq in Ei. split; [now left|]. rewrite Ev. split; [discriminate|exact Ei].
Qed.

Lemma placed_sub this lo hi u lo' hi' u' c : lo <= lo' -> hi' <= hi -> u <= u' -> placed this lo hi u c -> placed this lo' hi' u' c.
Proof. destruct c as [c|]; [cbn [placed]; lia|auto]. Qed.
(** The word encodeEnd of the Content-Length may be anything. *)
Lemma repMsgC_end m this lo hi c x v : 8 <= this -> this + 68 <= lo -> placed this lo hi (g16 m (slot7 this) + 8) c -> repMsgC m this lo hi c x -> nth 7 (hsCommon (mHdrs x)) [] <> [] ->
  (forall j, g16 m (slot7 this) <= j < g16 m (slot7 this) + 8 -> own this lo hi c j) /\ repMsgC (p32 m (g16 m (slot7 this) + 4) v) this lo hi c x.
Proof.
  intros H8 Hl Hp (q1 & q2 & prev & L1 & L2 & Z & S0 & HH & B) Hne. pose proof (bodiesInv_le _ _ _ _ _ _ B) as L3. set (cl := g16 m (slot7 this)) in *.
  assert (Hcl : (c = Some cl) \/ (c = None /\ q1 <= cl /\ cl + 8 <= q2)) by (destruct (hdrsC_length _ _ _ _ _ _ HH) as [(E & _)|(n & _ & _ & H)]; [congruence|exact H]).
  assert (O : forall j, cl <= j < cl + 8 -> own this lo hi c j) by (intros j Hj; unfold own; destruct Hcl as [->|(-> & Hcl)]; lia).
  split; [exact O|].
  assert (D : (cl + 8 <= this \/ this + 68 <= cl) /\ (cl + 8 <= lo \/ q1 <= cl) /\ (cl + 8 <= q2 \/ hi <= cl)) by (destruct Hcl as [->|(-> & Hcl)]; [cbn [placed] in Hp; lia|lia]).
  assert (A : forall p q, (cl + 8 <= p \/ q <= cl) -> agreeR m (p32 m (cl + 4) v) p q) by (intros p q Hpq i Hi; apply p32_other; unfold inR; lia).
  exists q1, q2, prev. split; [exact L1|]. split; [exact L2|]. split; [eapply zeros_frame; [apply A; lia|exact Z]|].
  split; [eapply repLine_frame; [apply A; lia|apply A; lia|exact S0]|].
  split; [apply hdrsC_end; [lia|eapply placed_sub; [| | |exact Hp]; lia|exact HH|exact Hne]|].
  replace (g16 (p32 m (cl + 4) v) (this + 66)) with (g16 m (this + 66)) by (symmetry; apply g16_p32; lia). eapply bodiesInv_frame; [|exact B]. apply A. lia.
Qed.
Lemma ask_msg e a this lo hi c x q y : wfA e a -> 8 <= this -> this + 68 <= lo -> hi <= aused a -> aused a < cap a -> (extMsg x = true -> aused a < 32768) -> placed this lo hi (aused a) c -> repMsgC (mem a) this lo hi c x ->
  askMsg e x q = Some y -> exists a' b', mAskMsg this q e a [] = EOk y a' b' /\ aused a' = aused a /\ keeps (own this lo hi c) a a' /\ repMsgC (mem a') this lo hi c x.
Proof.
  intros Hw H8 Hl Hh Hc H15 Hp HR Hx. num Hw. pose proof HR as (q1 & q2 & prev & L1 & L2 & Z & S0 & HH & B). pose proof (bodiesInv_le _ _ _ _ _ _ B) as L3.
  assert (Same : forall b', mAskMsg this q e a [] = EOk y a b' -> exists a' b', mAskMsg this q e a [] = EOk y a' b' /\ aused a' = aused a /\ keeps (own this lo hi c) a a' /\ repMsgC (mem a') this lo hi c x).
  { intros b' E. exists a, b'. split; [exact E|]. split; [reflexivity|]. split; [eapply keeps_refl; exact Hw|exact HR]. }
  destruct q as [ | | | | | | | | |name| |i|name|i| ]; try discriminate; cbn [askMsg mAskMsg] in *.
  - assert (Hs : forall s, In s (seq 0 19) -> (g16 (mem a) (slotAt OMsg this s) =? NILPTR) = match nth s (hsCommon (mHdrs x)) [] with [] => true | _ => false end).
    { intros s Hs. apply in_seq in Hs. apply (hdrsC_nil _ _ q1 q2 c); [lia|lia| |exact HH|lia]. intros d ->. cbn [placed] in Hp. unfold NILPTR. lia. }
    pose proof (run_mem _ _ _ [] _ (run_findSlot e a this (mHdrs x) i _ Hs)) as R1. unfold getHeaderByIndex in Hx. rewrite (firstSlot_common _ _ (hdrsC_len _ _ _ _ _ _ HH)) in Hx.
    destruct (firstSlot (mHdrs x) i (seq 0 19)) as [s|] eqn:Es.
    + apply firstSlot_in in Es as (S1 & S2 & S3). pose proof (Hs s S1) as Nn. apply in_seq in S1. injection Hx as <-. set (vs := nth s (hsCommon (mHdrs x)) []) in *.
      destruct (Nat.eq_dec s 0) as [->|N0]; [destruct (hdrsC_slot0 _ _ _ _ _ _ HH) as (_ & E); unfold vs in S2; congruence|].
      destruct (Nat.eq_dec s 7) as [->|N7].
      * clear Same. assert (Hp7 : placed this lo hi (g16 (mem a) (slot7 this) + 8) c).
        { destruct (hdrsC_length _ _ _ _ _ _ HH) as [(E & _)|(n & _ & _ & [->|(-> & _)])]; [unfold vs in S2; congruence| |exact Logic.I]. cbn [placed] in *. lia. }
        destruct (hdrsC_length _ _ _ _ _ _ HH) as [(E & _)|(n & En & Hn & _)]; [unfold vs in S2; congruence|]. fold vs in En.
        set (cl := g16 (mem a) (slot7 this)) in *. set (t := encContentLength n). destruct (repMsgC_end (mem a) this lo hi c x (len t mod two32) H8 Hl Hp7 HR S2) as (Ow & HR'). fold cl in Ow, HR'.
        assert (Lcl : cl + 8 <= aused a) by (pose proof (Ow (cl + 7) ltac:(lia)) as O2; unfold own in O2; destruct c as [d|]; cbn [placed] in Hp; lia).
        exists (setMem a (p32 (mem a) (cl + 4) (len t mod two32))), t. split; [|split; [reflexivity|]; split; [|exact HR']].
        -- eapply ebind_ok; [exact R1|]. cbv iota. eapply ebind_ok; [reflexivity|]. fold (slot7 this). fold cl. change (slotInfo (nth 7 (slotIndexes OMsg) 0)) with (mkinfo (s2b "Content-Length") false (Some KContentLength)). cbv zeta. cbn [hiKind hiMulti mEncOne].
           eapply ebind_ok.
           { unfold mEncLength. eapply ebind_ok; [apply (ePut_ok _ _ _ _ t); unfold eDeref; replace (cap a <=? cl) with false by lia; unfold mEncHVal, eMem; rewrite Hn; reflexivity|].
             eapply ebind_ok; [reflexivity|]. unfold eMemory, set32. cbn [app]. reflexivity. }
           eapply ebind_ok; [reflexivity|]. unfold eret. cbn [app]. f_equal. rewrite En. f_equal. unfold valuesText, encSlotValue. rewrite <- S3. change (slotInfo (nth 7 (slotIndexes OMsg) 0)) with (mkinfo (s2b "Content-Length") false (Some KContentLength)). cbn [hiKind hiMulti]. rewrite app_nil_r. reflexivity.
        -- split; [reflexivity|]. split; [cbn [aused setMem]; lia|]. split; [cbn [aused setMem]; lia|]. intros j Hj Hn0. cbn [mem setMem]. apply p32_other. unfold inR. intros Hi2. apply Hn0, Ow. lia.
      * destruct (slot_other s ltac:(lia) N7) as (k & multi & Ek & Hk). destruct (slotKind_info OMsg s k multi Ek) as (I1 & I2 & _). rewrite S3 in I1, I2.
        assert (Lq : this + 68 <= q1) by lia. pose proof (hdrsC_slot _ _ _ _ _ _ s k multi Lq HH ltac:(lia) N7 Ek) as R. fold vs in R. unfold slotRep in R. set (p := g16 (mem a) (slotAt OMsg this s)) in *.
        assert (Lq2 : q2 <= aused a) by lia. assert (Lq3 : 8 <= q1) by lia. assert (Lc : q2 < cap a) by lia. assert (Tg : forall v, In v vs -> extHVal v = true -> q2 < 32768) by (intros v0 Hv0 Ev0; assert (aused a < 32768) by (exact (extMsg_hdr x _ s v0 H15 Hv0 Ev0)); lia).
        assert (G : (if multi then ePut (eList (nextOff k) (mEncHVal k) (s2b ", ") p) else mEncOne k p) e a [] = EOk tt a (valuesText e i vs)).
        { unfold valuesText. rewrite I2. destruct multi.
          - destruct R as (ps & C & L & F). destruct vs as [|v vs']; [congruence|]. apply (ePut_ok _ _ _ []).
            assert (F2 : Forall2 (fun p v => p <> NILPTR /\ p <= q2 /\ mEncHVal k p e a = WOk (encHVal e k v)) ps (v :: vs')) by (apply (F2_implIn _ _ _ _ F); intros p0 v0 Hin Hv; eapply (enc_valOk e a q2 Hw Lq2 Lc); eauto).
            rewrite (enc_more e i k vs' I1). unfold encSlotValue. rewrite I1. exact (enc_chain_list e a q2 Lq2 Lc _ _ _ _ _ _ _ C L F2).
          - destruct R as [(E & _)|(v & E1 & Hv)]; [congruence|]. rewrite E1. destruct (enc_valOk e a q2 Hw Lq2 Lc k q1 p v Lq3 (Tg v ltac:(rewrite E1; now left)) Hv) as (P1 & P2 & P3). rewrite app_nil_r.
            assert (E0 : mEncOne k p = ePut (eDeref p (mEncHVal k p))) by (destruct k; try reflexivity; congruence). rewrite E0. apply (ePut_ok _ _ _ []). unfold encSlotValue. rewrite I1. apply (enc_deref e a q2 Lq2 Lc); auto. }
        apply (Same (valuesText e i vs)). eapply ebind_ok; [exact R1|]. cbv iota. eapply ebind_ok; [reflexivity|]. fold p. rewrite S3. cbv zeta. rewrite I1, I2. eapply ebind_ok; [exact G|]. eapply ebind_ok; [reflexivity|]. reflexivity.
    + assert (Lq : this + 68 <= q1) by lia. assert (Lq2 : q2 <= aused a) by lia. assert (Lq3 : 8 <= q1) by lia.
      destruct (hdrsC_raw _ _ _ _ _ _ Lq HH) as (ps & C & L & F). destruct (run_findKnown e a q1 q2 Hc Lq2 Lq3 i ps (hsRaw (mHdrs x)) (S (N.to_nat (cap a))) _ C F) as (r & F1 & F2); [lia|].
      apply (Same []). eapply ebind_ok; [exact R1|]. apply run_mem. rget. assert (Ey : y = rawAnswer (findKnownRaw (hsRaw (mHdrs x)) i)) by (destruct (findKnownRaw _ _); injection Hx as <-; reflexivity). rewrite Ey. apply (run_found e a q1 q2 Hw Hc Lq2 Lq3 _ r _ F1 F2).
  - apply (Same []). eapply ebind_ok; [apply run_mem; eapply (run_hasMulti e a this q2 hi); [exact Hw|lia|exact Hh|lia|exact Z|reflexivity|exact B]|]. now injection Hx as <-.
Qed.

(** ** Any object *)
Lemma raws_rep m lo hi p l : repRaws m lo hi p l -> rawRep m lo hi p l.
Proof.
  intros (prev & tr & B & C & _ & V). exists (iptrs 0 tr). split; [exact C|]. split; [apply (ptrsOf_length (itemOk_in OMsg) _ B)|]. eapply sel_F2; [exact V|].
  intros b p0 q v Hin _. pose proof (blocks_in (itemOk_in OMsg) B Hin) as (L1 & L2 & L3). exists b, q. auto.
Qed.
Lemma ask_step k e a p (W : N -> Prop) top o q x : wfA e a -> aused a < cap a -> (wExt o = true -> aused a < 32768) -> top <= aused a -> wRep k (mem a) p W top o -> askValue e o q = Some x ->
  exists a' b', wAsk k p q e a [] = EOk x a' b' /\ aused a' = aused a /\ keeps W a a' /\ wRep k (mem a') p W top o.
Proof.
  intros Hw Hc H15 Ht HR Hx. num Hw. assert (Same : forall b', wAsk k p q e a [] = EOk x a b' -> exists a' b', wAsk k p q e a [] = EOk x a' b' /\ aused a' = aused a /\ keeps W a a' /\ wRep k (mem a') p W top o).
  { intros b' E. exists a, b'. split; [exact E|]. split; [reflexivity|]. split; [eapply keeps_refl; exact Hw|exact HR]. }
  destruct k as [k| |], o as [o|l|v]; try contradiction; cbn [askValue wAsk wExt] in *.
  - destruct HR as (lo & hi & H1 & H2 & H3 & H4 & H5 & H6). destruct k, o; try contradiction; try discriminate; cbn [objSize objRep] in *.
    + apply (Same []). apply run_mem. eapply ask_uri; [exact Hw|exact Hc| | |exact H6|exact Hx]; lia.
    + apply (Same []). apply run_mem. eapply ask_addr; [exact H6|exact Hx].
  - destruct HR as (lo & hi & H1 & H2 & H3 & H4). apply (Same []). apply run_mem. eapply (ask_raws e a lo hi); [exact Hw|exact Hc|lia|exact H1|apply raws_rep; exact H4|exact Hx].
  - destruct HR as (lo & hi & c & H1 & H2 & H3 & H4 & H5 & H6 & H7). clear Same. destruct (ask_msg e a p lo hi c v q x Hw H1 H2 ltac:(lia) Hc H15) as (a' & b' & R & U & K & HR'); [eapply placed_sub; [| | |exact H4]; lia|exact H7|exact Hx|].
    exists a', b'. split; [exact R|]. split; [exact U|]. split; [eapply keeps_sub; [exact K|intros i _; apply H5]|]. exists lo, hi, c. do 6 (split; [assumption|]). exact HR'.
Qed.
