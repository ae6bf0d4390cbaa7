(** Messages that are written the same: the text depends on a message only up to the spelling of the recognised parameter names. *)
From Verif Require Import Base HeaderTree Str BaseLemmas Monad Inv StrSpec GenParam Addr StartLine Headers RawHeaders RawSpec RawProofs Msg MsgSpec MsgRt MsgEnc MsgWhole ParsedSpec ParsedWf P20_Stable ParsedMsg.

Definition relType (v w : hval) : Prop :=
  match v, w with
  | VType m s t ps, VType m' s' t' ps' => m = m' /\ s = s' /\ sameParams t t' ps ps'
  | VType _ _ _ _, _ | _, VType _ _ _ _ => False
  | _, _ => True
  end.
Lemma same_relType v w : sameHVal v w -> relType v w. Proof. destruct v, w; cbn; try tauto; try discriminate. Qed.
Definition relVal (e : env) (i : N) (v w : hval) : Prop := relType v w /\ encSlotValue e i v = encSlotValue e i w.
Definition relHdrs (o : owner) (e : env) (h w : hset) : Prop :=
  hsRaw h = hsRaw w /\ List.length (hsCommon h) = List.length (hsCommon w) /\ forall j, Forall2 (relVal e (nth j (slotIndexes o) 0)) (nth j (hsCommon h) []) (nth j (hsCommon w) []).
Definition relBody (e : env) (b c : body) : Prop := relHdrs OBody e (bHdrs b) (bHdrs c) /\ bData b = bData c.
Definition relMsg (e : env) (m w : msg) : Prop := encStartLine e (mStart m) = encStartLine e (mStart w) /\ relHdrs OMsg e (mHdrs m) (mHdrs w) /\ Forall2 (relBody e) (mBodies m) (mBodies w).

Lemma slot_rel e i vs ws : Forall2 (relVal e i) vs ws -> encSlot e (i, vs) = encSlot e (i, ws).
Proof.
  intros F. unfold encSlot. cbn [fst snd]. inversion F as [|v w vs' ws' [_ E] F']; subst; [reflexivity|]. rewrite E. do 3 f_equal. destruct (hiMulti _); [|reflexivity]. f_equal. clear - F'. unfold encMore. induction F' as [|v w vs ws [_ E] F IH]; [reflexivity|]. cbn [flat_map]. now rewrite E, IH.
Qed.
Lemma slots_rel e l : forall cs ds, List.length cs = List.length ds -> (forall j, Forall2 (relVal e (nth j l 0)) (nth j cs []) (nth j ds [])) -> map (encSlot e) (combine l cs) = map (encSlot e) (combine l ds).
Proof.
  induction l as [|i l IH]; intros [|c cs] [|d ds] L F; try discriminate; [reflexivity..|]. cbn [combine map]. f_equal; [apply slot_rel; exact (F 0%nat)|apply IH; [cbn in L; lia|intros j; exact (F (Datatypes.S j))]].
Qed.
Lemma map_tl {A B} (f : A -> B) l : map f (tl l) = tl (map f l). Proof. destruct l; reflexivity. Qed.
Lemma hdrs_rel o e h w : relHdrs o e h w -> encHdrs o e h = encHdrs o e w.
Proof. intros (R & L & F). unfold encHdrs. rewrite R. f_equal. rewrite !flat_map_concat_map. rewrite !(map_tl (encSlot e)). now rewrite (slots_rel e (slotIndexes o) _ _ L F). Qed.
Lemma nil_rel {A B} (R : A -> B -> Prop) l m : Forall2 R l m -> (l = [] <-> m = []).
Proof. intros []; split; congruence. Qed.
Lemma lengthEnd_rel e pre h w : relHdrs OMsg e h w -> lengthEnd e pre h = lengthEnd e pre w.
Proof.
  intros (R & L & F). unfold lengthEnd. rewrite !flat_map_concat_map, <- !firstn_map. rewrite !(map_tl (encSlot e)). rewrite (slots_rel e (slotIndexes OMsg) _ _ L F). f_equal. f_equal. f_equal.
  pose proof (F 7%nat) as F7. unfold contentLengthOf. inversion F7 as [|v v' vs vs' [_ E] _ E1 E2]; [reflexivity|]. cbn [hd_error]. cbn [nth slotIndexes] in E. now rewrite E.
Qed.
Lemma findCommon_rel e l i : forall cs ds, List.length cs = List.length ds -> (forall j, Forall2 (relVal e (nth j l 0)) (nth j cs []) (nth j ds [])) -> findCommon (combine l cs) i = None <-> findCommon (combine l ds) i = None.
Proof.
  induction l as [|a l IH]; intros [|c cs] [|d ds] L F; try discriminate; [reflexivity..|]. assert (L' : List.length cs = List.length ds) by (cbn in L; lia). specialize (IH cs ds L' (fun j => F (Datatypes.S j))). pose proof (F 0%nat) as F0. cbn [nth] in F0.
  cbn [combine findCommon]. inversion F0; subst; [exact IH|]. destruct (a =? i); [split; discriminate|exact IH].
Qed.
Lemma header_rel e h w i : relHdrs OMsg e h w -> getHeaderByIndex h i = None <-> getHeaderByIndex w i = None.
Proof.
  intros (R & L & F). unfold getHeaderByIndex. rewrite R. pose proof (findCommon_rel e _ i _ _ L F) as FC. destruct (findCommon (combine _ (hsCommon h)) i), (findCommon (combine _ (hsCommon w)) i); try reflexivity.
  - split; discriminate.
  - destruct FC as [_ FC]. discriminate FC. reflexivity.
  - destruct FC as [FC _]. discriminate FC. reflexivity.
Qed.
Lemma set_rel o e h w j vs ws : relHdrs o e h w -> (j < List.length (hsCommon h))%nat -> Forall2 (relVal e (nth j (slotIndexes o) 0)) vs ws ->
  relHdrs o e (mkhset (setNth (hsCommon h) j vs) (hsRaw h)) (mkhset (setNth (hsCommon w) j ws) (hsRaw w)).
Proof.
  intros (R & L & F) Lj Fv. split; [exact R|]. cbn [hsCommon]. split; [now rewrite !setNth_len|]. intros k. destruct (Nat.eq_dec j k) as [<-|Hk]; [rewrite !setNth_nth by lia; exact Fv|rewrite !setNth_nth_ne by exact Hk; apply F].
Qed.
Lemma relNum e i n : relVal e i (VNum n) (VNum n). Proof. split; [exact Logic.I|reflexivity]. Qed.
Lemma sameEntry_refl {A V} (f : A -> bytes) (g : A -> V) x : sameEntry f g x x.
Proof. destruct x; cbn; [split; reflexivity|exact Logic.I]. Qed.
Lemma sameKnown_refl {A V} (f : A -> bytes) (g : A -> V) x : sameKnown f g x x.
Proof. destruct x as [l|]; [|exact Logic.I]. induction l; constructor; auto using sameEntry_refl. Qed.
Lemma relVal_refl e i v : relVal e i v v.
Proof. split; [|reflexivity]. destruct v; cbn; try exact Logic.I. repeat split; apply sameKnown_refl. Qed.
Lemma ensure_rel e h w s h1 s1 : relHdrs OMsg e h w -> (7 < List.length (hsCommon h))%nat -> ensureLength h e s = Ok h1 s1 -> exists w1, ensureLength w e s = Ok w1 s1 /\ relHdrs OMsg e h1 w1 /\ List.length (hsCommon h1) = List.length (hsCommon h).
Proof.
  intros R L E. unfold ensureLength in *. unfold contentLengthOf in *. pose proof (proj2 (proj2 R) 7%nat) as F. destruct (nth 7 (hsCommon h) []) as [|v vs], (nth 7 (hsCommon w) []) as [|v' vs']; try (inversion F; fail); cbn [hd_error] in *.
  - apply bind_inv in E as (u0 & s2 & Ea & E). injection E as <- <-. eexists. split; [unfold bind; rewrite Ea; reflexivity|]. split; [|cbn [hsCommon]; apply setNth_len]. apply set_rel; [exact R|exact L|]. constructor; [apply relNum|constructor].
  - injection E as <- <-. exists w. split; [reflexivity|]. auto.
Qed.
Lemma type_boundary v w : relType v w -> match boundaryParam v, boundaryParam w with None, None => True | Some p, Some q => gpValue p = gpValue q | _, _ => False end.
Proof.
  destruct v as [ad t1 ps| |pr tr hp t1 ps|n mt|rr c0 mt|n|mn sb t1 ps|d t1 ps|w0 w2], w as [ad' t1' ps'| |pr' tr' hp' t1' ps'|n' mt'|rr' c0' mt'|n'|mn' sb' t1' ps'|d' t1' ps'|w0' w2']; try contradiction; try (intros; exact Logic.I).
  intros (_ & _ & [K _]). destruct t1 as [l|], t1' as [l'|]; try contradiction; [|exact Logic.I]. cbn [boundaryParam sameKnown] in *. inversion K as [|a b m m' S K']; subst; [exact Logic.I|]. cbn [nth]. destruct a, b; try contradiction; [exact (proj2 S)|exact Logic.I].
Qed.
Lemma boundary_rel e h w s h1 b s1 : relHdrs OMsg e h w -> (10 < List.length (hsCommon h))%nat -> findOrCreateBoundary h e s = Ok (h1, b) s1 ->
  exists w1, findOrCreateBoundary w e s = Ok (w1, b) s1 /\ relHdrs OMsg e h1 w1.
Proof.
  intros R L E. unfold findOrCreateBoundary in *. apply bind_inv in E as (v & s2 & Ev & E). apply bind_inv in E as (vb & s3 & Eb & E). unfold ret in E. assert (Q := f_equal (fun r => match r with Ok (x, y) z => (x, y, z) | _ => (h1, b, s1) end) E). cbv beta iota in Q. apply pair_equal_spec in Q as [Q Q3]. apply pair_equal_spec in Q as [<- <-]. subst s3.
  assert (V : exists v', (match contentTypeOf w with Some v => ret v | None => allocStruct 8 ;;; (m <- allocCString (s2b "multipart") ;; s <- allocCString (s2b "mixed") ;; ret (VType m s None [])) end) e s = Ok v' s2 /\ relVal e (nth 10 (slotIndexes OMsg) 0) v v').
  { unfold contentTypeOf in *. pose proof (proj2 (proj2 R) 10%nat) as F. destruct (nth 10 (hsCommon h) []) as [|x vs], (nth 10 (hsCommon w) []) as [|x' vs']; try (inversion F; fail); cbn [hd_error] in *; [exists v; split; [exact Ev|apply relVal_refl]|]. assert (Rx : relVal e (nth 10 (slotIndexes OMsg) 0) x x') by (now inversion F). injection Ev as <- <-. exists x'. split; [reflexivity|exact Rx]. }
  destruct V as (v' & Ev' & [RV RE]). pose proof (type_boundary _ _ RV) as TB.
  assert (B : exists vb', (match boundaryParam v' with Some p => match gvalueText (gpValue p) with Some b => ret (v', b) | None => pfail end | None => setBoundary v' end) e s2 = Ok vb' s1 /\ snd vb' = snd vb /\ relVal e (nth 10 (slotIndexes OMsg) 0) (fst vb) (fst vb')).
  { destruct (boundaryParam v) as [p|], (boundaryParam v') as [q|]; try contradiction.
    - rewrite <- TB. destruct (gvalueText (gpValue p)) as [bb|]; [|discriminate]. injection Eb as <- <-. exists (v', bb). split; [reflexivity|]. split; [reflexivity|]. split; assumption.
    - destruct v as [ad t1 ps| |pr tr hp t1 ps|n mt|rr c0 mt|n|mn sb t1 ps|d t1 ps|w0 w2]; try discriminate Eb. destruct v'; try contradiction. destruct RV as (<- & <- & [K <-]). exists vb. split; [|split; [reflexivity|apply relVal_refl]].
      rewrite <- Eb. unfold setBoundary. destruct t1, t; try contradiction; reflexivity. }
  destruct B as (vb' & Eb' & Es & Rf). eexists. split; [unfold bind at 1; rewrite Ev'; unfold bind at 1; rewrite Eb'; unfold ret; rewrite Es; reflexivity|]. apply set_rel; [exact R|exact L|]. constructor; [exact Rf|constructor].
Qed.
Lemma fix_rel e b c : relBody e b c -> relBody e (fixLength b) (fixLength c).
Proof.
  intros [R D]. unfold fixLength. pose proof (proj2 (proj2 R) 1%nat) as F. inversion F as [E1 E2|x x' vs vs' Rx _ E1 E2]; [split; assumption|]. rewrite D. split; [|reflexivity]. cbn [bHdrs]. apply set_rel; [exact R| |constructor; [apply relNum|constructor]].
  destruct (Nat.le_gt_cases (List.length (hsCommon (bHdrs b))) 1) as [L|L]; [rewrite nth_overflow in E1 by exact L; discriminate|exact L].
Qed.
Lemma encBody_rel e b c : relBody e b c -> encBody e b = encBody e c.
Proof. intros [R D]. unfold encBody. now rewrite (hdrs_rel _ _ _ _ R), D. Qed.
Lemma multipart_rel e b bs cs : Forall2 (relBody e) bs cs -> encMultipart e b bs = encMultipart e b cs.
Proof. intros F. unfold encMultipart. f_equal. induction F as [|x y bs cs R F IH]; [reflexivity|]. cbn [flat_map]. now rewrite IH, (encBody_rel e _ _ (fix_rel e _ _ R)). Qed.
Lemma single_rel e bs cs : Forall2 (relBody e) bs cs -> encSingle bs = encSingle cs.
Proof. intros []; [reflexivity|]. cbn. now destruct H. Qed.
Lemma multi_rel e m w : relMsg e m w -> hasMulti m = hasMulti w.
Proof. intros (_ & _ & F). unfold hasMulti. destruct F as [|x y bs cs _ F]; [reflexivity|]. destruct F; reflexivity. Qed.
Lemma enc_rel e pre m w s text m' s' : relMsg e m w -> List.length (hsCommon (mHdrs m)) = 19%nat -> encMsg pre m e s = Ok (text, m') s' -> exists w', encMsg pre w e s = Ok (text, w') s'.
Proof.
  intros R L E. pose proof (multi_rel _ _ _ R) as Hm. destruct R as (Rl & Rh & Rb). unfold encMsg, withEnv in *. apply bind_inv in E as (h1 & s1 & E1 & E). apply bind_inv in E as ((h & b) & s2 & E2 & E). cbn [fst snd] in E.
  destruct (ensure_rel e _ (mHdrs w) _ _ _ Rh ltac:(lia) E1) as (w1 & F1 & R1 & L1).
  assert (B : exists w2, (if hasMulti w then findOrCreateBoundary w1 else ret (w1, [])) e s1 = Ok (w2, b) s2 /\ relHdrs OMsg e h w2).
  { rewrite <- Hm. destruct (hasMulti m); [apply (boundary_rel e h1); [exact R1|lia|exact E2]|]. injection E2 as <- <- <-. exists w1. split; [reflexivity|exact R1]. }
  destruct B as (w2 & F2 & R2). unfold bind at 1. rewrite F1. unfold bind. rewrite F2. cbn [fst snd]. rewrite <- Hm, <- Rl, <- (hdrs_rel _ _ _ _ R2), <- (lengthEnd_rel _ _ _ _ R2).
  pose proof (header_rel e _ _ SIP_HDR_MIME_VERSION R2) as HR.
  assert (M : match getHeaderByIndex w2 SIP_HDR_MIME_VERSION with None => s2b "MIME-Version: 1.0" ++ CRLF | Some _ => [] end = match getHeaderByIndex h SIP_HDR_MIME_VERSION with None => s2b "MIME-Version: 1.0" ++ CRLF | Some _ => [] end).
  { destruct (getHeaderByIndex h _), (getHeaderByIndex w2 _); try reflexivity; [destruct HR as [_ HR]; discriminate HR; reflexivity|destruct HR as [HR _]; discriminate HR; reflexivity]. }
  rewrite M. destruct Rb as [|x y bs cs Rx Rb].
  - unfold ret in E. assert (Q := f_equal (fun r => match r with Ok (y, z) q => (y, q) | _ => (text, s') end) E). cbv beta iota in Q. apply pair_equal_spec in Q as [<- <-]. eexists. reflexivity.
  - assert (F : Forall2 (relBody e) (x :: bs) (y :: cs)) by (now constructor). rewrite <- (multipart_rel e b _ _ F), <- (single_rel e _ _ F).
    unfold ret in E. assert (Q := f_equal (fun r => match r with Ok (y, z) q => (y, q) | _ => (text, s') end) E). cbv beta iota in Q. apply pair_equal_spec in Q as [<- <-]. eexists. reflexivity.
Qed.
