(** Parsing fewer headers: how a run that parses a set of headers and one that parses fewer of them compare. *)
From Verif Require Import Base Charset CharsetProofs BaseLemmas Num NumProofs Lws LwsSpec LwsProofs Str Monad Good Rt Seq MethodTree HeaderTree Lookup NameProofs Host HostProofs Uri Tel GenParam GenParamSpec Addr StartLine Headers RawHeaders RawSpec RawProofs Msg MsgProofs MsgRt MsgSound ParsedMsg Shift Tidy.

(** ** Lines *)
Lemma td_expect c e s : c <> 10 -> tidyAt (expect c) e s.
Proof. intros Hc. unfold expect. apply td_onRest. destruct (rest s) as [|x r] eqn:E; [apply td_pfail|]. destruct (N.eqb_spec x c) as [->|]; [|apply td_pfail]. apply td_goto. rewrite E. apply tidy_cons; [exact Hc|apply tidy_refl]. Qed.
Lemma td_addrSpec e s : tidyAt parseAddrSpec e s. Proof. unfold parseAddrSpec. td. Qed.
Lemma td_versionDigits e s : tidyAt (versionDigits (rest s)) e s.
Proof.
  unfold versionDigits. destruct (span (inset DIGIT) (rest s)) as [mj r1] eqn:E. destruct mj as [|d mj]; [td|]. destruct r1 as [|x mid]; [td|]. destruct (negb (x =? 46)) eqn:Hx; [td|]. apply negb_false_iff, N.eqb_eq in Hx. subst x.
  apply td_bind; [|intros; td]. apply td_fromPos; [reflexivity|]. eapply tidy_trans; [exact (tidy_span (inset DIGIT) _ _ _ eq_refl E)|]. apply tidy_cons; [discriminate|apply tidy_refl].
Qed.
Lemma td_versionAfter e s : tidyAt parseVersionAfter e s.
Proof.
  unfold parseVersionAfter. apply td_onRest. pose proof (td_versionDigits e s) as D. destruct (rest s) as [|a r1] eqn:E; [td|]. destruct (N.eqb_spec a 50) as [->|]; [|exact D]. destruct r1 as [|b r2]; [td|].
  destruct (N.eqb_spec b 46) as [->|]; [|exact D]. destruct r2 as [|c r3]; [td|]. destruct (N.eqb_spec c 48) as [->|]; [|exact D].
  assert (G : tidyTo (rest s) r3) by (rewrite E; repeat (apply tidy_cons; [discriminate|]); apply tidy_refl). destruct r3 as [|d r3]; [apply td_goto_bind; [exact G|td]|]. destruct (negb (IsDigit d)); [apply td_goto_bind; [exact G|td]|exact D].
Qed.
Lemma tidy_versionStart r r4 : versionStart r = Some r4 -> tidyTo r r4.
Proof.
  unfold versionStart. destruct r as [|a [|b [|c [|d [|x [|y [|z r]]]]]]]; try discriminate. destruct (_ && _)%bool eqn:H; [|discriminate]. intros [= <-]. tidyGo.
Qed.
#[export] Hint Resolve td_expect td_addrSpec td_versionAfter : tidy.
Lemma td_version e s : tidyAt parseVersion e s.
Proof. unfold parseVersion. apply td_onRest. destruct (versionStart (rest s)) as [r4|] eqn:E; [|td]. apply td_goto_bind; [now apply tidy_versionStart|td]. Qed.
#[export] Hint Resolve td_version : tidy.
(** The text up to a line end. *)
Definition lineTo (r q : bytes) : Prop := exists t, r = t ++ 13 :: 10 :: q /\ tidy t.
Lemma tidy_line a b q : tidyTo a b -> lineTo b q -> lineTo a q.
Proof.
  intros (t1 & -> & H1) (t2 & -> & H2). exists (t1 ++ t2). split; [now rewrite <- app_assoc|]. now apply tidy_app.
Qed.
Definition lineAt {A} (p : P A) (e : env) (s : st) : Prop := forall a s', p e s = Ok a s' -> lineTo (rest s) (rest s').
Lemma ln_bind {A B} (p : P A) (q : A -> P B) e s : tidyAt p e s -> (forall a s', lineAt (q a) e s') -> lineAt (bind p q) e s.
Proof. intros Hp Hq b s' E. unfold bind in E. destruct (p e s) as [a s1|s1| |] eqn:E1; try discriminate. exact (tidy_line _ _ _ (Hp a s1 E1) (Hq a s1 b s' E)). Qed.
Lemma ln_end {A} (a : A) e s : lineAt (pCRLF ;;; ret a) e s.
Proof.
  intros b s' E. unfold bind, pCRLF, liftB, ParseCRLF in E. destruct (rest s) as [|x [|y r]] eqn:Er; try discriminate. destruct (N.eqb_spec x 13) as [->|]; [|discriminate]. destruct (N.eqb_spec y 10) as [->|]; [|discriminate].
  cbn in E. injection E as <- <-. exists []. split; [reflexivity|]. apply tidy_of_folded, folded_nil.
Qed.
Lemma ln_startLine e s : lineAt parseStartLine e s.
Proof.
  assert (R : lineAt parseRequestLine e s) by (unfold parseRequestLine; repeat (apply ln_bind; [solve [td]|intros]); apply ln_end).
  intros b s' E. unfold parseStartLine, onRest in E. destruct (versionStart (rest s)) as [r4|] eqn:Ev; [|exact (R _ _ E)].
  assert (Q : lineAt parseStatusLine e (mkst r4 (used s))) by (unfold parseStatusLine; repeat (apply ln_bind; [solve [td]|intros]); apply ln_end).
  exact (tidy_line _ _ _ (tidy_versionStart _ _ Ev) (Q _ _ E)).
Qed.

(** ** Header names *)
Lemma token_not_start p r : forallb tokenOrCR p = true -> p <> [] -> ~ startsWsp (p ++ r) /\ ~ startsWsp p.
Proof.
  intros H Hp. destruct p as [|x p]; [congruence|]. cbn in H. apply andb_prop in H as [Hx _]. split; intros (y & t & [= <- _] & [-> | ->]); discriminate.
Qed.
Lemma td_headerName e s : tidyAt parseHeaderName e s.
Proof.
  unfold parseHeaderName. apply td_onRest. destruct (GetSipHeaderIndex (rest s)) as [[i mid]|] eqn:E; [|td]. apply header_skips in E as (p & E & Hp).
  assert (T0 : tidyTo (rest s) mid) by (rewrite E; apply (tidy_run tokenOrCR); [reflexivity|exact Hp]). apply td_bind.
  - destruct (i =? _); [|td]. apply td_bind; [|intros; td]. apply td_fromPos; [reflexivity|exact T0].
  - intros a s1. apply td_bind; [|intros; td]. apply td_liftB. intros r q H. unfold ParseHcolon in H. destruct (skipWsp_decomp r) as (w & Er & Hw & _). destruct (skipWsp r) as [|x r']; [discriminate|]. destruct (N.eqb_spec x 58) as [->|]; [|discriminate].
    injection H as <-. rewrite Er. eapply tidy_trans; [apply tidy_nolf, wsp_no10, Hw|]. apply tidy_cons; [discriminate|apply tidy_SWS].
Qed.
Lemma header_wsp x r : wsp x -> GetSipHeaderIndex (x :: r) = Some (SIP_HDR_UNKNOWN, x :: r).
Proof. intros [-> | ->]; reflexivity. Qed.
Lemma headerName_start e s a s' : parseHeaderName e s = Ok a s' -> ~ startsWsp (rest s).
Proof.
  intros E (x & r & Er & Hw). unfold parseHeaderName, onRest in E. rewrite Er, (header_wsp x r Hw), N.eqb_refl in E. unfold bind in E.
  destruct (paCStringFromPos (x :: r) SIP_TOKEN e s) as [t s1|s1| |] eqn:E1; try discriminate. unfold paCStringFromPos in E1. rewrite Er, Nat.sub_diag in E1. cbn [firstn beq negb andb] in E1. destruct (negb _); [discriminate|].
  assert (Hs : span (inset SIP_TOKEN) (x :: r) = ([], x :: r)) by (apply span_stop; destruct Hw as [-> | ->]; reflexivity). rewrite Hs in E1. destruct (negb _); [discriminate|]. cbn [app] in E1. discriminate.
Qed.

(** ** A header that is parsed ends a line, or is a list of values at the end of the input *)
Lemma multi_line k set e : forall n a s x s', iterP n (multiBody k set) a e s = Ok x s' -> lineTo (rest s) (rest s') \/ tidyTo (rest s) [] /\ rest s' = [].
Proof.
  induction n as [|n IH]; intros a s x s' E; [discriminate|]. cbn [iterP] in E. unfold bind in E at 1. destruct (multiBody k set a e s) as [[a1|y] s1|s1| |] eqn:E1; try discriminate.
  - destruct (IH _ _ _ _ E) as [L|(T & R)].
    + left. apply (tidy_line _ (rest s1)); [|exact L]. clear E IH L. unfold multiBody, onRest in E1. destruct (rest s) as [|c r1] eqn:Er; [discriminate|]. destruct (IsOnlyCRLF (c :: r1)); [discriminate|].
      destruct (ParseSWSMarkCanOmmit 44 (c :: r1)) as [[r' [|]] [|]] eqn:Em; try (unfold bind in E1; destruct (pCRLF e s); discriminate).
      eapply tidy_trans; [exact (tidy_mark2 44 _ _ _ ltac:(discriminate) Em)|]. unfold bind, goto in E1. destruct (parseSipX k e (mkst r' (used s))) as [v s2|s2| |] eqn:Ex; try discriminate. injection E1 as _ <-. exact (td_sipX k e _ _ _ Ex).
    + right. split; [|exact R]. apply (tidy_trans _ (rest s1)); [|exact T]. clear E IH T R. unfold multiBody, onRest in E1. destruct (rest s) as [|c r1] eqn:Er; [discriminate|]. destruct (IsOnlyCRLF (c :: r1)); [discriminate|].
      destruct (ParseSWSMarkCanOmmit 44 (c :: r1)) as [[r' [|]] [|]] eqn:Em; try (unfold bind in E1; destruct (pCRLF e s); discriminate).
      eapply tidy_trans; [exact (tidy_mark2 44 _ _ _ ltac:(discriminate) Em)|]. unfold bind, goto in E1. destruct (parseSipX k e (mkst r' (used s))) as [v s2|s2| |] eqn:Ex; try discriminate. injection E1 as _ <-. exact (td_sipX k e _ _ _ Ex).
  - cbn in E. injection E as <- <-. clear IH. unfold multiBody, onRest in E1. destruct (rest s) as [|c r1] eqn:Er.
    + cbn in E1. injection E1 as _ <-. right. split; [apply tidy_refl|exact Er].
    + left. destruct (IsOnlyCRLF (c :: r1)) eqn:Ho.
      * apply IsOnlyCRLF_len in Ho as (t & Et). injection Et as -> ->. cbn in E1. injection E1 as _ <-. exists []. split; [reflexivity|]. apply tidy_of_folded, folded_nil.
      * assert (L : forall (b : hset) , (pCRLF ;;; ret (@inr (hset * hval) hset b)) e s = Ok (inr y) s1 -> lineTo (c :: r1) (rest s1)) by (intros b Hb; rewrite <- Er; exact (ln_end _ e s _ _ Hb)).
        destruct (ParseSWSMarkCanOmmit 44 (c :: r1)) as [[r' [|]] [|]] eqn:Em; try exact (L _ E1). unfold bind, goto in E1. destruct (parseSipX k e (mkst r' (used s))); discriminate.
Qed.
Lemma one_line o a n i k multi e s x s' : needParse o e i = Some (k, multi) -> oneHeader o a n i e s = Ok x s' -> lineTo (rest s) (rest s') \/ tidyTo (rest s) [] /\ rest s' = [].
Proof.
  intros Hn E. unfold oneHeader, withEnv in E. rewrite Hn in E. destruct multi.
  - unfold bind in E. destruct (parseSipX k e s) as [v s1|s1| |] eqn:E1; try discriminate. pose proof (td_sipX k e _ _ _ E1) as T. destruct (multi_line _ _ _ _ _ _ _ _ E) as [L|(L & R)]; [left; exact (tidy_line _ _ _ T L)|right].
    split; [exact (tidy_trans _ _ _ T L)|exact R].
  - left. assert (L : lineAt (v <- parseSipX k ;; (pCRLF ;;; ret (setCommon o i false a v))) e s) by (apply ln_bind; [apply td_sipX|]; intros; apply ln_end). exact (L _ _ E).
Qed.
(** A raw header on the same line. *)
Lemma line_raw e n i r u q t : memend e = None -> r = t ++ 13 :: 10 :: q -> folded t -> ~ startsWsp q ->
  exists v u', rawHeader n i e (mkst r u) = Ok (mkraw i n v) (mkst q u') /\ cutCR (t ++ [13]) v.
Proof.
  intros He -> Hf Hq. assert (L : headerLine (t ++ 13 :: 10 :: q) (t ++ [13]) q).
  { split; [now rewrite <- app_assoc|]. split; [|exact Hq]. apply folded_app; [exact Hf|]. apply folded_nolf. intros [H|[]]. discriminate. }
  destruct (FindCrlf (t ++ 13 :: 10 :: q)) as [[v q']|] eqn:Ef; [|exfalso; apply FindCrlf_none in Ef; apply Ef; eauto].
  pose proof (proj1 (FindCrlf_spec _ _ _) Ef) as (line & L2 & Cv). destruct (headerLine_unique _ _ _ _ _ L L2) as [<- <-].
  exists v. eexists. split; [|exact Cv]. unfold rawHeader, rawValue, bind, allocStruct, onRest, goto, allocCString, leMem. rewrite He. cbn [rest used]. rewrite Ef. rewrite He. reflexivity.
Qed.

(** ** Two runs side by side *)
Lemma mv_any {A} b (p : P A) e f r u v a s1 : moves b p -> alike b f e -> p e (mkst r u) = Ok a s1 -> exists w, p (withNeed f e) (mkst r v) = Ok a (mkst (rest s1) w).
Proof.
  intros M L E. assert (L0 : alike b (eNeed e) e) by (split; [exact (proj1 L)|reflexivity]).
  pose proof (M e (eNeed e) r 0 u L0) as M0. rewrite withNeed_self, N.add_0_l, E in M0. pose proof (M e f r 0 v L) as M1. rewrite N.add_0_l in M1. rewrite M1.
  destruct (p e (mkst r 0)) as [a0 s0|s0| |]; try discriminate. injection M0 as -> ->. cbn [shiftRes rest]. eauto.
Qed.
(** The structured part of [oneHeader]. *)
Definition hdrAs (o : owner) (k : hkind) (multi : bool) (i : N) (a : hset) : P hset :=
  v <- parseSipX k ;; if multi then loopP (multiBody k (setCommon o i true)) (a, v) else pCRLF ;;; ret (setCommon o i false a v).
Lemma oneHeader_as o a n i k multi e s : needParse o e i = Some (k, multi) -> oneHeader o a n i e s = hdrAs o k multi i a e s.
Proof. intros H. unfold oneHeader, withEnv. rewrite H. reflexivity. Qed.
Lemma oneHeader_raw o a n i e s : needParse o e i = None -> oneHeader o a n i e s = (h <- rawHeader n i ;; ret (addRaw a h)) e s.
Proof. intros H. unfold oneHeader, withEnv. rewrite H. reflexivity. Qed.
Lemma mv_hdrAs b o k multi i a : moves b (hdrAs o k multi i a).
Proof. unfold hdrAs. apply mv_bind; [apply mv_sipX|]. intros v. pose proof (mv_sipX b). pose proof (mv_CRLF b). destruct multi; [apply mv_loopP; intros; unfold multiBody; mv|mv]. Qed.
Lemma multi_values k set e : forall n a v s x s', iterP n (multiBody k set) (a, v) e s = Ok x s' ->
  exists vs, x = fold_left set (v :: vs) a /\ forall b, iterP n (multiBody k set) (b, v) e s = Ok (fold_left set (v :: vs) b) s'.
Proof.
  induction n as [|n IH]; intros a v s x s' E; [discriminate|]. cbn [iterP] in *. unfold bind at 1 in E. unfold multiBody, onRest in E.
  assert (C : forall (q : forall b : hset, P ((hset * hval) + hset)), (forall b, multiBody k set (b, v) e s = q b e s) ->
    (exists y s1, forall b, q b e s = Ok (inr (set b v)) s1 /\ (y = tt)) \/ (exists w s1, forall b, q b e s = Ok (inl (set b v, w)) s1) \/ (forall b y s1, q b e s <> Ok y s1) ->
    exists vs, x = fold_left set (v :: vs) a /\ forall b, (y <- multiBody k set (b, v) ;; match y with inl a' => iterP n (multiBody k set) a' | inr z => ret z end) e s = Ok (fold_left set (v :: vs) b) s').
  { intros q Hq D. assert (E2 : (y <- multiBody k set (a, v) ;; match y with inl a' => iterP n (multiBody k set) a' | inr z => ret z end) e s = Ok x s') by exact E. unfold bind in *. rewrite Hq in E2.
    destruct D as [(y & s1 & D)|[(w & s1 & D)|D]].
    - exists []. rewrite (proj1 (D a)) in E2. cbn in E2. injection E2 as <- <-. split; [reflexivity|]. intros b. rewrite Hq, (proj1 (D b)). reflexivity.
    - rewrite D in E2. destruct (IH _ _ _ _ _ E2) as (vs & -> & H). exists (w :: vs). split; [reflexivity|]. intros b. rewrite Hq, D. apply H.
    - destruct (q a e s) as [y s1|s1| |] eqn:Ey; try discriminate. exfalso. exact (D _ _ _ Ey). }
  unfold multiBody at 1, onRest in C. cbn [fst snd] in C. destruct (rest s) as [|c r1] eqn:Er.
  { apply (C (fun b => ret (inr (set b v)))); [intros b; reflexivity|]. left. exists tt, s. intros b. split; reflexivity. }
  destruct (IsOnlyCRLF (c :: r1)) eqn:Ho.
  { apply (C (fun b => goto (tl r1) ;;; ret (inr (set b v)))); [intros b; reflexivity|]. left. exists tt. eexists. intros b. split; reflexivity. }
  destruct (ParseSWSMarkCanOmmit 44 (c :: r1)) as [[r' [|]] [|]] eqn:Em.
  { apply (C (fun b => goto r' ;;; (w <- parseSipX k ;; ret (inl (set b v, w))))); [intros b; reflexivity|]. right. unfold bind, goto, ret. destruct (parseSipX k e (mkst r' (used s))) as [w s1|s1| |]; [left; eauto|right; intros; discriminate..]. }
  all: apply (C (fun b => pCRLF ;;; ret (inr (set b v)))); [intros b; reflexivity|]; unfold bind, ret; destruct (pCRLF e s) as [[] s1|s1| |]; [left; exists tt, s1; intros b; split; reflexivity|right; right; intros; discriminate..].
Qed.
Lemma hdrAs_values o k multi i a e s x s' : hdrAs o k multi i a e s = Ok x s' ->
  exists v vs, (multi = false -> vs = []) /\ x = fold_left (setCommon o i multi) (v :: vs) a /\ forall b, hdrAs o k multi i b e s = Ok (fold_left (setCommon o i multi) (v :: vs) b) s'.
Proof.
  unfold hdrAs, bind. intros E. destruct (parseSipX k e s) as [v s1|s1| |]; try discriminate. destruct multi.
  - unfold loopP in *. destruct (multi_values _ _ _ _ _ _ _ _ _ E) as (vs & -> & H). exists v, vs. split; [discriminate|]. split; [reflexivity|]. intros b. apply H.
  - destruct (pCRLF e s1) as [x0 s2|s2| |]; try discriminate. injection E as <- <-. exists v, []. repeat split.
Qed.

Definition need (e : env) (i : N) : bool := match needParse OMsg e i with Some _ => true | None => false end.
Lemma need_sub e f i x : (forall i, f i = true -> eNeed e i = true) -> needParse OMsg (withNeed f e) i = Some x -> needParse OMsg e i = Some x.
Proof.
  intros Hf. unfold needParse. cbn [withNeed fHeaderAsRaw eNeed]. destruct (fHeaderAsRaw e); [exact (fun H => H)|]. destruct (Nat.eqb (slotOf OMsg i) 0); [discriminate|]. cbn [negb andb].
  destruct (contentHdr i); [exact (fun H => H)|]. cbn [orb]. destruct (f i) eqn:Ef; [|discriminate]. rewrite (Hf i Ef). exact (fun H => H).
Qed.
Lemma need_slot0 e i x : needParse OMsg e i = Some x -> slotOf OMsg i <> O.
Proof. destruct x as [k m]. intros H E. pose proof H as H1. apply need_slot in H1. rewrite E in H1. cbn in H1. injection H1 as <-. revert H. unfold needParse. destruct (fHeaderAsRaw e); [discriminate|]. cbn. discriminate. Qed.
Lemma need_inj e i j x : needParse OMsg e i = Some x -> slotOf OMsg j = slotOf OMsg i -> j = i.
Proof.
  intros H E. pose proof (need_slot0 e i x H) as H0. destruct x as [k m]. pose proof (need_slot _ _ _ _ _ H) as H1. rewrite <- E in H1, H0.
  pose proof (slotOf_in OMsg j H0) as Hj. cbn [slotTable In] in Hj. repeat (destruct Hj as [Hj|Hj]; [injection Hj as <- Hj; rewrite <- Hj in H1; cbn in H1; congruence|]). contradiction.
Qed.
(** What the two runs have collected: the values of the headers that both parse are the same, the others are missing in the second run, which has them as they are written. *)
Record besides (e e' : env) (a b : hset) : Prop := mkbesides {
  bs_len : List.length (hsCommon a) = List.length (slotIndexes OMsg) /\ List.length (hsCommon b) = List.length (slotIndexes OMsg);
  bs_common : forall i, slotOf OMsg i <> O -> nth (slotOf OMsg i) (hsCommon b) [] = if need e' i then nth (slotOf OMsg i) (hsCommon a) [] else [];
  bs_raw : hsRaw a = filter (fun h => negb (need e (rId h))) (hsRaw b);
  bs_there : forall i, need e i = true -> need e' i = false -> (nth (slotOf OMsg i) (hsCommon a) [] = [] <-> forall h, In h (hsRaw b) -> rId h <> i) }.
Lemma fold_set o i multi vs : forall a v, (multi = false -> vs = []) -> (slotOf o i < List.length (hsCommon a))%nat ->
  exists ws, ws <> [] /\ fold_left (setCommon o i multi) (v :: vs) a = mkhset (setNth (hsCommon a) (slotOf o i) (if multi then nth (slotOf o i) (hsCommon a) [] ++ ws else ws)) (hsRaw a) /\ ws = v :: vs.
Proof.
  intros a v Hm Hl. exists (v :: vs). split; [discriminate|]. split; [|reflexivity]. destruct multi; [apply fold_multi, Hl|]. rewrite (Hm eq_refl). reflexivity.
Qed.
Lemma besides_set e f i k multi v vs a b : (forall i, f i = true -> eNeed e i = true) -> needParse OMsg (withNeed f e) i = Some (k, multi) -> (multi = false -> vs = []) ->
  besides e (withNeed f e) a b -> besides e (withNeed f e) (fold_left (setCommon OMsg i multi) (v :: vs) a) (fold_left (setCommon OMsg i multi) (v :: vs) b).
Proof.
  intros Hf Hn Hm [(La & Lb) Hc Hr Ht]. pose proof (slot_bound OMsg i) as Hb. assert (Ni : need (withNeed f e) i = true) by (unfold need; rewrite Hn; reflexivity).
  pose proof (need_slot0 _ _ _ Hn) as N0. pose proof (Hc i N0) as Hi. rewrite Ni in Hi.
  destruct (fold_set OMsg i multi vs a v Hm) as (ws & Nw & -> & Ew); [rewrite La; exact Hb|]. destruct (fold_set OMsg i multi vs b v Hm) as (ws2 & _ & -> & Ew2); [rewrite Lb; exact Hb|]. rewrite <- Ew in Ew2. subst ws2. rewrite Hi.
  constructor; cbn [hsCommon hsRaw].
  - rewrite !setNth_len. split; assumption.
  - intros j Hj. destruct (Nat.eq_dec (slotOf OMsg i) (slotOf OMsg j)) as [Eq|Ne].
    + assert (j = i) by (apply (need_inj _ _ _ _ Hn); congruence). subst j. rewrite Ni, !setNth_nth by (rewrite ?La, ?Lb; exact Hb). reflexivity.
    + rewrite !setNth_nth_ne by exact Ne. apply Hc, Hj.
  - exact Hr.
  - intros j Nj Nj'. rewrite setNth_nth_ne; [apply Ht; assumption|]. intros Eq. assert (j = i) by (apply (need_inj _ _ _ _ Hn); congruence). subst j. congruence.
Qed.
Lemma besides_cleared e f i k multi v vs n t a b : (forall i, f i = true -> eNeed e i = true) -> needParse OMsg e i = Some (k, multi) -> needParse OMsg (withNeed f e) i = None -> (multi = false -> vs = []) ->
  besides e (withNeed f e) a b -> besides e (withNeed f e) (fold_left (setCommon OMsg i multi) (v :: vs) a) (addRaw b (mkraw i n t)).
Proof.
  intros Hf Hn Hn' Hm [(La & Lb) Hc Hr Ht]. pose proof (slot_bound OMsg i) as Hb. assert (Ni : need e i = true) by (unfold need; rewrite Hn; reflexivity). assert (Ni' : need (withNeed f e) i = false) by (unfold need; rewrite Hn'; reflexivity).
  destruct (fold_set OMsg i multi vs a v Hm) as (ws & Nw & -> & Ew); [rewrite La; exact Hb|].
  constructor; cbn [hsCommon hsRaw addRaw].
  - rewrite setNth_len. split; assumption.
  - intros j Hj. rewrite (Hc j Hj). destruct (Nat.eq_dec (slotOf OMsg i) (slotOf OMsg j)) as [Eq|Ne].
    + assert (j = i) by (apply (need_inj _ _ _ _ Hn); congruence). subst j. rewrite Ni'. reflexivity.
    + rewrite setNth_nth_ne by exact Ne. reflexivity.
  - rewrite filter_app, <- Hr. cbn. rewrite Ni. cbn. now rewrite app_nil_r.
  - intros j Nj Nj'. destruct (N.eq_dec i j) as [<-|Ne].
    + rewrite setNth_nth by (rewrite La; exact Hb). split.
      * intros E. exfalso. destruct multi; [apply app_eq_nil in E as [_ E]|]; exact (Nw E).
      * intros H. exfalso. apply (H (mkraw i n t)); [apply in_or_app; right; left; reflexivity|reflexivity].
    + rewrite setNth_nth_ne; [|intros Eq; apply Ne; symmetry; apply (need_inj _ _ _ _ Hn); congruence]. rewrite (Ht j Nj Nj'). split; intros H h Hh.
      * apply in_app_or in Hh as [Hh|[<-|[]]]; [now apply H|exact Ne].
      * apply H, in_or_app. now left.
Qed.
Lemma besides_raw e e' a b h : needParse OMsg e (rId h) = None -> needParse OMsg e' (rId h) = None -> besides e e' a b -> besides e e' (addRaw a h) (addRaw b h).
Proof.
  intros Hn Hn' [L Hc Hr Ht]. constructor; cbn [hsCommon hsRaw addRaw]; [exact L|exact Hc| |].
  - rewrite filter_app, <- Hr. cbn. unfold need at 1. rewrite Hn. reflexivity.
  - intros i Ni Ni'. rewrite (Ht i Ni Ni'). split; intros H x Hx.
    + apply in_app_or in Hx as [Hx|[<-|[]]]; [now apply H|]. intros Ei. subst i. unfold need in Ni. rewrite Hn in Ni. discriminate.
    + apply H, in_or_app. now left.
Qed.
Lemma besides_start e e' : besides e e' (emptyHdrs OMsg) (emptyHdrs OMsg).
Proof.
  constructor; cbn [emptyHdrs hsCommon hsRaw].
  - rewrite repeat_length. split; reflexivity.
  - intros i _. assert (Z : forall n j, nth j (repeat (@nil hval) n) [] = []) by (induction n as [|n IH]; intros [|j]; cbn; auto). rewrite Z. now destruct (need e' i).
  - reflexivity.
  - intros i _ _. split; [intros _ h []|]. intros _. assert (Z : forall n j, nth j (repeat (@nil hval) n) [] = []) by (induction n as [|n IH]; intros [|j]; cbn; auto). apply Z.
Qed.

(** ** The header section *)
(** There is an empty line, and the text before it is clean. *)
Definition hasEnd (r : bytes) : Prop := (exists b, r = 13 :: 10 :: b) \/ exists a b, r = a ++ 13 :: 10 :: 13 :: 10 :: b /\ clean (a ++ [13; 10; 13; 10]).
Lemma folded_not13 a b : ~ folded (a ++ 13 :: 10 :: 13 :: b).
Proof. intros H. destruct (H (a ++ [13]) (13 :: b)) as (x & t & E & W); [now rewrite <- app_assoc|]. injection E as <- _. destruct W; discriminate. Qed.
Lemma upto_not13 a b : ~ upto (a ++ 13 :: 10 :: 13 :: b).
Proof. intros H. destruct (H (a ++ [13]) 13 b) as [W|W]; [now rewrite <- app_assoc|discriminate..]. Qed.
Lemma hasEnd_line t q : tidy t -> ~ startsCRLF (t ++ 10 :: q) -> hasEnd (t ++ 10 :: q) -> folded t /\ hasEnd q.
Proof.
  intros (Hf & Hp) Hs [(b & E)|(a & b & E & C)]; [exfalso; apply Hs; exists b; exact E|].
  destruct (app_eq_app _ _ _ _ E) as (l & [(E1 & E2)|(E1 & E2)]).
  - subst t. destruct l as [|x l]; [discriminate|]. cbn in E2. injection E2 as <- E2. destruct l as [|y l].
    + cbn in E2. injection E2 as <-. split; [|left; eauto]. apply Hf. apply (clean_l _ [10; 13; 10]). rewrite <- app_assoc. exact C.
    + cbn in E2. injection E2 as <- E2. exfalso. destruct l as [|z l]; [discriminate|]. cbn in E2. injection E2 as <- E2. destruct l as [|w l].
      * apply (folded_not13 a []), Hf. apply (clean_l _ [10]). rewrite <- app_assoc. exact C.
      * cbn in E2. injection E2 as <- _. apply (upto_not13 a [10]). apply (Hp _ l); [|exact C]. now rewrite <- app_assoc.
  - destruct l as [|x l]; [discriminate|]. cbn in E2. injection E2 as <- E2. subst a. split.
    + apply Hf. apply (clean_l _ ((10 :: l) ++ [13; 10; 13; 10])). now rewrite app_assoc.
    + right. exists l, b. split; [exact E2|]. apply (clean_r (t ++ [10])). rewrite <- !app_assoc in *. exact C.
Qed.
Lemma hasEnd_folded t : tidy t -> ~ startsCRLF t -> ~ hasEnd t.
Proof.
  intros (_ & Hp) Hs [(b & E)|(a & b & E & C)]; [apply Hs; exists b; exact E|]. subst t. apply (upto_not13 a [10]). apply (Hp _ b); [|exact C]. now rewrite <- app_assoc.
Qed.
Lemma headers_suffix e : forall n a s x s', iterP n (headersBody (oneHeader OMsg)) a e s = Ok x s' -> suffix (rest s') (rest s).
Proof.
  induction n as [|n IH]; intros a s x s' E; [discriminate|]. cbn [iterP] in E. unfold bind at 1 in E. destruct (headersBody (oneHeader OMsg) a e s) as [[y|y] s1|s1| |] eqn:E1; try discriminate;
    assert (S1 : suffix (rest s1) (rest s)) by (eapply RawProofs.good_suffix; [apply (gd_headersBody 641 408 (oneHeader OMsg) a e s); [lia|intros; apply gd_oneHeader; lia]|exact E1]).
  - exact (suffix_trans _ _ _ (IH _ _ _ _ E) S1).
  - cbn in E. injection E as <- <-. exact S1.
Qed.
Lemma next_start e : forall n a s x s', iterP n (headersBody (oneHeader OMsg)) a e s = Ok x s' -> ~ startsWsp (rest s).
Proof.
  intros [|n] a s x s' E (y & t & Er & Hw); [discriminate|]. cbn [iterP] in E. unfold bind at 1 in E. unfold headersBody, onRest in E. rewrite Er in E.
  assert (Hc : IsCRLF (y :: t) = false) by (destruct Hw as [-> | ->]; destruct t; reflexivity). rewrite Hc in E. unfold bind at 1 in E.
  destruct (parseHeaderName e s) as [ni s1|s1| |] eqn:En; try discriminate. apply (headerName_start _ _ _ _ En). exists y, t. split; assumption.
Qed.
Lemma lockstep e f : memend e = None -> (forall i, f i = true -> eNeed e i = true) -> forall n a b r u v h s',
  besides e (withNeed f e) a b -> iterP n (headersBody (oneHeader OMsg)) a e (mkst r u) = Ok h s' -> hasEnd r ->
  exists hb w, iterP n (headersBody (oneHeader OMsg)) b (withNeed f e) (mkst r v) = Ok hb (mkst (rest s') w) /\ besides e (withNeed f e) h hb.
Proof.
  intros He Hf. assert (AL : alike false f e) by (split; [exact He|discriminate]). induction n as [|n IH]; intros a b r u v h s' B E Hend; [discriminate|]. cbn [iterP] in *. unfold bind at 1 in E. unfold bind at 1. unfold headersBody at 1 in E. unfold onRest at 1 in E.
  unfold headersBody at 1. unfold onRest at 1. cbn [rest] in *. destruct r as [|x r1] eqn:Er.
  { cbn in E |- *. injection E as <- <-. exists b, v. split; [reflexivity|exact B]. }
  destruct (IsCRLF (x :: r1)) eqn:Hc.
  { cbn in E |- *. injection E as <- <-. exists b, v. split; [reflexivity|exact B]. }
  rewrite <- Er in *. assert (Hnc : ~ startsCRLF r) by (intros (q & Eq); rewrite Er in *; rewrite Eq in Hc; discriminate). clear x r1 Er Hc. unfold bind at 1 in E. unfold bind at 1.
  destruct (parseHeaderName e (mkst r u)) as [[nm i] s1|s1| |] eqn:En; try discriminate. cbn [fst snd] in E. destruct (mv_any false _ e f r u v _ _ (mv_headerName false) AL En) as (w1 & En'). rewrite En'. cbn [fst snd].
  pose proof (td_headerName _ _ _ _ En) as (tn & Etn & Htn). cbn [rest] in Etn. destruct s1 as [r1 u1]. cbn [rest] in *.
  unfold bind at 1 in E. unfold bind at 1. destruct (oneHeader OMsg a nm i e (mkst r1 u1)) as [a2 s2|s2| |] eqn:Eo; try discriminate. cbn [ret] in E.
  assert (Eit : iterP n (headersBody (oneHeader OMsg)) a2 e s2 = Ok h s') by exact E. clear E. destruct s2 as [r2 u2].
  pose proof (headers_suffix _ _ _ _ _ _ Eit) as (t2 & Et2). cbn [rest] in Et2. pose proof (next_start _ _ _ _ _ _ Eit) as Nw. cbn [rest] in Nw.
  (* the other run reads the same line *)
  assert (L : (exists line, r1 = line ++ 10 :: r2 /\ tidy line) \/ tidyTo r1 [] /\ r2 = []).
  { destruct (needParse OMsg e i) as [[k multi]|] eqn:Np.
    - destruct (one_line _ _ _ _ _ _ _ _ _ _ Np Eo) as [(tl & E1 & F1)|E1]; cbn [rest] in *; [left|right; exact E1].
      exists (tl ++ [13]). split; [rewrite <- app_assoc; exact E1|]. apply tidy_app; [exact F1|]. apply tidy_of_folded, folded_nolf. intros [X1|[]]. discriminate.
    - rewrite (oneHeader_raw _ _ _ _ _ _ Np) in Eo. unfold bind in Eo. destruct (rawHeader nm i e (mkst r1 u1)) as [hh s3|s3| |] eqn:Eh; try discriminate. injection Eo as _ ->.
      apply rawHeader_ok in Eh as (_ & _ & line & (El & Fl & _) & _). cbn [rest] in El. left. exists line. split; [exact El|]. now apply tidy_of_folded. }
  destruct L as [(line & El & Fl)|((tl & El & Fl) & E2)].
  2: { exfalso. apply (hasEnd_folded r); [|exact Hnc|exact Hend]. rewrite app_nil_r in El. rewrite Etn, El. now apply tidy_app. }
  assert (Hend2 : folded (tn ++ line) /\ hasEnd r2). { apply (hasEnd_line (tn ++ line)); [now apply tidy_app|..]; rewrite <- app_assoc, <- El, <- Etn; assumption. }
  destruct Hend2 as [Fall Hend2].
  assert (G : exists b2 w2, oneHeader OMsg b nm i (withNeed f e) (mkst r1 w1) = Ok b2 (mkst r2 w2) /\ besides e (withNeed f e) a2 b2).
  { destruct (needParse OMsg (withNeed f e) i) as [[k multi]|] eqn:Np'.
    - pose proof (need_sub _ _ _ _ Hf Np') as Np. rewrite (oneHeader_as _ _ _ _ _ _ _ _ Np) in Eo. destruct (hdrAs_values _ _ _ _ _ _ _ _ _ Eo) as (v0 & vs & Hm & -> & Hv).
      destruct (mv_any false _ e f r1 u1 w1 _ _ (mv_hdrAs false OMsg k multi i b) AL (Hv b)) as (w2 & Ew). rewrite (oneHeader_as _ _ _ _ _ _ _ _ Np'). eexists. eexists. split; [exact Ew|]. apply (besides_set e f i k); assumption.
    - rewrite (oneHeader_raw _ _ _ _ _ _ Np'). destruct (needParse OMsg e i) as [[k multi]|] eqn:Np.
      + destruct (one_line _ _ _ _ _ _ _ _ _ _ Np Eo) as [(tl & E1 & F1)|((tl & E1 & F1) & E2)]; cbn [rest] in *.
        2: { exfalso. apply (hasEnd_folded r); [|exact Hnc|exact Hend]. rewrite app_nil_r in E1. rewrite Etn, E1. now apply tidy_app. }
        assert (Ftl : folded tl). { assert (Q : line = tl ++ [13]) by (apply (app_inv_tail (10 :: r2)); rewrite <- El, <- app_assoc; exact E1). rewrite Q in Fall. intros p q ->. destruct (Fall (tn ++ p) (q ++ [13])) as (z & l & Ez & W); [now rewrite <- !app_assoc|].
          destruct q as [|z' q]; cbn in Ez; injection Ez as <- _; [destruct W; discriminate|]. exists z', q. auto. }
        destruct (line_raw (withNeed f e) nm i r1 w1 r2 tl He E1 Ftl Nw) as (val & w2 & Ew & _). unfold bind. rewrite Ew. cbn [ret]. eexists. eexists. split; [reflexivity|].
        rewrite (oneHeader_as _ _ _ _ _ _ _ _ Np) in Eo. destruct (hdrAs_values _ _ _ _ _ _ _ _ _ Eo) as (v0 & vs & Hm & -> & _). apply (besides_cleared e f i k); assumption.
      + rewrite (oneHeader_raw _ _ _ _ _ _ Np) in Eo. unfold bind in Eo. destruct (rawHeader nm i e (mkst r1 u1)) as [hh s3|s3| |] eqn:Eh; try discriminate. injection Eo as <- ->.
        destruct (mv_any false _ e f r1 u1 w1 _ _ (mv_rawHeader false nm i) AL Eh) as (w2 & Ew). unfold bind. rewrite Ew. cbn [ret rest]. eexists. eexists. split; [reflexivity|].
        apply rawHeader_ok in Eh as (_ & Ei & _). rewrite <- Ei in Np, Np'. apply besides_raw; assumption. }
  destruct G as (b2 & w2 & -> & B2). cbn [ret]. exact (IH a2 b2 r2 u2 w2 h s' B2 Eit Hend2).
Qed.

Lemma startLine_start e s a s' : parseStartLine e s = Ok a s' -> ~ startsCRLF (rest s).
Proof.
  intros E (r & Er). unfold parseStartLine, onRest in E. rewrite Er in E. assert (V : versionStart (13 :: 10 :: r) = None) by (destruct r as [|? [|? [|? [|? [|? ?]]]]]; reflexivity). rewrite V in E.
  unfold parseRequestLine, parseMethod, onRest, bind in E. rewrite Er in E. assert (M : GetSipMethodIndex (13 :: 10 :: r) = Some (SIP_METHOD_UNKNOWN, 13 :: 10 :: r)) by reflexivity. rewrite M, N.eqb_refl in E.
  destruct (paCStringFromPos (13 :: 10 :: r) SIP_TOKEN e s) as [t s1|s1| |] eqn:E1; try discriminate. unfold paCStringFromPos in E1. rewrite Er, Nat.sub_diag in E1. cbn [firstn beq negb andb] in E1. destruct (negb _); [discriminate|].
  assert (Hs : span (inset SIP_TOKEN) (13 :: 10 :: r) = ([], 13 :: 10 :: r)) by (apply span_stop; reflexivity). rewrite Hs in E1. destruct (negb _); [discriminate|]. cbn [app] in E1. discriminate.
Qed.
(** ** Messages *)
Lemma msgBody_ext h h' : contentTypeOf h = contentTypeOf h' -> contentLengthOf h = contentLengthOf h' -> parseMsgBody h = parseMsgBody h'.
Proof. intros H1 H2. unfold parseMsgBody, parseSingleBody. rewrite H1, H2. reflexivity. Qed.
Lemma less_msg e f r u m s' : memend e = None -> (forall i, f i = true -> eNeed e i = true) -> parseMsg e (mkst r u) = Ok m s' -> (exists a b, r = a ++ 13 :: 10 :: 13 :: 10 :: b /\ clean (a ++ [13; 10; 13; 10])) ->
  exists m' w, parseMsg (withNeed f e) (mkst r u) = Ok m' (mkst (rest s') w) /\ mStart m' = mStart m /\ mBodies m' = mBodies m /\ besides e (withNeed f e) (mHdrs m) (mHdrs m').
Proof.
  intros He Hf E Hend. assert (AL : alike false f e) by (split; [exact He|discriminate]). unfold parseMsg in E |- *. unfold bind at 1 in E. unfold bind at 1.
  destruct (parseStartLine e (mkst r u)) as [l s1|s1| |] eqn:El; try discriminate. destruct (mv_any false _ e f r u u _ _ (mv_startLine false) AL El) as (w1 & ->). destruct (ln_startLine _ _ _ _ El) as (tl & Etl & Ftl). cbn [rest] in Etl.
  destruct s1 as [r1 u1]. cbn [rest] in *. unfold onRest in E |- *. cbn [rest] in *. destruct r1 as [|x r1]; [discriminate|]. remember (x :: r1) as r0. unfold bind at 1 in E. unfold bind at 1.
  destruct (parseHeaders OMsg e (mkst r0 u1)) as [h s2|s2| |] eqn:Eh; try discriminate. unfold bind at 1 in E. destruct (parseMsgBody h e s2) as [bs s3|s3| |] eqn:Eb; try discriminate. cbn [ret] in E. injection E as <- <-.
  unfold parseHeaders, loopP in Eh.
  assert (Hend0 : hasEnd r0).
  { apply (hasEnd_line (tl ++ [13])); [apply tidy_app; [exact Ftl|]; apply tidy_of_folded, folded_nolf; intros [X1|[]]; discriminate|..]; rewrite <- app_assoc; cbn [app]; rewrite <- Etl; [exact (startLine_start _ _ _ _ El)|right; exact Hend]. }
  destruct (lockstep e f He Hf _ _ _ _ _ w1 _ _ (besides_start e (withNeed f e)) Eh Hend0) as (hb & w2 & Eh' & B).
  change (iterP (S (List.length (rest (mkst r0 u1)))) (headersBody (oneHeader OMsg)) (emptyHdrs OMsg) (withNeed f e) (mkst r0 w1)) with (parseHeaders OMsg (withNeed f e) (mkst r0 w1)) in Eh'. rewrite Eh'.
  destruct s2 as [r2 u2]. cbn [rest] in *.
  assert (Cs : forall i, contentHdr i = true -> slotOf OMsg i <> O -> nth (slotOf OMsg i) (hsCommon hb) [] = nth (slotOf OMsg i) (hsCommon h) []).
  { intros i Ci Hi. rewrite (bs_common _ _ _ _ B i Hi). assert (Q : need (withNeed f e) i = true); [|now rewrite Q]. unfold need, needParse. cbn [withNeed fHeaderAsRaw]. apply Nat.eqb_neq in Hi. rewrite Hi, Ci. cbn [negb andb orb].
    unfold contentHdr in Ci. apply orb_prop in Ci as [Ci|Ci]; [apply orb_prop in Ci as [Ci|Ci]|]; apply N.eqb_eq in Ci; subst i; destruct (fHeaderAsRaw e); reflexivity. }
  assert (C1 : contentTypeOf hb = contentTypeOf h) by (unfold contentTypeOf; f_equal; exact (Cs SIP_HDR_CONTENT_TYPE eq_refl ltac:(discriminate))).
  assert (C2 : contentLengthOf hb = contentLengthOf h) by (unfold contentLengthOf; f_equal; exact (Cs SIP_HDR_CONTENT_LENGTH eq_refl ltac:(discriminate))).
  rewrite (msgBody_ext hb h C1 C2).
  unfold bind at 1. destruct (mv_any false _ e f r2 u2 w2 _ _ (mv_msgBody false h) AL Eb) as (w3 & ->). cbn [ret]. eexists. exists w3. split; [reflexivity|]. cbn [mStart mBodies mHdrs]. auto.
Qed.
