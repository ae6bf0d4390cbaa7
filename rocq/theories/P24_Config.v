(** Property C56: which headers are parsed. *)
From Verif Require Import Base Charset BaseLemmas Lws LwsSpec LwsProofs Str Monad Good Seq MethodTree HeaderTree Host Uri Tel GenParam Addr StartLine Headers HeadersSpec RawHeaders RawSpec RawProofs Msg MsgSpec MsgProofs MsgRt Room Shift Tidy LessParsing Nine NineParse Config ConfigProofs P05_Uri.

(** ** Parsing fewer headers *)
(** [lines head]: in this header section no line feed is escaped, and a line does not end between an opening bracket and the closing one (it may be continued there). *)
Definition lines (head : bytes) : Prop :=
  (forall a b, head <> a ++ s2b "\" ++ 10 :: b) /\
  (forall a x y b, head ++ CRLF ++ CRLF = a ++ s2b "[" ++ x ++ 10 :: y :: b -> ~ In 93 x -> y = 32 \/ y = 9).
Lemma lines_clean head : lines head -> clean (head ++ [13; 10; 13; 10]).
Proof.
  intros (H1 & H2). split; [|intros a x y b E Hx; destruct (H2 a x y b E Hx) as [-> | ->]; [left|right]; reflexivity].
  intros a b E. destruct (app_eq_app _ _ _ _ E) as (l & [(E1 & E2)|(E1 & E2)]).
  - destruct l as [|x [|y l]]; cbn in E2; try discriminate. injection E2 as <- <- _. exact (H1 a l E1).
  - do 4 (destruct l as [|? l]; [discriminate|]; cbn in E2; injection E2 as ? E2; subst). destruct l; discriminate.
Qed.
(** A message that is parsed is also parsed if fewer headers are to be parsed, with the same start line, the same bodies and the same position at the end. A header that is parsed in
    both settings has the same values. A header that is no longer parsed has none; if it was there it is among the headers that are kept as written, and these are otherwise the same, in the
    same order. *)
Theorem C56_less_parsing : forall e fewer r u m s' head body,
  (forall i, fewer i = true -> eNeed e i = true) -> roomFor e (u + 57 + 9 * len r) -> r = head ++ CRLF ++ CRLF ++ body -> lines head ->
  parseMsg e (mkst r u) = Ok m s' ->
  exists m' w, parseMsg (withNeed fewer e) (mkst r u) = Ok m' (mkst (rest s') w) /\ mStart m' = mStart m /\ mBodies m' = mBodies m /\
    (forall j i, j <> O -> nth_error (slotIndexes OMsg) j = Some i ->
       (isRead OMsg (withNeed fewer e) i -> nth j (hsCommon (mHdrs m')) [] = nth j (hsCommon (mHdrs m)) []) /\
       (~ isRead OMsg (withNeed fewer e) i -> nth j (hsCommon (mHdrs m')) [] = [] /\
          (isRead OMsg e i -> (nth j (hsCommon (mHdrs m)) [] <> [] <-> exists h, In h (hsRaw (mHdrs m')) /\ rId h = i)))) /\
    (forall parsed, (forall i, parsed i = true <-> exists k several, readAs OMsg e i k several) -> hsRaw (mHdrs m) = filter (fun h => negb (parsed (rId h))) (hsRaw (mHdrs m'))).
Proof.
  intros e f r u m s' head body Hf R Er Hl E. assert (G : forall g, parseMsg (withNeed g e) (mkst r u) = parseMsg (withMem None (withNeed g e)) (mkst r u)).
  { intros g. unfold roomFor in R. rewrite <- (withMem_self (withNeed g e)) at 1. change (memend (withNeed g e)) with (memend e). destruct (memend e) as [c|] eqn:Em; [|reflexivity]. apply (nine_enough _ _ _ _ _ _ n_msg); [lia|exact R]. }
  pose proof (G (eNeed e)) as G0. rewrite withNeed_self, E in G0. symmetry in G0.
  destruct (less_msg (withMem None e) f r u m s' eq_refl Hf G0) as (m' & w & E' & Es & Eb & B).
  { exists head, body. split; [exact Er|now apply lines_clean]. }
  change (withNeed f (withMem None e)) with (withMem None (withNeed f e)) in *. exists m', w. split; [rewrite G; exact E'|]. split; [exact Es|]. split; [exact Eb|]. destruct B as [_ Bc Br Bt].
  assert (NI : forall g j i, j <> O -> nth_error (slotIndexes OMsg) j = Some i -> slotOf OMsg i = j /\ (need (withMem None (withNeed g e)) i = true <-> isRead OMsg (withNeed g e) i) /\ exists k several, In (i, (k, several)) structured).
  { intros g j i Hj Ei. assert (Q : slotOf OMsg i = j /\ exists k several, In (i, (k, several)) structured).
    { cbn [slotIndexes] in Ei. destruct j as [|j]; [contradiction|]. do 18 (destruct j as [|j]; [injection Ei as <-; split; [reflexivity|]; eexists; eexists; cbn; repeat (first [left; reflexivity|right])|]). destruct j; discriminate. }
    destruct Q as (Q1 & k & several & Q2). split; [exact Q1|]. split; [|eauto]. unfold need. split.
    - intros H. destruct (needParse OMsg (withMem None (withNeed g e)) i) as [[k0 m0]|] eqn:En; [|discriminate]. apply readAs_need in En. exact (proj2 En).
    - intros H. assert (Ra : readAs OMsg (withMem None (withNeed g e)) i k several) by (split; assumption). apply readAs_need in Ra. now rewrite Ra. }
  split.
  - intros j i Hj Ei. destruct (NI f j i Hj Ei) as (Sj & Hn & _). destruct (NI (eNeed e) j i Hj Ei) as (_ & Hn0 & _). rewrite withNeed_self in Hn0. specialize (Bc i). rewrite Sj in Bc. specialize (Bc Hj). specialize (Bt i). rewrite Sj in Bt. split.
    + intros H. apply Hn in H. rewrite H in Bc. exact Bc.
    + intros H. assert (F : need (withMem None (withNeed f e)) i = false) by (destruct (need _ i); [exfalso; apply H, Hn; reflexivity|reflexivity]). rewrite F in Bc. split; [exact Bc|]. intros H0. apply Hn0 in H0. specialize (Bt H0 F). split; [intros Hv|intros (h & Hh & Eh) Q; exact (proj1 Bt Q h Hh Eh)].
      destruct (existsb (fun h => rId h =? i) (hsRaw (mHdrs m'))) eqn:Ex; [apply existsb_exists in Ex as (h & Hh & Eh); apply N.eqb_eq in Eh; eauto|]. exfalso. apply Hv, Bt. intros h Hh Eh.
      assert (Q : existsb (fun h => rId h =? i) (hsRaw (mHdrs m')) = true) by (apply existsb_exists; exists h; split; [exact Hh|now apply N.eqb_eq]). congruence.
  - intros p Hp. rewrite Br. apply filter_ext. intros h. f_equal. unfold need. specialize (Hp (rId h)). destruct (needParse OMsg (withMem None e) (rId h)) as [[k m0]|] eqn:En.
    + symmetry. apply Hp. exists k, m0. apply (readAs_need OMsg (withMem None e)) in En. exact En.
    + destruct (p (rId h)) eqn:Ep; [|reflexivity]. destruct (proj1 Hp eq_refl) as (k & m0 & Ra). apply (readAs_need OMsg (withMem None e)) in Ra. congruence.
Qed.
Print Assumptions C56_less_parsing.
(** An example: From and Via are no longer parsed, Contact and the body are. *)
Definition fewOnes (i : N) : bool := negb (i =? SIP_HDR_FROM) && negb (i =? SIP_HDR_VIA).
Definition exHead : bytes := s2b "INVITE sip:h SIP/2.0" ++ CRLF ++ s2b "v: SIP/2.0/UDP [::1],SIP/2.0/UDP b" ++ CRLF ++ s2b "Foo: y" ++ CRLF ++ s2b "f: ""A"" <sip:a@h>" ++ CRLF ++ s2b " ;tag=1" ++ CRLF ++ s2b "m: <sip:c>" ++ CRLF ++ s2b "Via: SIP/2.0/UDP c" ++ CRLF ++ s2b "c: a/b" ++ CRLF ++ s2b "l: 3".
(** A test for [lines]. *)
Fixpoint linesTest (opened : bool) (t : bytes) : bool :=
  match t with
  | [] => true
  | x :: t' =>
      (if x =? 92 then match t' with y :: _ => negb (y =? 10) | [] => true end else true) &&
      (if (x =? 10) && opened then match t' with y :: _ => isWsp y | [] => true end else true) &&
      linesTest (if x =? 91 then true else if x =? 93 then false else opened) t'
  end.
Lemma linesTest_ok : forall t opened, linesTest opened t = true ->
  (forall a b, t <> a ++ 92 :: 10 :: b) /\ (forall a x y b, t = a ++ 91 :: x ++ 10 :: y :: b -> ~ In 93 x -> wsp y) /\ (opened = true -> forall x y b, t = x ++ 10 :: y :: b -> ~ In 93 x -> wsp y).
Proof.
  induction t as [|z t IH]; intros o H; [split; [intros [|? ?]; discriminate|split; [intros [|? ?]|intros _ [|? ?]]; discriminate]|]. cbn [linesTest] in H. apply andb_prop in H as [H H3]. apply andb_prop in H as [H1 H2]. destruct (IH _ H3) as (I1 & I2 & I3).
  split; [|split].
  - intros [|c a] b E; injection E as -> E; [subst t; discriminate|exact (I1 a b E)].
  - intros [|c a] x y b E Hx; injection E as -> E; [exact (I3 eq_refl x y b E Hx)|exact (I2 a x y b E Hx)].
  - intros -> [|c x] y b E Hx; injection E as -> E; [subst t; cbn in H2; now apply isWsp_spec|]. apply (I3 ltac:(destruct (c =? 91); [reflexivity|]; destruct (N.eqb_spec c 93) as [->|]; [exfalso; apply Hx; now left|reflexivity]) x y b E). intros Q. apply Hx. now right.
Qed.
Lemma linesTest_lines head : linesTest false (head ++ CRLF ++ CRLF) = true -> lines head.
Proof.
  intros H. destruct (linesTest_ok _ _ H) as (H1 & H2 & _). split; [intros a b ->; apply (H1 a (b ++ CRLF ++ CRLF)); now rewrite <- !app_assoc|]. intros a x y b E Hx. exact (H2 a x y b E Hx).
Qed.
Example C56_less_case : let r := exHead ++ CRLF ++ CRLF ++ s2b "abc" in let e := exNet (Some 300000) in let e' := withNeed fewOnes e in
  (forall i, fewOnes i = true -> eNeed e i = true) /\ roomFor e (8 + 57 + 9 * len r) /\ lines exHead /\
  exists m m' s' s2, parseMsg e (mkst r 8) = Ok m s' /\ parseMsg e' (mkst r 8) = Ok m' s2 /\ rest s' = s2b "abc" /\ rest s2 = s2b "abc" /\
    map rId (hsRaw (mHdrs m)) = [SIP_HDR_UNKNOWN] /\ map rId (hsRaw (mHdrs m')) = [SIP_HDR_VIA; SIP_HDR_UNKNOWN; SIP_HDR_FROM; SIP_HDR_VIA] /\
    map rValue (hsRaw (mHdrs m')) = [s2b "SIP/2.0/UDP [::1],SIP/2.0/UDP b"; s2b "y"; s2b """A"" <sip:a@h>" ++ CRLF ++ s2b " ;tag=1"; s2b "SIP/2.0/UDP c"] /\
    List.length (nth 1 (hsCommon (mHdrs m)) []) = 3%nat /\ nth 3 (hsCommon (mHdrs m')) [] = nth 3 (hsCommon (mHdrs m)) [] /\ nth 3 (hsCommon (mHdrs m)) [] <> [] /\ List.length (mBodies m') = 1%nat.
Proof.
  cbv zeta. split; [reflexivity|]. split; [vm_compute; discriminate|]. split; [apply linesTest_lines; vm_compute; reflexivity|].
  eexists. eexists. eexists. eexists. split; [vm_compute; reflexivity|]. split; [vm_compute; reflexivity|]. repeat (split; [reflexivity|]). split; [vm_compute; discriminate|reflexivity].
Qed.
(** Neither condition on the lines can be left out, and the empty line cannot either: these are parsed, but not if From (the first two) or Via (the third) is not to be parsed. *)
Definition statusOK (t : bytes) : st := mkst (s2b "SIP/2.0 200 OK" ++ CRLF ++ t) 8.
Theorem C56_lines_refuted : forall mem, In mem [None; Some 100000] ->
  (forall t, In t [s2b "f: ""a\" ++ [10] ++ s2b """ <sip:h>" ++ CRLF ++ CRLF; s2b "f: <sip:h>;x=[" ++ [10] ++ s2b "]" ++ CRLF ++ CRLF; s2b "v: SIP/2.0/UDP h"] ->
   exists m s' s2, parseMsg (exNet mem) (statusOK t) = Ok m s' /\ parseMsg (withNeed fewOnes (exNet mem)) (statusOK t) = Fail s2).
Proof.
  intros mem Hm t Ht. destruct Hm as [<-|[<-|[]]]; (destruct Ht as [<-|[<-|[<-|[]]]]; eexists; eexists; eexists; split; vm_compute; reflexivity).
Qed.
Print Assumptions C56_lines_refuted.

(** ** Whose settings *)
(** Contexts and their tables, over any history of a program: the settings behave like sheets of paper (ConfigProofs.v, [sstep]): a new context gets the sheet of the package,
    setting NeedParse through a context writes on its sheet, Clone makes a new sheet with the same content. In particular a program crashes in one model iff it crashes in the other. *)
Theorem C56_settings : forall history, match run start history, srun sstart history with
  | Some w, Some v => forall c i, needAt w c i = setting v c i
  | None, None => True
  | _, _ => False
  end.
Proof.
  intros os. destruct holds_start as (ts & H). pose proof (holds_run os _ _ _ H) as R. destruct (run start os) as [w|], (srun sstart os) as [v|]; auto. destruct R as (ts' & R). exact (holds_setting _ _ _ R).
Qed.
Print Assumptions C56_settings.
(** What a message is parsed to with context [c] when the other settings are those of [e]. *)
Definition settingsOf (w : world) (c : nat) : list (option bool) := map (needAt w c) (seq 0 headerTypes).
Definition parseWith (w : world) (c : nat) (e : env) (s : st) : res msg := parseMsg (withNeed (fun i => match nth (N.to_nat i) (settingsOf w c) None with Some b => b | None => false end) e) s.
Lemma parseWith_ext w w' c c' e s : (forall i, needAt w c i = needAt w' c' i) -> parseWith w c e s = parseWith w' c' e s.
Proof. intros H. unfold parseWith. assert (Q : settingsOf w c = settingsOf w' c') by (apply map_ext; exact H). now rewrite Q. Qed.
(** [leavesAlone c o]: step [o] of the program neither writes NeedParse through context [c], nor replaces its table, nor takes its table for another context (ConfigProofs.v).
    A context that has just cloned a table (its own, or that of another context [d]) has the settings of [d] and keeps them, whatever the program does through other contexts. *)
Theorem C56_own_table : forall history c d later w w1 w2, run start history = Some w -> step w (CloneFrom c d) = Some w1 -> Forall (leavesAlone c) later -> run w1 later = Some w2 ->
  (forall i, needAt w2 c i = needAt w d i) /\ forall e s, parseWith w2 c e s = parseWith w d e s.
Proof.
  intros os c d later w w1 w2 E E1 L E2. destruct (run_sheets _ _ E) as (v & ts & Ev & H). pose proof (holds_step _ _ _ (CloneFrom c d) H) as Hs. rewrite E1 in Hs. destruct (sstep v (CloneFrom c d)) as [v1|] eqn:Ev1; [|contradiction]. destruct Hs as (ts1 & H1).
  pose proof (holds_run later _ _ _ H1) as R. rewrite E2 in R. destruct (srun v1 later) as [v2|] eqn:Ev2; [|contradiction]. destruct R as (ts2 & H2).
  assert (Q : forall i, needAt w2 c i = needAt w d i).
  { intros i. rewrite (holds_setting _ _ _ H2), (holds_setting _ _ _ H), (alone_run _ _ _ _ (holds_bounded _ _ _ H1) (clone_owns _ _ _ _ (holds_bounded _ _ _ H) Ev1) L Ev2). apply (clone_setting _ _ _ _ (holds_bounded _ _ _ H) Ev1). }
  split; [exact Q|]. intros e s. now apply parseWith_ext.
Qed.
Print Assumptions C56_own_table.
(** And the other way round: what the program writes through a context that has cloned its table changes nothing for the others. Leaving out these steps of the program gives the same settings
    of every other context. *)
Theorem C56_own_edits : forall history c d later w w1 w2, run start history = Some w -> step w (CloneFrom c d) = Some w1 ->
  Forall (fun o => (exists i b, o = SetNeed c i b) \/ leavesAlone c o) later -> run w1 later = Some w2 ->
  forall without, without = filter (fun o => match o with SetNeed c' _ _ => negb (Nat.eqb c' c) | _ => true end) later ->
  exists w2', run w1 without = Some w2' /\ forall c', c' <> c -> (forall i, needAt w2' c' i = needAt w2 c' i) /\ forall e s, parseWith w2' c' e s = parseWith w2 c' e s.
Proof.
  intros os c d later w w1 w2 E E1 L E2 wo Ewo. destruct (run_sheets _ _ E) as (v & ts & Ev & H). pose proof (holds_step _ _ _ (CloneFrom c d) H) as Hs. rewrite E1 in Hs. destruct (sstep v (CloneFrom c d)) as [v1|] eqn:Ev1; [|contradiction]. destruct Hs as (ts1 & H1).
  pose proof (holds_run later _ _ _ H1) as R. rewrite E2 in R. destruct (srun v1 later) as [v2|] eqn:Ev2; [|contradiction]. destruct R as (ts2 & H2).
  assert (L' : Forall (fun o => own c o = true \/ leavesAlone c o) later). { eapply Forall_impl; [|exact L]. intros o [(i & b & ->)|Q]; [left; cbn; apply Nat.eqb_refl|right; exact Q]. }
  assert (B0 : but c v1 v1) by (constructor; reflexivity).
  destruct (but_run later c v1 v1 v2 (holds_bounded _ _ _ H1) (clone_owns _ _ _ _ (holds_bounded _ _ _ H) Ev1) L' B0 Ev2) as (v2' & Ev2' & B & Ow).
  assert (Ef : filter (fun o => negb (own c o)) later = wo) by (rewrite Ewo; apply filter_ext; intros [|? ? ?|? ?|? ?]; reflexivity). rewrite Ef in Ev2'.
  pose proof (holds_run wo _ _ _ H1) as R'. rewrite Ev2' in R'. destruct (run w1 wo) as [w2'|]; [|contradiction]. destruct R' as (ts2' & H2'). exists w2'. split; [reflexivity|]. intros c' Hc.
  assert (Q : forall i, needAt w2' c' i = needAt w2 c' i) by (intros i; rewrite (holds_setting _ _ _ H2), (holds_setting _ _ _ H2'); now apply (but_setting c)). split; [exact Q|]. intros e s. now apply parseWith_ext.
Qed.
Print Assumptions C56_own_edits.
(** Cloning changes nothing by itself. *)
Theorem C56_clone_same : forall history c w w1, run start history = Some w -> step w (CloneFrom c c) = Some w1 -> forall c' i, needAt w1 c' i = needAt w c' i.
Proof.
  intros os c w w1 E E1 c' i. destruct (run_sheets _ _ E) as (v & ts & Ev & H). pose proof (holds_step _ _ _ (CloneFrom c c) H) as Hs. rewrite E1 in Hs. destruct (sstep v (CloneFrom c c)) as [v1|] eqn:Ev1; [|contradiction]. destruct Hs as (ts1 & H1).
  destruct (clone_setting _ _ _ _ (holds_bounded _ _ _ H) Ev1) as (S1 & S2). rewrite (holds_setting _ _ _ H1), (holds_setting _ _ _ H). destruct (Nat.eq_dec c' c) as [->|Nc]; [apply S1|now apply S2].
Qed.
Print Assumptions C56_clone_same.
(** Without Clone the contexts do not have settings of their own: in a program that only makes contexts and sets NeedParse all contexts, also those made later, have the same settings. *)
Theorem C56_shared : forall history w, Forall (fun o => match o with NewCtx | SetNeed _ _ _ => True | _ => False end) history -> run start history = Some w ->
  forall c c' i, (c < List.length (wCtxs w))%nat -> (c' < List.length (wCtxs w))%nat -> needAt w c i = needAt w c' i.
Proof.
  intros os w L E c c' i Hc Hc'. destruct (run_sheets _ _ E) as (v & ts & Ev & H). pose proof (plain_run os sstart v (Forall_nil _) L Ev) as Z. rewrite (h_ctxs _ _ _ H), map_length in Hc, Hc'.
  rewrite !(holds_setting _ _ _ H). unfold setting. destruct (nth_error (whose v) c) as [s|] eqn:Es; [|apply nth_error_None in Es; lia]. destruct (nth_error (whose v) c') as [s'|] eqn:Es'; [|apply nth_error_None in Es'; lia].
  rewrite Forall_forall in Z. rewrite (Z s (nth_error_In _ _ Es)), (Z s' (nth_error_In _ _ Es')). reflexivity.
Qed.
Print Assumptions C56_shared.
(** Hence contexts are not independent by default: after clearing NeedParse of Via through the first of two new contexts, the second one does not parse Via either, and neither does
    a context made afterwards; with Clone, they do. *)
Definition via : nat := N.to_nat SIP_HDR_VIA.
Theorem C56_independent_refuted : exists w, run start [NewCtx; NewCtx; SetNeed 0 via false; NewCtx] = Some w /\ needAt w 1 via = Some false /\ needAt w 2 via = Some false.
Proof. eexists. split; [vm_compute; reflexivity|]. split; vm_compute; reflexivity. Qed.
Print Assumptions C56_independent_refuted.
Example C56_own_case : exists w w1 w2 w2', run start [NewCtx; NewCtx; SetNeed 1 20 false] = Some w /\ step w (CloneFrom 0 0) = Some w1 /\
  Forall (leavesAlone 0) [SetNeed 1 via false; NewCtx; CloneFrom 2 1; CopyFrom 1 2] /\ run w1 [SetNeed 1 via false; NewCtx; CloneFrom 2 1; CopyFrom 1 2] = Some w2 /\ needAt w2 0 via = Some true /\ needAt w2 1 via = Some false /\ needAt w2 0 20 = Some false /\
  run w1 [SetNeed 0 via false; NewCtx] = Some w2' /\ needAt w2' 0 via = Some false /\ needAt w2' 1 via = Some true /\ needAt w2' 2 via = Some true.
Proof.
  eexists. eexists. eexists. eexists. split; [vm_compute; reflexivity|]. split; [vm_compute; reflexivity|]. split; [repeat constructor; discriminate|]. split; [vm_compute; reflexivity|]. repeat (split; [vm_compute; reflexivity|]). vm_compute. reflexivity.
Qed.

(** ** The content headers *)
(** What is put where a structured header is expected is a structured header, and what is put into the list of the headers that are kept as written is one of those, if NeedParse is set; if it is not set,
    this is so in exactly these cases: not with ParseSipHeaderAsRaw for the three content headers, and not for Content-Length and Content-Disposition of a body part. *)
Definition rightKind (o : object) (p : place) : Prop := match o, p with Structured, InSlot | AsWritten, InList => True | _, _ => False end.
Theorem C56_right_kind : forall o rawMode flag i,
  rightKind (objectMade o rawMode flag i) (placePut o rawMode flag i) <->
  flag = true \/ ~ (if rawMode then In i [SIP_HDR_CONTENT_TYPE; SIP_HDR_CONTENT_LENGTH; SIP_HDR_CONTENT_DISPOSITION] else o = OBody /\ In i [SIP_HDR_CONTENT_LENGTH; SIP_HDR_CONTENT_DISPOSITION]).
Proof.
  intros o rawMode flag i. unfold objectMade, placePut. destruct flag; [rewrite andb_true_r; destruct (setterNeeds o rawMode true i); cbn; tauto|]. rewrite andb_false_r.
  assert (C : contentHdr i = true <-> In i [SIP_HDR_CONTENT_TYPE; SIP_HDR_CONTENT_LENGTH; SIP_HDR_CONTENT_DISPOSITION]).
  { unfold contentHdr. rewrite !orb_true_iff, !N.eqb_eq. cbn. intuition. }
  assert (B : negb (Nat.eqb (slotOf OBody i) 0) = true <-> In i [SIP_HDR_CONTENT_LENGTH; SIP_HDR_CONTENT_DISPOSITION]).
  { unfold slotOf. cbn [slotTable lookupSlot]. destruct (N.eqb_spec i SIP_HDR_CONTENT_TYPE) as [->|]; [cbn; split; [discriminate|intros [Q|[Q|[]]]; discriminate]|]. destruct (N.eqb_spec i SIP_HDR_CONTENT_LENGTH) as [->|]; [cbn; tauto|].
    destruct (N.eqb_spec i SIP_HDR_CONTENT_DISPOSITION) as [->|]; [cbn; tauto|]. cbn. split; [discriminate|]. intros [Q|[Q|[]]]; congruence. }
  unfold setterNeeds. destruct rawMode.
  - destruct (contentHdr i); cbn; [split; [contradiction|intros [Q|Q]; [discriminate|apply Q, C; reflexivity]]|]. split; [|trivial]. intros _. right. intros Q. apply C in Q. discriminate.
  - destruct o; [rewrite andb_false_r; cbn; split; [intros _; right; intros [Q _]; discriminate|trivial]|]. destruct (negb _); cbn; [split; [contradiction|intros [Q|Q]; [discriminate|apply Q; split; [reflexivity|]; apply B; reflexivity]]|].
    split; [|trivial]. intros _. right. intros [_ Q]. apply B in Q. discriminate.
Qed.
Print Assumptions C56_right_kind.
Theorem C56_cleared_content_refuted : exists o i, ~ rightKind (objectMade o false false i) (placePut o false false i).
Proof. exists OBody, SIP_HDR_CONTENT_LENGTH. exact (fun H => H). Qed.
Print Assumptions C56_cleared_content_refuted.
(** The model of parsing (Msg.v) decides in the same way wherever the right kind comes out. *)
Theorem C56_decision : forall o e i, rightKind (objectMade o (fHeaderAsRaw e) (eNeed e i) i) (placePut o (fHeaderAsRaw e) (eNeed e i) i) -> (o = OMsg -> contentHdr i = true -> eNeed e i = true) ->
  infoOf i <> None -> (exists k, In (i, k) structured) -> (needParse o e i <> None <-> placePut o (fHeaderAsRaw e) (eNeed e i) i = InSlot).
Proof.
  intros o e i K C _ (k & S1). apply C56_right_kind in K. unfold needParse, placePut, setterNeeds. assert (Q : (match infoOf i with Some x => match hiKind x with Some k0 => Some (k0, hiMulti x) | None => None end | None => None end) <> None) by (destruct k as [k0 sv]; cbn in S1; repeat (destruct S1 as [S1|S1]; [injection S1 as <- <- <-; discriminate|]); contradiction).
  destruct (fHeaderAsRaw e).
  - destruct (contentHdr i); split; auto; intros; try discriminate; try contradiction; congruence.
  - destruct o.
    + destruct (contentHdr i) eqn:Ec; [rewrite (C eq_refl eq_refl)|]; cbn [orb]; rewrite ?andb_true_r; (destruct (negb _ && _)%bool || destruct (negb _)); split; auto; intros; try discriminate; try contradiction; congruence.
    + assert (Z : (contentHdr i || eNeed e i)%bool = true \/ negb (Nat.eqb (slotOf OBody i) 0) = false).
      { destruct (contentHdr i) eqn:Ec; [now left|]. right. unfold slotOf. cbn [slotTable lookupSlot]. unfold contentHdr in Ec. apply orb_false_iff in Ec as [Ec E3]. apply orb_false_iff in Ec as [E1 E2]. rewrite E1, E2, E3. reflexivity. }
      destruct Z as [-> | ->]; cbn [andb]; rewrite ?andb_true_r; [destruct (negb _)|]; split; auto; intros; try discriminate; try contradiction; congruence.
Qed.
Print Assumptions C56_decision.
