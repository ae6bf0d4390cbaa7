(** C67: what is in the message after a failed Parse. *)
From Verif Require Import Base BaseLemmas Charset Num Lws Str Monad Good Inv Rt MethodTree HeaderTree Lookup Host Uri Tel GenParam Addr StartLine Headers RawHeaders Msg MsgSpec MsgProofs MsgRt Errors Left P05_Uri P33_ErrorNames P34_ErrorParts.
From Verif Require MemHeadersProofs.
From Coq Require Import String.
Local Open Scope N_scope.

(** ** Specification *)
(** Behind "SIP/" there are digits [major] and a dot, but no digit behind it; and there is memory for them. *)
Definition dotOnly (e : env) (r : bytes) (u : N) (major : bytes) : Prop :=
  major <> [] /\ forallb IsDigit major = true /\ (exists r1, r = major ++ 46 :: r1 /\ stops IsDigit r1 = true) /\ ltMem e (u + 2 + len major + 1) = true.
(** A version that cannot be read leaves the digits with the dot, or nothing. *)
Definition versionLeft (e : env) (r : bytes) (u : N) (v : version) : Prop :=
  (exists major, dotOnly e r u major /\ v = VOther (major ++ [46])) \/ (forall major, ~ dotOnly e r u major) /\ v = VOther [].
(** The start line that is left if the part [g] is wrong: a status line, with the parts that were read of a status line, and no more than the version of a request line. *)
Definition lineLeft (e : env) (s : st) (g : linePart) (l : startline) : Prop :=
  match g with
  | RMethod | RSpace1 | RUri | RSpace2 => l = SStatus (VOther []) 0 []
  | RVersion => exists m s1 s2 a s3 s4 v, parseMethod e s = Ok m s1 /\ expect 32 e s1 = Ok tt s2 /\ parseAddrSpec e s2 = Ok a s3 /\ expect 32 e s3 = Ok tt s4 /\ l = SStatus v 0 [] /\
      match versionStart (rest s4) with None => v = VOther [] | Some r => versionLeft e r (used s4) v end
  | REnd => exists m s1 s2 a s3 s4 v s5, parseMethod e s = Ok m s1 /\ expect 32 e s1 = Ok tt s2 /\ parseAddrSpec e s2 = Ok a s3 /\ expect 32 e s3 = Ok tt s4 /\ parseVersion e s4 = Ok v s5 /\ l = SStatus v 0 []
  | TVersion => exists r v, versionStart (rest s) = Some r /\ versionLeft e r (used s) v /\ l = SStatus v 0 []
  | TSpace1 | TCode => exists r v s1, versionStart (rest s) = Some r /\ parseVersionAfter e (mkst r (used s)) = Ok v s1 /\ l = SStatus v 0 []
  | TSpace2 | TReason => exists r v s1 s2 n s3, versionStart (rest s) = Some r /\ parseVersionAfter e (mkst r (used s)) = Ok v s1 /\ expect 32 e s1 = Ok tt s2 /\ pUIntW 65536 e s2 = Ok n s3 /\ l = SStatus v n []
  | TEnd => exists r v s1 s2 n s3 s4 t s5, versionStart (rest s) = Some r /\ parseVersionAfter e (mkst r (used s)) = Ok v s1 /\ expect 32 e s1 = Ok tt s2 /\ pUIntW 65536 e s2 = Ok n s3 /\ expect 32 e s3 = Ok tt s4 /\
      paEscapableEmpty SIP_REASON_PHRASE e s4 = Ok t s5 /\ l = SStatus v n t
  end.
(** The values that were read before the fault in a header that may have several. *)
Inductive valuesLeft (e : env) (k : hkind) : st -> list hval -> Prop :=
| VLnow s s' : parseSipX k e s = Fail s' -> valuesLeft e k s []
| VLend s v s1 s' : parseSipX k e s = Ok v s1 -> rest s1 <> [] -> IsOnlyCRLF (rest s1) = false -> (forall r, ParseSWSMarkCanOmmit 44 (rest s1) <> (r, true, true)) -> pCRLF e s1 = Fail s' -> valuesLeft e k s [v]
| VLmore s v s1 r vs : parseSipX k e s = Ok v s1 -> rest s1 <> [] -> IsOnlyCRLF (rest s1) = false -> ParseSWSMarkCanOmmit 44 (rest s1) = (r, true, true) -> valuesLeft e k (mkst r (used s1)) vs -> valuesLeft e k s (v :: vs).
(** The values [vs] are added behind those there are of the header with index [i]. *)
Definition withValues (o : owner) (i : N) (vs : list hval) (a h : hset) : Prop :=
  hsRaw h = hsRaw a /\ List.length (hsCommon h) = List.length (hsCommon a) /\ forall j, nth j (hsCommon h) [] = nth j (hsCommon a) [] ++ (if Nat.eqb j (slotOf o i) then vs else []).
(** The headers that are left: those in front of the wrong one, and of that one the values that were read if it may have several. *)
Definition headersLeft (e : env) (s : st) (h : hset) : Prop :=
  exists a s1 f s', headersRead OMsg e (emptyHdrs OMsg) s a s1 /\ faultAt OMsg e s1 f s' /\
    (h = a /\ (f = InName \/ f = InRaw \/ exists n i s2 k, parseHeaderName e s1 = Ok (n, i) s2 /\ needParse OMsg e i = Some (k, false)) \/
     exists n i s2 k vs, parseHeaderName e s1 = Ok (n, i) s2 /\ needParse OMsg e i = Some (k, true) /\ valuesLeft e k s2 vs /\ withValues OMsg i vs a h).
(** Parts of a multipart body. *)
Inductive partsGot (e : env) (dl : bytes) : list body -> st -> list body -> st -> Prop :=
| PGnone bs s : partsGot e dl bs s bs s
| PGone bs s b s1 bs' s' : multipartBody dl bs e s = Ok (inl (bs ++ [b])) s1 -> partsGot e dl (bs ++ [b]) s1 bs' s' -> partsGot e dl bs s bs' s'.
(** The bodies that are left: the parts that are complete. *)
Definition bodiesLeft (e : env) (h : hset) (s : st) (bs : list body) : Prop :=
  (exists b r s1 f s', multipartWith h b /\ stripPrefix (45 :: 45 :: b) (rest s) = Some r /\ partsGot e (13 :: 10 :: 45 :: 45 :: b) [] (mkst r (used s)) bs s1 /\ partFault e (13 :: 10 :: 45 :: 45 :: b) s1 f s') \/
  (exists f s', wrongBody e h s f s' /\ inParts f = false /\ bs = []).
(** What a Parse that fails leaves in the message. *)
Definition leavesMsg (e : env) (s : st) (m : msg) : Prop :=
  (exists g s', wrongPart e s g s' /\ lineLeft e s g (mStart m) /\ mHdrs m = emptyHdrs OMsg /\ mBodies m = []) \/
  exists s1, parseStartLine e s = Ok (mStart m) s1 /\
    (rest s1 = [] /\ mHdrs m = emptyHdrs OMsg /\ mBodies m = [] \/
     rest s1 <> [] /\ headersLeft e s1 (mHdrs m) /\ mBodies m = [] \/
     rest s1 <> [] /\ exists s2, parseHeaders OMsg e s1 = Ok (mHdrs m) s2 /\ bodiesLeft e (mHdrs m) s2 (mBodies m)).

(** ** Proofs *)
Lemma leftIter_fuel {A B C} (body : A -> P (A + B)) (atFail : A -> env -> st -> C) : progresses body ->
  forall f g a e s, (List.length (rest s) < f)%nat -> (List.length (rest s) < g)%nat -> leftIter f body atFail a e s = leftIter g body atFail a e s.
Proof.
  intros Pr. induction f as [|f IH]; intros g a e s Hf Hg; [lia|]. destruct g as [|g]; [lia|]. cbn [leftIter].
  destruct (body a e s) as [[a'|b] s'|s'| |] eqn:E; try reflexivity. apply Pr in E. apply IH; lia.
Qed.
Lemma leftLoop_unfold {A B C} (body : A -> P (A + B)) (atFail : A -> env -> st -> C) a e s : progresses body ->
  leftLoop body atFail a e s = match body a e s with Ok (inl a') s' => leftLoop body atFail a' e s' | _ => atFail a e s end.
Proof.
  intros Pr. unfold leftLoop at 1. cbn [leftIter]. destruct (body a e s) as [[a'|b] s'|s'| |] eqn:E; try reflexivity.
  unfold leftLoop. apply Pr in E. apply leftIter_fuel; [exact Pr|lia|lia].
Qed.
Lemma pre_of (a b : bytes) : firstn (List.length (a ++ b) - List.length b) (a ++ b) = a.
Proof. rewrite app_length. replace (List.length a + List.length b - List.length b)%nat with (List.length a + 0)%nat by lia. rewrite firstn_app_2. cbn. apply app_nil_r. Qed.
Lemma digits_inset l : forallb (inset DIGIT) l = forallb IsDigit l.
Proof. reflexivity. Qed.
Lemma version_left e r u s' : parseVersionAfter e (mkst r u) = Fail s' -> versionLeft e r u (leftVersion e (mkst r u)).
Proof.
  intros H. assert (D : versionDigits r e (mkst r u) = Fail s').
  { unfold parseVersionAfter, onRest in H. cbn [rest] in H. destruct r as [|x1 r1]; [discriminate|]. destruct (x1 =? 50); [|exact H]. destruct r1 as [|x2 r2]; [discriminate|]. destruct (x2 =? 46); [|exact H].
    destruct r2 as [|x3 r3]; [discriminate|]. destruct (x3 =? 48); [|exact H]. destruct r3 as [|x4 r4]; [discriminate|]. destruct (negb (IsDigit x4)); [discriminate|exact H]. }
  unfold leftVersion. rewrite H. clear H. unfold leftDigits. cbn [rest]. unfold versionDigits in D. change (inset DIGIT) with IsDigit in *.
  destruct (span IsDigit r) as [major r1] eqn:Sp. pose proof (span_app _ _ _ _ Sp) as Ea. pose proof (span_all _ _ _ _ Sp) as Ed. pose proof (span_stops _ _ _ _ Sp) as Es.
  assert (Un : forall mj, dotOnly e r u mj -> mj = major /\ exists r2, r1 = 46 :: r2 /\ stops IsDigit r2 = true).
  { intros mj (_ & M2 & (r2 & M3 & M4) & _). assert (Q : span IsDigit r = (mj, 46 :: r2)) by (rewrite M3; apply span_exact; [exact M2|reflexivity]). rewrite Sp in Q. injection Q as -> ->. split; [reflexivity|]. exists r2. auto. }
  destruct major as [|d major].
  { right. split; [|reflexivity]. intros mj M. destruct (Un mj M) as (-> & _). now destruct M. }
  destruct r1 as [|x mid]; [discriminate|]. destruct (N.eqb_spec x 46) as [->|Nx]; cbn [negb] in D.
  2: { right. split; [|reflexivity]. intros mj M. destruct (Un mj M) as (_ & r2 & E2 & _). injection E2 as E2 _. congruence. }
  unfold bind in D. destruct (paCStringFromPos mid DIGIT e (mkst r u)) as [t s1|s1| |] eqn:Ep; try discriminate.
  - unfold onRest in D. destruct (Nat.leb_spec (List.length mid) (List.length (rest s1))) as [L|L]; [|discriminate]. unfold paCStringFromPos in Ep. cbn [rest used] in Ep.
    assert (Epre : firstn (List.length r - List.length mid) r = (d :: major) ++ [46]).
    { replace r with (((d :: major) ++ [46]) ++ mid) by (rewrite Ea, <- app_assoc; reflexivity). apply pre_of. }
    rewrite Epre in Ep. destruct (span (inset DIGIT) mid) as [tok r2] eqn:St. destruct (_ && _); [discriminate|]. destruct (ltMem e (u + 2 + len ((d :: major) ++ [46]))) eqn:Lm; cbn [negb] in Ep; [|discriminate].
    destruct (fits _ _ _); cbn [negb] in Ep; [|discriminate]. cbn [app] in Ep. destruct (ltMem e (u + 2 + _ + len tok)); cbn [negb] in Ep; [|discriminate]. injection Ep as <- <-. cbn [rest] in L.
    pose proof (span_app _ _ _ _ St) as Em. assert (tok = []) as -> by (rewrite Em, app_length in L; destruct tok; [reflexivity|cbn in L; lia]). left. exists (d :: major). split; [|now rewrite app_nil_r].
    split; [discriminate|]. split; [exact Ed|]. split; [exists mid; split; [exact Ea|]|].
    + cbn [app] in Em. subst r2. exact (span_stops _ _ _ _ St).
    + rewrite len_app in Lm. rewrite <- Lm. f_equal. change (len [46]) with 1. lia.
  - injection D as <-. right. split; [|reflexivity]. intros mj M. destruct (Un mj M) as (-> & r2 & E2 & M2). injection E2 as <-. destruct M as (_ & _ & _ & M). unfold paCStringFromPos in Ep. cbn [rest used] in Ep.
    assert (Epre : firstn (List.length r - List.length mid) r = (d :: major) ++ [46]).
    { replace r with (((d :: major) ++ [46]) ++ mid) by (rewrite Ea, <- app_assoc; reflexivity). apply pre_of. }
    rewrite Epre in Ep. rewrite (span_stop (inset DIGIT) mid) in Ep by exact M2. replace (u + 2 + len ((d :: major) ++ [46])) with (u + 2 + len (d :: major) + 1) in Ep by (rewrite len_app; change (len [46]) with 1; lia).
    rewrite M in Ep. cbn [negb] in Ep. rewrite Bool.andb_false_r in Ep. destruct (fits _ _ _); cbn [negb] in Ep; [|discriminate]. cbn [app] in Ep. change (len []) with 0 in Ep. rewrite N.add_0_r, M in Ep. discriminate.
Qed.
Lemma versionLeft_one e r u v1 v2 : versionLeft e r u v1 -> versionLeft e r u v2 -> v1 = v2.
Proof.
  assert (Un : forall m1 m2, dotOnly e r u m1 -> dotOnly e r u m2 -> m1 = m2).
  { intros m1 m2 (_ & A2 & (r1 & A3 & _) & _) (_ & B2 & (r2 & B3 & _) & _). assert (Q1 : span IsDigit r = (m1, 46 :: r1)) by (rewrite A3; apply span_exact; [exact A2|reflexivity]). assert (Q2 : span IsDigit r = (m2, 46 :: r2)) by (rewrite B3; apply span_exact; [exact B2|reflexivity]). congruence. }
  intros [(m1 & D1 & ->)|(N1 & ->)] [(m2 & D2 & ->)|(N2 & ->)]; try reflexivity; [now rewrite (Un _ _ D1 D2)|elim (N2 _ D1)|elim (N1 _ D2)].
Qed.
Lemma line_left e s g s' : wrongPart e s g s' -> lineLeft e s g (leftLine e s).
Proof.
  unfold wrongPart, lineLeft, leftLine, leftStatusLine. destruct g; intros H.
  - destruct H as (V & E1). rewrite V. unfold bind. now rewrite E1.
  - destruct H as (V & m & s1 & E1 & E2). rewrite V. unfold bind. now rewrite E1, E2.
  - destruct H as (V & m & s1 & s2 & E1 & E2 & E3). rewrite V. unfold bind. now rewrite E1, E2, E3.
  - destruct H as (V & m & s1 & s2 & a & s3 & E1 & E2 & E3 & E4). rewrite V. unfold bind. now rewrite E1, E2, E3, E4.
  - destruct H as (V & m & s1 & s2 & a & s3 & s4 & E1 & E2 & E3 & E4 & E5). rewrite V. unfold bind. rewrite E1, E2, E3, E4. exists m, s1, s2, a, s3, s4. eexists. do 4 (split; [first [assumption|reflexivity]|]). split; [reflexivity|].
    unfold parseVersion, onRest in E5. destruct (versionStart (rest s4)) as [r|]; [|reflexivity]. rewrite goto_bind in E5. eapply version_left. exact E5.
  - destruct H as (V & m & s1 & s2 & a & s3 & s4 & v & s5 & E1 & E2 & E3 & E4 & E5 & E6). rewrite V. unfold bind. rewrite E1, E2, E3, E4. exists m, s1, s2, a, s3, s4, v, s5. do 5 (split; [first [assumption|reflexivity]|]).
    unfold parseVersion, onRest in E5. destruct (versionStart (rest s4)) as [r|]; [|discriminate]. rewrite goto_bind in E5. unfold leftVersion. now rewrite E5.
  - destruct H as (r & V & E1). rewrite V. rewrite E1. exists r, (leftVersion e (mkst r (used s))). split; [reflexivity|]. split; [eapply version_left; exact E1|reflexivity].
  - destruct H as (r & v & s1 & V & E1 & E2). rewrite V. rewrite E1. exists r, v, s1. split; [reflexivity|]. split; [first [assumption|reflexivity]|]. unfold leftVersion. rewrite E1. unfold bind. now rewrite E2.
  - destruct H as (r & v & s1 & s2 & V & E1 & E2 & E3). rewrite V. rewrite E1. exists r, v, s1. split; [reflexivity|]. split; [first [assumption|reflexivity]|]. unfold leftVersion. rewrite E1. unfold bind. now rewrite E2, E3.
  - destruct H as (r & v & s1 & s2 & n & s3 & V & E1 & E2 & E3 & E4). rewrite V. rewrite E1. exists r, v, s1, s2, n, s3. split; [reflexivity|]. do 3 (split; [first [assumption|reflexivity]|]). unfold leftVersion. rewrite E1. unfold bind. now rewrite E2, E3, E4.
  - destruct H as (r & v & s1 & s2 & n & s3 & s4 & V & E1 & E2 & E3 & E4 & E5). rewrite V. rewrite E1. exists r, v, s1, s2, n, s3. split; [reflexivity|]. do 3 (split; [first [assumption|reflexivity]|]). unfold leftVersion. rewrite E1. unfold bind. now rewrite E2, E3, E4, E5.
  - destruct H as (r & v & s1 & s2 & n & s3 & s4 & t & s5 & V & E1 & E2 & E3 & E4 & E5 & E6). rewrite V. rewrite E1. exists r, v, s1, s2, n, s3, s4, t, s5. split; [reflexivity|]. do 5 (split; [first [assumption|reflexivity]|]). unfold leftVersion. rewrite E1. unfold bind. now rewrite E2, E3, E4, E5.
Qed.
Ltac same := repeat match goal with
  | Ha : ?x = Ok ?a1 ?t1, Hb : ?x = Ok ?a2 ?t2 |- _ => lazymatch t1 with t2 => lazymatch a1 with a2 => fail | _ => idtac end | _ => idtac end;
      let Q := fresh in assert (Q : Ok a1 t1 = Ok a2 t2) by congruence; injection Q; intros; subst; clear Q
  | Ha : ?x = Some ?a1, Hb : ?x = Some ?a2 |- _ => lazymatch a1 with a2 => fail | _ => idtac end; let Q := fresh in assert (Q : Some a1 = Some a2) by congruence; injection Q; intros; subst; clear Q
  end.
Lemma lineLeft_one e s g l1 l2 : lineLeft e s g l1 -> lineLeft e s g l2 -> l1 = l2.
Proof.
  unfold lineLeft. destruct g; intros H1 H2; repeat match goal with H : exists _, _ |- _ => destruct H | H : _ /\ _ |- _ => destruct H end; subst; same; try reflexivity.
  - destruct (versionStart _); [|congruence]. f_equal. eapply versionLeft_one; eauto.
  - f_equal. eapply versionLeft_one; eauto.
Qed.
(** Headers. *)
Lemma setCommon_values o i v vs a h : (slotOf o i < List.length (hsCommon a))%nat -> withValues o i vs (setCommon o i true a v) h -> withValues o i (v :: vs) a h.
Proof.
  intros L (H1 & H2 & H3). unfold setCommon in *. cbn [hsRaw hsCommon] in *. split; [exact H1|]. rewrite setNth_len in H2. split; [exact H2|]. intros j. rewrite H3. destruct (Nat.eqb_spec j (slotOf o i)) as [->|Hj].
  - rewrite setNth_nth by exact L. rewrite <- app_assoc. reflexivity.
  - rewrite setNth_nth_ne by congruence. reflexivity.
Qed.
Lemma withValues_none o i a : withValues o i [] a a.
Proof. split; [reflexivity|]. split; [reflexivity|]. intros j. destruct (Nat.eqb j _); now rewrite app_nil_r. Qed.
Lemma loop_keeps {A B} (J : A -> Prop) (Q : B -> Prop) (body : A -> P (A + B)) e : (forall a s x s', J a -> body a e s = Ok x s' -> match x with inl a' => J a' | inr b => Q b end) ->
  forall a s b s', J a -> loopP body a e s = Ok b s' -> Q b.
Proof.
  intros H a s b s' HJ. unfold loopP. generalize (S (List.length (rest s))). intros n. revert a s HJ. induction n as [|n IH]; intros a s0 HJ E; [discriminate|]. cbn [iterP] in E. unfold bind in E.
  destruct (body a e s0) as [x s1|s1| |] eqn:Eb; try discriminate. pose proof (H _ _ _ _ HJ Eb) as Hx. destruct x as [a'|b']; [eauto|]. injection E as <- _. exact Hx.
Qed.
Lemma setCommon_len o i m a v : List.length (hsCommon (setCommon o i m a v)) = List.length (hsCommon a).
Proof. apply setNth_len. Qed.
Lemma one_len o a n i e s a1 s1 : oneHeader o a n i e s = Ok a1 s1 -> List.length (hsCommon a1) = List.length (hsCommon a).
Proof.
  unfold oneHeader, withEnv. destruct (needParse o e i) as [[k multi]|].
  - unfold bind. destruct (parseSipX k e s) as [v s2|s2| |]; try discriminate. destruct multi.
    + intros E. revert E. apply (loop_keeps (fun hv => List.length (hsCommon (fst hv)) = List.length (hsCommon a)) (fun h => List.length (hsCommon h) = List.length (hsCommon a))); [|reflexivity].
      clear. intros [h v] s x s' HJ. cbn [fst snd] in HJ. unfold multiBody, onRest. cbn [fst snd]. assert (HS : List.length (hsCommon (setCommon o i true h v)) = List.length (hsCommon a)) by (now rewrite setCommon_len). destruct (rest s) as [|y r].
      { intros E. injection E as <- _. exact HS. }
      destruct (IsOnlyCRLF (y :: r)); [rewrite goto_bind; intros E; injection E as <- _; exact HS|].
      assert (G : forall (x : (hset * hval) + hset) s', (pCRLF ;;; ret (inr (setCommon o i true h v))) e s = Ok x s' -> match x with inl a' => List.length (hsCommon (fst a')) = List.length (hsCommon a) | inr b => List.length (hsCommon b) = List.length (hsCommon a) end).
      { intros x0 s0. unfold bind. destruct (pCRLF e s); try discriminate. intros E. injection E as <- _. exact HS. }
      destruct (ParseSWSMarkCanOmmit 44 (y :: r)) as [[r' []] []]; try apply G. rewrite goto_bind. unfold bind. destruct (parseSipX k e _); try discriminate. intros E. injection E as <- _. exact HS.
    + destruct (pCRLF e s2); try discriminate. intros E. injection E as <- _. apply setCommon_len.
  - unfold bind. destruct (rawHeader n i e s); try discriminate. intros E. injection E as <- _. reflexivity.
Qed.
Lemma read_len o e a s a1 s1 : headersRead o e a s a1 s1 -> List.length (hsCommon a1) = List.length (hsCommon a).
Proof. intros H. induction H as [|a s n i t b t2 a' t3 Hr Hc En Eo _ IH]; [reflexivity|]. rewrite IH. eapply one_len; eauto. Qed.
Lemma fold_values o i vs : forall a, (slotOf o i < List.length (hsCommon a))%nat -> withValues o i vs a (fold_left (setCommon o i true) vs a).
Proof. induction vs as [|v vs IH]; intros a L; [apply withValues_none|]. cbn [fold_left]. apply setCommon_values; [exact L|]. apply IH. now rewrite setCommon_len. Qed.
Definition leftValues (o : owner) (k : hkind) (i : N) (h : hset) (e : env) (s : st) : hset :=
  match parseSipX k e s with Ok v s1 => leftLoop (multiBody k (setCommon o i true)) (fun hv _ _ => setCommon o i true (fst hv) (snd hv)) (h, v) e s1 | _ => h end.
Lemma values_fold e k s vs : valuesLeft e k s vs -> forall o i h, leftValues o k i h e s = fold_left (setCommon o i true) vs h.
Proof.
  intros H o i. unfold leftValues. induction H as [s s' E|s v s1 s' E Hr Ho M Hc|s v s1 r vs E Hr Ho M _ IH]; intros h; rewrite E; [reflexivity| |].
  - rewrite leftLoop_unfold by apply multi_progresses. unfold multiBody at 1, onRest. destruct (rest s1) as [|x r1] eqn:R; [congruence|]. rewrite Ho.
    assert (Q : forall b : hset, (pCRLF ;;; ret (@inr (hset * hval) hset b)) e s1 = Fail s') by (intros b; unfold bind; now rewrite Hc).
    destruct (ParseSWSMarkCanOmmit 44 (x :: r1)) as [[r []] []]; [now elim (M r)| | |]; now rewrite Q.
  - rewrite leftLoop_unfold by apply multi_progresses. unfold multiBody at 1, onRest. destruct (rest s1) as [|x r1] eqn:R; [congruence|]. rewrite Ho, M. rewrite goto_bind. cbn [fst snd fold_left]. rewrite <- IH. unfold bind. cbn [used].
    destruct (parseSipX k e (mkst r (used s1))) as [v1 s2|s2| |]; reflexivity.
Qed.
Lemma value_left e k s s' : valueFails e k true s s' -> exists vs, valuesLeft e k s vs.
Proof.
  intros H. remember true as b. induction H as [b s s' H|s v s1 r s' H Hr Ho M _ IH]; [exists []; econstructor; eauto|]. destruct (IH Heqb) as (vs & V). exists (v :: vs). econstructor; eauto.
Qed.
Lemma end_left e k s s' : endFails e k true s s' -> exists vs, valuesLeft e k s vs.
Proof.
  intros H. remember true as b. induction H as [s v s1 s' H Hc|s v s1 s' H Hr Ho M Hc|s v s1 r s' H Hr Ho M _ IH]; [discriminate|exists [v]; econstructor; eauto|]. destruct (IH Heqb) as (vs & V). exists (v :: vs). econstructor; eauto.
Qed.
Lemma withValues_one o i vs a h1 h2 : withValues o i vs a h1 -> withValues o i vs a h2 -> h1 = h2.
Proof.
  intros (A1 & A2 & A3) (B1 & B2 & B3). destruct h1 as [c1 r1], h2 as [c2 r2]. cbn [hsRaw hsCommon] in *. f_equal; [|congruence]. apply (nth_ext _ _ [] []); [congruence|]. intros n _. now rewrite A3, B3.
Qed.
Lemma slot_lt o e i k m : needParse o e i = Some (k, m) -> (slotOf o i < List.length (hsCommon (emptyHdrs o)))%nat.
Proof. intros H. apply MemHeadersProofs.needParse_slot in H as (_ & H). unfold emptyHdrs. cbn [hsCommon]. rewrite repeat_length. destruct o; exact H. Qed.
Lemma read_left e a s a1 t1 : headersRead OMsg e a s a1 t1 -> forall f s', faultAt OMsg e t1 f s' ->
  leftLoop (headersBody (oneHeader OMsg)) (fun h e s => match parseHeaderName e s with Ok ni s1 => leftOne OMsg h (snd ni) e s1 | _ => h end) a e s = match parseHeaderName e t1 with Ok ni s1 => leftOne OMsg a1 (snd ni) e s1 | _ => a1 end.
Proof.
  intros H. induction H as [a s|a s n i t b t2 a' t3 Hr Hc En Eo _ IH]; intros f s' F; rewrite leftLoop_unfold by apply one_progresses.
  - now rewrite (fault_fails _ _ _ _ _ F).
  - assert (E : headersBody (oneHeader OMsg) a e s = Ok (inl b) t2). { unfold headersBody, onRest. destruct (rest s) as [|x r] eqn:R; [congruence|]. rewrite Hc. unfold bind. rewrite En. cbn [fst snd]. now rewrite Eo. }
    rewrite E. eauto.
Qed.
Lemma headers_left e s s' : parseHeaders OMsg e s = Fail s' -> headersLeft e s (leftHeaders OMsg e s).
Proof.
  intros H. apply (proj1 (C65_faults OMsg e s s')) in H as (f & a & s1 & R & F). exists a, s1, f, s'. split; [exact R|]. split; [exact F|]. unfold leftHeaders. rewrite (read_left _ _ _ _ _ R _ _ F).
  pose proof (read_len _ _ _ _ _ _ R) as Ln. destruct F as (_ & _ & F). destruct f as [|k|k|].
  - rewrite F. left. auto.
  - destruct F as (n & i & s2 & sv & En & Np & V). rewrite En. cbn [snd]. unfold leftOne. rewrite Np. destruct sv; [right|left].
    + destruct (value_left _ _ _ _ V) as (vs & VL). exists n, i, s2, k, vs. do 3 (split; [first [assumption|reflexivity]|]). fold (leftValues OMsg k i a e s2). rewrite (values_fold _ _ _ _ VL). apply fold_values. rewrite Ln. eapply slot_lt; eauto.
    + split; [reflexivity|]. right. right. exists n, i, s2, k. split; [first [assumption|reflexivity]|auto].
  - destruct F as (n & i & s2 & sv & En & Np & V). rewrite En. cbn [snd]. unfold leftOne. rewrite Np. destruct sv; [right|left].
    + destruct (end_left _ _ _ _ V) as (vs & VL). exists n, i, s2, k, vs. do 3 (split; [first [assumption|reflexivity]|]). fold (leftValues OMsg k i a e s2). rewrite (values_fold _ _ _ _ VL). apply fold_values. rewrite Ln. eapply slot_lt; eauto.
    + split; [reflexivity|]. right. right. exists n, i, s2, k. split; [first [assumption|reflexivity]|auto].
  - destruct F as (n & i & s2 & En & Np & V). rewrite En. cbn [snd]. unfold leftOne. rewrite Np. left. auto.
Qed.
Lemma headersLeft_only e s h : headersLeft e s h -> h = leftHeaders OMsg e s.
Proof.
  intros (a & s1 & f & s' & R & F & H). unfold leftHeaders. rewrite (read_left _ _ _ _ _ R _ _ F). pose proof (read_len _ _ _ _ _ _ R) as Ln. destruct H as [(-> & H)|(n & i & s2 & k & vs & En & Np & VL & W)].
  - destruct F as (_ & _ & F). destruct H as [->|[->|(n & i & s2 & k & En & Np)]].
    + now rewrite F.
    + destruct F as (n & i & s2 & En & Np & V). rewrite En. cbn [snd]. unfold leftOne. now rewrite Np.
    + rewrite En. cbn [snd]. unfold leftOne. now rewrite Np.
  - rewrite En. cbn [snd]. unfold leftOne. rewrite Np. fold (leftValues OMsg k i a e s2). rewrite (values_fold _ _ _ _ VL). eapply withValues_one; [exact W|]. apply fold_values. rewrite Ln. eapply slot_lt; eauto.
Qed.
(** Bodies. *)
Lemma part_adds dl bs e s bs' s1 : multipartBody dl bs e s = Ok (inl bs') s1 -> exists b, bs' = bs ++ [b].
Proof.
  unfold multipartBody, onRest. destruct (rest s) as [|x [|y r2]]; try discriminate. destruct (_ || _); [discriminate|]. destruct (FindCrlf _) as [[t r1]|]; [|discriminate]. rewrite goto_bind.
  unfold bind. destruct (allocStruct 16 e _) as [z s2|s2| |]; try discriminate. destruct (parseHeaders OBody e s2) as [h s3|s3| |]; try discriminate. destruct (splitAt dl (rest s3)) as [[d r4]|]; [|discriminate].
  destruct (attempt (allocCString d) e s3) as [o s4|s4| |]; try discriminate. unfold goto, ret. intros H. injection H as <- _. eauto.
Qed.
Lemma got_left e dl bs s bs1 s1 : partsGot e dl bs s bs1 s1 -> forall f s', partFault e dl s1 f s' -> leftLoop (multipartBody dl) (fun bs _ _ => bs) bs e s = bs1.
Proof.
  intros H. induction H as [bs s|bs s b s1 bs1 s2 H _ IH]; intros f s' F; rewrite leftLoop_unfold by apply multipart_progresses.
  - now rewrite (partFault_fails _ _ _ _ _ F).
  - rewrite H. eauto.
Qed.
Lemma read_got e dl s s1 : partsRead e dl s s1 -> forall bs, exists bs1, partsGot e dl bs s bs1 s1.
Proof.
  intros H. induction H as [s|s bs bs' s1 s2 H _ IH]; intros cs; [exists cs; constructor|]. destruct (part_any _ _ _ _ _ _ H cs) as (cs' & E). pose proof (part_adds _ _ _ _ _ _ E) as (b & ->). destruct (IH (cs ++ [b])) as (bs1 & G). exists bs1. econstructor; eauto.
Qed.
Lemma multipart_left e h b s : multipartWith h b -> leftBodies h e s = leftParts b e s.
Proof. intros (m & sb & t & ps & p & E1 & E2 & E3 & ->). unfold leftBodies, equalNoCase. rewrite E1, E2, E3. reflexivity. Qed.
Lemma none_left e h s f s' : wrongBody e h s f s' -> inParts f = false -> leftBodies h e s = [].
Proof.
  intros W Hf. destruct f; try discriminate; cbn [wrongBody] in W.
  - destruct W as (-> & m & sb & t & ps & E1 & E2 & E3). unfold leftBodies, equalNoCase. now rewrite E1, E2, E3.
  - destruct W as (-> & b & M & E). rewrite (multipart_left _ _ _ _ M). unfold leftParts. now rewrite E.
  - destruct W as (d & (m & sb & t & ps & n & E1 & E2 & _) & _). unfold leftBodies, equalNoCase. now rewrite E1, E2.
  - destruct W as (d & z & s1 & (m & sb & t & ps & n & E1 & E2 & _) & _). unfold leftBodies, equalNoCase. now rewrite E1, E2.
Qed.
Lemma bodies_left e h s s' : parseMsgBody h e s = Fail s' -> bodiesLeft e h s (leftBodies h e s).
Proof.
  intros H. apply (proj1 (C66_body_faults e h s s')) in H as (f & W). destruct (inParts f) eqn:Ef.
  - left. destruct (wrongBody_parts _ _ _ _ _ Ef W) as (b & r & s1 & M & E & R & F). destruct (read_got _ _ _ _ R []) as (bs & G). exists b, r, s1, f, s'. split; [exact M|]. split; [exact E|]. split; [|exact F].
    rewrite (multipart_left _ _ _ _ M). unfold leftParts. rewrite E. rewrite (got_left _ _ _ _ _ _ G _ _ F). exact G.
  - right. exists f, s'. split; [exact W|]. split; [exact Ef|]. eapply none_left; eauto.
Qed.
Lemma bodiesLeft_only e h s bs : bodiesLeft e h s bs -> bs = leftBodies h e s.
Proof.
  intros [(b & r & s1 & f & s' & M & E & G & F)|(f & s' & W & Ef & ->)].
  - rewrite (multipart_left _ _ _ _ M). unfold leftParts. rewrite E. symmetry. eapply got_left; eauto.
  - symmetry. eapply none_left; eauto.
Qed.

(** ** C67 *)
(** A Parse that fails leaves exactly one message behind, and it fails whenever this is said of a message. *)
Lemma leaves_iff e s m : leavesMsg e s m <-> (exists s', parseMsg e s = Fail s') /\ m = leftMsg e s.
Proof.
  split.
  - intros [(g & s' & W & Ln & Hh & Hb)|(s1 & E1 & H)].
    + pose proof (part_fails _ _ _ _ W) as E. pose proof (lineLeft_one _ _ _ _ _ Ln (line_left _ _ _ _ W)) as El. split; [exists s'; unfold parseMsg, bind; now rewrite E|]. unfold leftMsg. rewrite E. destruct m. cbn in *. congruence.
    + unfold parseMsg, bind, onRest, leftMsg. rewrite E1. destruct m as [l h bs]. cbn [mStart mHdrs mBodies] in *. destruct H as [(R & -> & ->)|[(R & H & ->)|(R & s2 & E2 & H)]].
      * rewrite R. split; [eexists; reflexivity|reflexivity].
      * destruct (rest s1) as [|x r] eqn:Er; [congruence|]. pose proof (headersLeft_only _ _ _ H) as Eh. destruct H as (a & t1 & f & s' & Rd & F & _). assert (E2 : parseHeaders OMsg e s1 = Fail s') by (apply (proj1 (C65_faults OMsg e s1 s')); exists f, a, t1; auto).
        rewrite E2. split; [eauto|now rewrite Eh].
      * destruct (rest s1) as [|x r] eqn:Er; [congruence|]. rewrite E2. pose proof (bodiesLeft_only _ _ _ _ H) as Eb. split; [|now rewrite <- Eb].
        assert (Ef : exists s', parseMsgBody h e s2 = Fail s').
        { destruct H as [(b & r0 & t1 & f & s' & M & Es & G & F)|(f & s' & W & _)]; [|exists s'; eapply body_fails; eauto]. exists s'. rewrite (multipart_eq _ _ M). unfold parseMultiBody, onRest. rewrite Es. rewrite goto_bind.
          clear - G F. revert f s' F. induction G as [bs s|bs s b0 t2 bs1 t3 H _ IH]; intros f s' F; rewrite loopP_unfold by apply multipart_progresses; [now rewrite (partFault_fails _ _ _ _ _ F)|rewrite H; eauto]. }
        destruct Ef as (s' & ->). eauto.
  - intros ((s' & E) & ->). unfold leavesMsg, leftMsg. unfold parseMsg, bind, onRest in E. destruct (parseStartLine e s) as [l s1|s1| |] eqn:E1; try discriminate.
    + right. exists s1. destruct (rest s1) as [|x r] eqn:Er; [split; [reflexivity|left; auto]|]. destruct (parseHeaders OMsg e s1) as [h s2|s2| |] eqn:E2; try discriminate; cbn [mStart mHdrs mBodies]; (split; [reflexivity|right]).
      * right. split; [discriminate|]. exists s2. split; [reflexivity|]. destruct (parseMsgBody h e s2) as [bs s3|s3| |] eqn:E3; try discriminate. eapply bodies_left; eauto.
      * left. split; [discriminate|]. split; [|reflexivity]. eapply headers_left; eauto.
    + left. apply (proj1 (C66_line_parts e s s1)) in E1 as (g & W). exists g, s1. cbn [mStart mHdrs mBodies]. split; [exact W|]. split; [eapply line_left; eauto|auto].
Qed.
Definition calm {A} (p : P A) : Prop := forall e s, match p e s with Panic | Loop => False | _ => True end.
Lemma calm_bind {A B} (p : P A) (f : A -> P B) : calm p -> (forall a, calm (f a)) -> calm (bind p f).
Proof. intros Hp Hf e s. unfold bind. specialize (Hp e s). destruct (p e s) as [a s1|s1| |]; auto. apply Hf. Qed.
Lemma calm_ret {A} (a : A) : calm (ret a). Proof. intros e s. exact Logic.I. Qed.
Lemma calm_fail {A} : calm (@pfail A). Proof. intros e s. exact Logic.I. Qed.
Lemma calm_struct n : calm (allocStruct n). Proof. intros e s. unfold allocStruct. destruct (leMem _ _); exact Logic.I. Qed.
Lemma calm_cstring t : calm (allocCString t). Proof. intros e s. unfold allocCString. repeat match goal with |- context [if ?b then _ else _] => destruct b end; exact Logic.I. Qed.
Ltac cm := repeat first [apply calm_ret|apply calm_fail|apply calm_struct|apply calm_cstring|apply calm_bind; [|intros]|match goal with |- calm (match ?x with _ => _ end) => destruct x end].
Lemma enc_no_crash pre m e s : match encMsg pre m e s with Panic | Loop => False | _ => True end.
Proof.
  apply (calm_bind (ensureLength (mHdrs m))); [unfold ensureLength; cm|intros h]. apply calm_bind.
  - destruct (hasMulti m); [|cm]. unfold findOrCreateBoundary, setBoundary. cm.
  - intros hb. destruct (mBodies m); cm.
Qed.
(** If Parse fails there is exactly one message that it leaves, and if it does not fail there is none of this kind. *)
Theorem C67_left : forall e s, (exists s', parseMsg e s = Fail s') <-> exists m, leavesMsg e s m /\ forall m', leavesMsg e s m' -> m' = m.
Proof.
  intros e s. split.
  - intros H. exists (leftMsg e s). split; [apply leaves_iff; auto|]. intros m' L. now apply leaves_iff in L.
  - intros (m & L & _). now apply leaves_iff in L.
Qed.
Print Assumptions C67_left.
(** A wrong start line leaves a status line without reason phrase or with the one that was read, and nothing else: no request line, no header, no body. *)
Theorem C67_start_line : forall e s m s', leavesMsg e s m -> parseStartLine e s = Fail s' ->
  (exists v n t, mStart m = SStatus v n t) /\ mHdrs m = emptyHdrs OMsg /\ mBodies m = [] /\ (versionStart (rest s) = None -> exists v, mStart m = SStatus v 0 []).
Proof.
  intros e s m s' L E. apply leaves_iff in L as (_ & ->). unfold leftMsg. rewrite E. cbn [mStart mHdrs mBodies].
  apply (proj1 (C66_line_parts e s s')) in E as (g & W). pose proof (line_left _ _ _ _ W) as H. split; [|split; [reflexivity|split; [reflexivity|]]].
  - unfold lineLeft in H. destruct g; repeat match goal with H : exists _, _ |- _ => destruct H | H : _ /\ _ |- _ => destruct H end; eauto.
  - intros V. unfold lineLeft in H. destruct g; repeat match goal with H : exists _, _ |- _ => destruct H | H : _ /\ _ |- _ => destruct H end; try congruence; eauto.
Qed.
Print Assumptions C67_start_line.
(** A start line that can be read is left as it was read, whatever is wrong behind it. *)
Theorem C67_line_kept : forall e s m l s1, leavesMsg e s m -> parseStartLine e s = Ok l s1 -> mStart m = l.
Proof. intros e s m l s1 L E. apply leaves_iff in L as ((s' & F) & ->). unfold leftMsg. rewrite E. unfold parseMsg, bind, onRest in F. rewrite E in F. destruct (rest s1); [reflexivity|]. destruct (parseHeaders OMsg e s1); reflexivity. Qed.
Print Assumptions C67_line_kept.
(** No value that was read in front of the fault is lost, and none is invented: every header read in front of the wrong one is left in its place, and what is left besides is behind it. *)
Theorem C67_headers_kept : forall e s m l s1 a s2 f s', leavesMsg e s m -> parseStartLine e s = Ok l s1 -> rest s1 <> [] -> headersRead OMsg e (emptyHdrs OMsg) s1 a s2 -> faultAt OMsg e s2 f s' ->
  hsRaw (mHdrs m) = hsRaw a /\ (forall j, exists vs, nth j (hsCommon (mHdrs m)) [] = nth j (hsCommon a) [] ++ vs) /\
  (forall n i t, parseHeaderName e s2 = Ok (n, i) t -> forall j, j <> slotOf OMsg i -> nth j (hsCommon (mHdrs m)) [] = nth j (hsCommon a) []) /\
  (forall n i t k, parseHeaderName e s2 = Ok (n, i) t -> needParse OMsg e i = Some (k, false) -> mHdrs m = a).
Proof.
  intros e s m l s1 a s2 f s' L E R Rd F. apply leaves_iff in L as (_ & ->). unfold leftMsg. rewrite E. destruct (rest s1) as [|x r] eqn:Er; [congruence|].
  assert (Eh : parseHeaders OMsg e s1 = Fail s') by (apply (proj1 (C65_faults OMsg e s1 s')); exists f, a, s2; auto). rewrite Eh. cbn [mHdrs].
  pose proof (read_left _ _ _ _ _ Rd _ _ F) as El. unfold leftHeaders. rewrite El. pose proof (read_len _ _ _ _ _ _ Rd) as Ln.
  assert (Same : hsRaw a = hsRaw a /\ (forall j, exists vs, nth j (hsCommon a) [] = nth j (hsCommon a) [] ++ vs)) by (split; [reflexivity|intros j; exists []; now rewrite app_nil_r]).
  destruct F as (_ & _ & F). destruct (parseHeaderName e s2) as [[n i] t|t| |] eqn:En.
  2: { destruct Same. do 2 (split; [assumption|]). split; discriminate. }
  2, 3: destruct f; [discriminate|..]; repeat match goal with H : exists _, _ |- _ => destruct H | H : _ /\ _ |- _ => destruct H end; discriminate.
  cbn [snd]. unfold leftOne. destruct (needParse OMsg e i) as [[k [|]]|] eqn:Np.
  - assert (V : exists vs, valuesLeft e k t vs).
    { destruct f as [|k1|k1|]; [discriminate| | |].
      - destruct F as (n1 & i1 & t1 & sv & En1 & Np1 & V). injection En1 as <- <- <-. rewrite Np in Np1. injection Np1 as <- <-. eapply value_left; eauto.
      - destruct F as (n1 & i1 & t1 & sv & En1 & Np1 & V). injection En1 as <- <- <-. rewrite Np in Np1. injection Np1 as <- <-. eapply end_left; eauto.
      - destruct F as (n1 & i1 & t1 & En1 & Np1 & V). injection En1 as <- <- <-. congruence. }
    destruct V as (vs & V). fold (leftValues OMsg k i a e t). rewrite (values_fold _ _ _ _ V).
    assert (W : withValues OMsg i vs a (fold_left (setCommon OMsg i true) vs a)) by (apply fold_values; rewrite Ln; eapply slot_lt; eauto).
    destruct W as (W1 & W2 & W3). split; [exact W1|]. split; [intros j; eexists; apply W3|]. split.
    + intros n1 i1 t1 Q j Hj. injection Q as <- <- <-. rewrite W3. destruct (Nat.eqb_spec j (slotOf OMsg i)); [congruence|apply app_nil_r].
    + intros n1 i1 t1 k1 Q Np1. injection Q as <- <- <-. congruence.
  - destruct Same. do 2 (split; [assumption|]). split; [reflexivity|]. intros n1 i1 t1 k1 Q Np1. reflexivity.
  - destruct Same. do 2 (split; [assumption|]). split; [reflexivity|]. intros n1 i1 t1 k1 Q Np1. injection Q as <- <- <-. congruence.
Qed.
Print Assumptions C67_headers_kept.

(** ** On the bytes of the arena *)
From Verif Require Import Arena Layout Mem MemHistory MemBlocks MemMsg MemBodyProofs MemMsgTop Extension P18_Memory P13_Discipline MemWorld MemAsk MemSession P23_Session.
Lemma failed_no_corner e a t u s : memend e = Some (cap a) -> parseMsg e (mkst t u) = Fail s -> used s < cap a -> cornerCase e t u = false.
Proof.
  intros M0 E Lc. unfold cornerCase. destruct (msgHeaders e (mkst t u)) as [h s2| | |] eqn:Em; try reflexivity. unfold emptyAtEnd.
  assert (Lt : ltMem e (used s2) = true).
  { unfold msgHeaders, bind, onRest in Em. unfold parseMsg, bind, onRest in E. destruct (parseStartLine e (mkst t u)) as [l s1|s1| |]; try discriminate. destruct (rest s1); [discriminate|].
    destruct (parseHeaders OMsg e s1) as [h1 s3|s3| |]; try discriminate. injection Em as <- <-. pose proof (C31_position _ _ (PBody h1) e s3) as G. destruct (parseMsgBody h1 e s3) as [bs s4|s4| |]; try discriminate. injection E as <-.
    unfold ltMem. rewrite M0. apply N.ltb_lt. lia. }
  rewrite Lt. destruct (contentTypeOf h) as [v|]; [|reflexivity]. destruct (boundaryParam v) as [p|]; [|reflexivity]. destruct (gvalueText _) as [[|]|]; reflexivity.
Qed.
(** A message is made and a Parse into it fails, with the arena not full and, if the message left has an extension method, version or protocol, less than 32 KB of it in use: the exported functions then answer for the message that [leavesMsg] says. A question about its headers or
    bodies gets the answer for that message; Encode gives its text, or fails (and does not crash). *)
Theorem C67_observed : forall e a t s, legal e a -> aused a + 68 <= cap a -> parseMsg e (mkst t (aused a + 68)) = Fail s -> used s < cap a ->
  exists m, leavesMsg e (mkst t (aused a + 68)) m /\ ((extMsg m = true -> used s < 32768) ->
   (forall q x, askMsg e m q = Some x ->
      memSession e a [] [SNew (SK WKMsg); SParse 0 t; SAsk 0 q] = Some [(SvNew true, aused a + 68); (SvParse false (rest s), used s); (SvAnswer x, used s)]) /\
   (forall pre, match encMsg pre m e (mkst [] (used s)) with
      | Ok (text, _) s' => len text < two32 -> memSession e a [] [SNew (SK WKMsg); SParse 0 t; SEncode 0 pre] = Some [(SvNew true, aused a + 68); (SvParse false (rest s), used s); (SvText (Some text), used s')]
      | Fail s' => memSession e a [] [SNew (SK WKMsg); SParse 0 t; SEncode 0 pre] = Some [(SvNew true, aused a + 68); (SvParse false (rest s), used s); (SvText None, used s')]
      | Panic | Loop => False
      end)).
Proof.
  intros e a t s Hl Lz Hp Lc. pose proof Hl as (M0 & _). exists (leftMsg e (mkst t (aused a + 68))). split; [apply leaves_iff; eauto|].
  pose proof (failed_no_corner _ _ _ _ _ M0 Hp Lc) as Hc.
  assert (C : ltMem e (used s) = true) by (unfold ltMem; rewrite M0; apply N.ltb_lt; lia).
  assert (St : forall o, valSession e (aused a) [] [SNew (SK WKMsg); SParse 0 t; o] =
     match valStep e (used s) [(SK WKMsg, Some (aused a + 68, Some (SO (WMsg (leftMsg e (mkst t (aused a + 68)))), used s)))] o with
     | Some (v, u', _) => Some [(SvNew true, aused a + 68); (SvParse false (rest s), used s); (v, u')] | None => None end).
  { intros o. cbn [valSession]. remember (fun u vs => valStep e u vs o) as step eqn:Es. assert (Eo : forall u vs, valStep e u vs o = step u vs) by (now subst). cbn [valStep isStruct ssize sFresh].
    unfold allocStruct, leMem. rewrite M0. cbn [used rest]. replace (aused a + 68 <=? cap a) with true by lia. cbn [app nth_error isStruct sCorner used]. rewrite Hc. cbn [negb andb sValue]. unfold bind, ret. rewrite Hp.
    cbn [setAt sLeft]. rewrite Eo. destruct (step _ _) as [[[v u'] vs']|]; reflexivity. }
  intros Lt. assert (C2 : (negb (extMsg (leftMsg e (mkst t (aused a + 68)))) || (used s <? 32768)) = true) by (destruct (extMsg _); [specialize (Lt eq_refl); cbn [negb orb]; apply N.ltb_lt; lia|reflexivity]).
  split.
  - intros q x Hx. apply C55_session; [exact Hl|]. rewrite St. cbn [valStep nth_error wExt askValue]. rewrite C, C2. cbn [andb]. now rewrite Hx.
  - intros pre. pose proof (enc_no_crash pre (leftMsg e (mkst t (aused a + 68))) e (mkst [] (used s))) as K. destruct (encMsg pre _ e (mkst [] (used s))) as [[text x'] s'|s'| |] eqn:Ee; try contradiction.
    + intros Ht. apply C55_session; [exact Hl|]. rewrite St. cbn [valStep nth_error sExt wExt sEncoding wEncoding]. rewrite C, C2. cbn [andb]. rewrite Ee. replace (len text <? two32) with true by lia. reflexivity.
    + apply C55_session; [exact Hl|]. rewrite St. cbn [valStep nth_error sExt wExt sEncoding wEncoding]. rewrite C, C2. cbn [andb]. rewrite Ee. reflexivity.
Qed.
Print Assumptions C67_observed.

(** ** Cases *)
Definition observed (t text : bytes) : Prop :=
  exists r u u', memSession exEnv exArena [] [SNew (SK WKMsg); SParse 0 t; SEncode 0 []] = Some [(SvNew true, 76); (SvParse false r, u); (SvText (Some text), u')] /\
    exists m, leavesMsg exEnv (mkst t 76) m.
Ltac obs := eexists _, _, _; split; [vm_compute; reflexivity|]; eexists; apply leaves_iff; split; [eexists; vm_compute; reflexivity|reflexivity].
Definition noBody : bytes := s2b "Content-Length:          0" ++ CRLF ++ CRLF.
(** The values in front of the wrong one stay. *)
Example C67_case_values : observed (hdrText "Route: <sip:a>, <sip:c>, sip:b") (s2b "INVITE sip:b SIP/2.0" ++ CRLF ++ s2b "Route: <sip:a>, <sip:c>" ++ CRLF ++ noBody). Proof. obs. Qed.
(** A wrong end of the line of a header with one value: the value goes. *)
Example C67_case_end : observed (hdrText "Call-ID: a b") (s2b "INVITE sip:b SIP/2.0" ++ CRLF ++ noBody). Proof. obs. Qed.
(** A request line with no line end behind it leaves a status line with the version. *)
Example C67_case_request : observed (s2b "INVITE sip:b SIP/2.0") (s2b "SIP/2.0 0 " ++ CRLF ++ noBody). Proof. obs. Qed.
(** A version without digits behind the dot leaves the digits and the dot. *)
Example C67_case_version : observed (s2b "INVITE sip:b SIP/3.x") (s2b "SIP/3. 0 " ++ CRLF ++ noBody). Proof. obs. Qed.
Example C67_case_status : observed (s2b "SIP/2.0 200") (s2b "SIP/2.0 200 " ++ CRLF ++ noBody). Proof. obs. Qed.
(** A multipart body whose second part is not closed: the first part stays, and Encode writes it as the only body. *)
Example C67_case_parts : observed (exMixed "--z" ++ CRLF ++ CRLF ++ s2b "abc" ++ CRLF ++ s2b "--z" ++ CRLF ++ CRLF ++ s2b "de")
  (s2b "INVITE sip:b SIP/2.0" ++ CRLF ++ s2b "Content-Length:          3" ++ CRLF ++ s2b "Content-Type: multipart/mixed;boundary=z" ++ CRLF ++ CRLF ++ s2b "abc"). Proof. obs. Qed.
(** The hypotheses of C67_observed, met. *)
Example C67_observed_case : legal exEnv exArena /\ aused exArena + 68 <= cap exArena /\ exists s, parseMsg exEnv (mkst (hdrText "Route: <sip:a>, sip:b") (aused exArena + 68)) = Fail s /\ used s < cap exArena /\ used s < 32768.
Proof. split; [repeat split; try (intros; discriminate); cbn; lia|]. split; [cbn; lia|]. eexists. split; [vm_compute; reflexivity|]. split; cbn; lia. Qed.
(** A message that a failed Parse leaves is a message like any other: one text parsed after the other, the second wrong, then Encode. *)
Example C67_again_case : exists u1 r u2 u3 u4, memSession exEnv exArena [] [SNew (SK WKMsg); SParse 0 (hdrText "Via: SIP/2.0/UDP h"); SParse 0 (hdrText "Call-ID: x y"); SEncode 0 []; SEncode 0 []] =
  Some [(SvNew true, 76); (SvParse true [], u1); (SvParse false r, u2); (SvText (Some (s2b "INVITE sip:b SIP/2.0" ++ CRLF ++ noBody)), u3); (SvText (Some (s2b "INVITE sip:b SIP/2.0" ++ CRLF ++ noBody)), u4)].
Proof. eexists _, _, _, _, _. vm_compute. reflexivity. Qed.
