(** Property C50 (continued): whole messages. *)
From Verif Require Import Base Charset CharsetSpec CharsetProofs BaseLemmas Num NumSpec NumProofs Lws LwsSpec LwsProofs Str StrSpec StrProofs Monad Good Rt Seq GoodAuto Inv
  IndexTree IndexProofs MethodTree HeaderTree Lookup NameSpec NameProofs Room Host HostSpec HostProofs Uri UriSpec UriGood UriProofs UriSound Tel TelSpec TelProofs TelSound GenParam GenParamSpec GenParamProofs Addr AddrSpec AddrProofs
  StartLine StartLineSpec StartLineProofs Headers HeadersSpec HeadersProofs RawHeaders RawSpec RawProofs Msg MsgSpec MsgProofs MsgRt MsgEnc MsgWhole MsgSound P05_Uri P12_Messages ParsedSpec ParsedWf P20_Stable ParsedMsg RelEnc ParsedMsg2 MsgAgain.

Lemma Forall2_set2 {A B} (R : A -> B -> Prop) l l' x y : Forall2 R l l' -> R x y -> forall i, Forall2 R (setNth l i x) (setNth l' i y).
Proof. intros F Rx. induction F; intros [|i]; cbn [setNth]; constructor; auto. Qed.
Lemma same_set (h w : hset) j vs ws : sameHdrs h w -> Forall2 sameHVal vs ws -> sameHdrs (mkhset (setNth (hsCommon h) j vs) (hsRaw h)) (mkhset (setNth (hsCommon w) j ws) (hsRaw w)).
Proof. intros [S R] F. split; [cbn [hsCommon]; now apply Forall2_set2|exact R]. Qed.
Lemma same_length n h w : sameHdrs h w -> sameHdrs (withLength n h) (withLength n w).
Proof. intros S. apply same_set; [exact S|]. constructor; [reflexivity|constructor]. Qed.
Lemma canon_stated h : List.length (hsCommon h) = 19%nat -> statedLength (canonHdrs OMsg h) = statedLength h.
Proof. intros L. unfold statedLength. rewrite nth_canon by exact L. destruct (nth 7 (hsCommon h) []) as [|v vs]; [reflexivity|]. destruct v; reflexivity. Qed.
Lemma canon_type10 h : List.length (hsCommon h) = 19%nat -> nth 10 (hsCommon (canonHdrs OMsg h)) [] = map (canonHVal KContentType) (nth 10 (hsCommon h) []).
Proof. intros L. rewrite nth_canon by exact L. reflexivity. Qed.
(** ** The canonical message *)
Lemma canon_ready e0 s m s1 e : parseMsg e0 s = Ok m s1 -> netGood e0 -> e = withMem (memend e) e0 -> plainLine e (mStart m) -> plainHdrs OMsg e (mHdrs m) ->
  hdrsOut OMsg e0 (mHdrs m) /\ wfMsg e (mkmsg (canonLine (mStart m)) (canonHdrs OMsg (mHdrs m)) (map canonBody (mBodies m))) /\ sameLine (mStart m) (canonLine (mStart m)) /\
  sameHdrs (hdrsAsWritten e (mHdrs m)) (hdrsAsWritten e (canonHdrs OMsg (mHdrs m))) /\ relHdrs OMsg e (mHdrs m) (canonHdrs OMsg (mHdrs m)).
Proof.
  intros H NG Ee Pl Ph. destruct (msg_out _ _ _ _ H) as ((q1 & q2 & El) & Ho & _). rewrite Ee in Pl, Ph. apply plain_mem in Ph. split; [exact Ho|].
  apply startLine_out in El as [Wl Sl]; [|exact NG|destruct (mStart m); exact Pl]. split; [|split; [exact Sl|split; [|exact (canon_rel _ _ _ _ NG Ho Ph)]]].
  - split; cbn [mStart mHdrs]; [rewrite Ee; destruct (canonLine (mStart m)); exact Wl|]. rewrite Ee. apply wfHdrs_mem. now apply canonHdrs_wf.
  - rewrite Ee. rewrite !hdrs_mem. eapply canonHdrs_same; eauto.
Qed.
(** What a user sees of a message that is read, written and read again: [y] is what comes back when the text that was written for [m] (followed by [t]) is read, it is
    [m] up to what the encoder fills in ([m'] in the statements below), and writing [y] gives the same text, whatever the memory. *)
Definition stable (e : env) (m' : msg) (text t r : bytes) (u : N) : Prop :=
  exists y, readsAs e (text ++ t) y r u /\ sameMsg m' y /\ forall n s, exists y', encMsg [] y (withMem n e) s = Ok (text, y') s.
Theorem C50_message_no_body : forall e0 s m s1 e s2 text m' s3 t u,
  parseMsg e0 s = Ok m s1 -> netGood e0 -> e = withMem (memend e) e0 -> eUriNoEscape e = false -> plainLine e (mStart m) -> plainHdrs OMsg e (mHdrs m) ->
  mBodies m = [] -> noType (mHdrs m) \/ singleType (mHdrs m) /\ (statedLength (mHdrs m) = 0 \/ t = []) ->
  encMsg [] m e s2 = Ok (text, m') s3 ->
  stable e (mkmsg (mStart m) (hdrsAsWritten e (withLength (statedLength (mHdrs m)) (mHdrs m))) []) text t t u.
Proof.
  intros e0 s m s1 e s2 text m' s3 t u H NG Ee He Pl Ph Hb Ht E. destruct (canon_ready _ _ _ _ _ H NG Ee Pl Ph) as (Ho & Wm & Sl & Sh & Rh). rewrite Hb in *. cbn [map] in Wm. pose proof (proj1 Ho) as L. change (List.length (slotIndexes OMsg)) with 19%nat in L.
  set (c := mkmsg (canonLine (mStart m)) (canonHdrs OMsg (mHdrs m)) []) in *. assert (R : relMsg e m c) by (split; [symmetry; apply encLine_canon|split; [exact Rh|rewrite Hb; constructor]]).
  destruct (enc_rel _ _ _ _ _ _ _ _ R L E) as [c' Ec]. exists (mkmsg (mStart c) (hdrsAsWritten e (withLength (statedLength (mHdrs c)) (mHdrs c))) []). split; [|split].
  - eapply C42_no_body; [exact He|exact Wm|reflexivity| |exact Ec]. unfold noType, singleType in *. cbn [mHdrs c]. rewrite canon_type10, canon_stated by exact L. destruct Ht as [Ht|[(a1 & a2 & a3 & a4 & Ht & Hne) Ht2]]; [left; rewrite Ht; reflexivity|right; split; [|exact Ht2]]. rewrite Ht. cbn [map canonHVal]. eauto 7.
  - split; [exact Sl|]. split; [|constructor]. cbn [mHdrs c]. rewrite canon_stated by exact L. rewrite !aw_length. now apply same_length.
  - eapply again_no_body; [exact (lengthSlot_wf e _ (proj2 Wm))|reflexivity|exact Ec].
Qed.
Print Assumptions C50_message_no_body.
Theorem C50_message_one_body : forall e0 s m s1 e b s2 text m' s3 t u,
  parseMsg e0 s = Ok m s1 -> netGood e0 -> e = withMem (memend e) e0 -> eUriNoEscape e = false -> plainLine e (mStart m) -> plainHdrs OMsg e (mHdrs m) ->
  mBodies m = [b] -> singleType (mHdrs m) -> noLonger (statedLength (mHdrs m)) (len (bData b)) ->
  encMsg [] m e s2 = Ok (text, m') s3 ->
  stable e (mkmsg (mStart m) (hdrsAsWritten e (withLength (len (bData b)) (mHdrs m))) [b]) text t (bData b ++ t) u.
Proof.
  intros e0 s m s1 e b s2 text m' s3 t u H NG Ee He Pl Ph Hb Ht Hd E. destruct (canon_ready _ _ _ _ _ H NG Ee Pl Ph) as (Ho & Wm & Sl & Sh & Rh). rewrite Hb in *. cbn [map] in Wm. pose proof (proj1 Ho) as L. change (List.length (slotIndexes OMsg)) with 19%nat in L.
  destruct (C37_single_body _ _ _ _ H Ht) as [_ Eb]. cbv zeta in Eb. rewrite Hb in Eb. pose proof (C36_parsed _ _ _ _ H) as Hs. pose proof (stated_lt _ Hs) as Hlt. set (n := N.min (statedLength (mHdrs m)) (len (rest s1))) in *. assert (Hn : n < two32) by lia. destruct (N.eqb_spec n 0) as [|Hn0]; [discriminate|]. injection Eb as Eb.
  assert (Ld : len (bData b) = n) by (rewrite Eb; cbn [bData]; unfold len; rewrite firstn_length; unfold len in n; lia).
  assert (Hne : bData b <> []) by (intros Z; rewrite Z in Ld; unfold len in Ld; cbn in Ld; lia).
  set (c := mkmsg (canonLine (mStart m)) (canonHdrs OMsg (mHdrs m)) [canonBody b]) in *. assert (Rb : relBody e b (canonBody b)).
  { rewrite Eb. split; [|reflexivity]. split; [reflexivity|]. split; [reflexivity|]. intros j. assert (Z : forall h, hsCommon h = [[]; []; []] -> nth j (hsCommon h) [] = []) by (intros h ->; do 4 (destruct j as [|j]; [reflexivity|]); reflexivity). rewrite !Z by reflexivity. constructor. }
  assert (R : relMsg e m c) by (split; [symmetry; apply encLine_canon|split; [exact Rh|rewrite Hb; constructor; [exact Rb|constructor]]]).
  destruct (enc_rel _ _ _ _ _ _ _ _ R L E) as [c' Ec]. exists (mkmsg (mStart c) (hdrsAsWritten e (withLength (len (bData (canonBody b))) (mHdrs c))) [mkbody (emptyHdrs OBody) (bData (canonBody b))]). cbn [canonBody bData]. split; [|split].
  - eapply (C42_one_body e c (canonBody b)); [exact He|exact Wm|reflexivity|exact Hne|cbn [canonBody bData]; rewrite Ld; exact Hn| | |exact Ec].
    + unfold singleType in *. cbn [mHdrs c]. rewrite canon_type10 by exact L. destruct Ht as (a1 & a2 & a3 & a4 & Ht & Hnm). rewrite Ht. cbn [map canonHVal]. eauto 7.
    + cbn [mHdrs c]. rewrite canon_stated by exact L. exact Hd.
  - split; [exact Sl|]. split; [|cbn [mBodies]; constructor; [|constructor]; split; [|reflexivity]; rewrite Eb; split; [|reflexivity]; cbn [bHdrs emptyHdrs hsCommon]; repeat constructor]. cbn [mHdrs c]. rewrite !aw_length. now apply same_length.
  - apply (again_one_body e c (canonBody b) s2 text c' s3); [exact (lengthSlot_wf e _ (proj2 Wm))|reflexivity|cbn [canonBody bData]; rewrite Ld; exact Hn| |exact Ec]. cbn [mHdrs c]. rewrite canon_stated by exact L. exact Hd.
Qed.
Print Assumptions C50_message_one_body.
Lemma multi_facts e0 s m s1 e : parseMsg e0 s = Ok m s1 -> wfHdrs OMsg e (canonHdrs OMsg (mHdrs m)) -> relHdrs OMsg e (mHdrs m) (canonHdrs OMsg (mHdrs m)) -> List.length (hsCommon (mHdrs m)) = 19%nat -> (2 <= List.length (mBodies m))%nat ->
  exists ma st p ps, nth 10 (hsCommon (mHdrs m)) [] = [VType ma st (Some [Some p]) ps] /\ sameNoCase ma (s2b "multipart") /\ fContentTypeKnown e = true /\ Forall (partOut e0 (boundaryOf (mHdrs m))) (mBodies m).
Proof.
  intros H W R L H2. destruct (msg_out _ _ _ _ H) as (_ & _ & s2 & Eb). destruct (C37_cases _ _ _ _ H) as [Hn|[Hn|(ma & st & t & ps & E10 & Hma)]].
  - destruct (C37_no_type _ _ _ _ H Hn) as [Z _]. rewrite Z in H2. cbn in H2. lia.
  - destruct (C37_single_body _ _ _ _ H Hn) as [_ Z]. cbv zeta in Z. rewrite Z in H2. destruct (_ =? 0); cbn in H2; lia.
  - pose proof (proj2 (proj2 R) 10%nat) as R10. rewrite canon_type10, E10 in R10 by exact L. cbn [map canonHVal] in R10. inversion R10 as [|v w vs ws [Rt _] _]; subst. cbn [relType] in Rt. destruct Rt as (_ & _ & [K _]).
    destruct (slot10_wf e _ W) as [Z|(ma' & st' & t' & ps' & Z & Wt)]; rewrite canon_type10, E10 in Z by exact L; cbn [map canonHVal] in Z; [discriminate|]. injection Z as <- <- <- <-. destruct Wt as (_ & _ & [Wk _]).
    unfold parseMsgBody, contentTypeOf in Eb. rewrite E10 in Eb. cbn [hd_error] in Eb. assert (C : CStringEqualNoCase ma (s2b "multipart") = Some true) by (apply CStringEqualNoCase_spec; [discriminate|exact Hma]). rewrite C in Eb. cbn [boundaryParam] in Eb.
    destruct t as [tbl|]; [|discriminate]. cbn [canonGKnown sameKnown wfKnown] in *. destruct Wk as (_ & Won & _ & F2). apply Forall2_len in F2. pose proof (Forall2_len _ _ _ K) as Lk. cbn [paramNames List.length] in F2. destruct tbl as [|o [|o2 tbl]]; [cbn in *; lia| |cbn [List.length] in Lk; lia]. cbn [nth] in Eb. destruct o as [p|]; [|discriminate].
    exists ma, st, p, ps. split; [exact E10|]. split; [exact Hma|]. split; [exact Won|]. assert (Bo : boundaryOf (mHdrs m) = match gvalueText (gpValue p) with Some b => b | None => [] end) by (unfold boundaryOf; rewrite E10; destruct (gpValue p) as [[]|]; reflexivity).
    rewrite Bo. eapply parts_out. exact Eb.
Qed.
Lemma canon_boundary h ma st p ps : List.length (hsCommon h) = 19%nat -> nth 10 (hsCommon h) [] = [VType ma st (Some [Some p]) ps] ->
  boundaryOf (canonHdrs OMsg h) = boundaryOf h /\ withBoundary (canonHdrs OMsg h) = canonHdrs OMsg h /\ withBoundary h = h /\ manyType (canonHdrs OMsg h) = (noType (canonHdrs OMsg h) \/ exists m s t ps, nth 10 (hsCommon (canonHdrs OMsg h)) [] = [VType m s t ps] /\ sameNoCase m (s2b "multipart")).
Proof.
  intros L E. unfold boundaryOf, withBoundary, manyType. rewrite canon_type10, E by exact L. cbn [map canonHVal canonGKnown canonGTable knownNames combine fst snd gpValue]. auto.
Qed.
Lemma part_canon e x : len (bData x) < two32 -> relBody e x (canonBody x) -> sameHdrs (hdrsAsWritten e (bHdrs x)) (hdrsAsWritten e (bHdrs (canonBody x))) -> sameBody (partAsWritten e (partWithLength x)) (partAsWritten e (partWithLength (canonBody x))).
Proof.
  intros Hl [R D] S. unfold partWithLength. pose proof (proj2 (proj2 R) 1%nat) as F. destruct (nth 1 (hsCommon (bHdrs x)) []) as [|v vs], (nth 1 (hsCommon (bHdrs (canonBody x))) []) as [|v' vs']; try (inversion F; fail); [split; [exact S|exact D]|].
  split; [|exact D]. cbn [partAsWritten bHdrs]. assert (A : forall (h : hset) n, hdrsAsWritten e (mkhset (setNth (hsCommon h) 1 [VNum n]) (hsRaw h)) = mkhset (setNth (hsCommon (hdrsAsWritten e h)) 1 [VNum n]) (hsRaw (hdrsAsWritten e h))).
  { intros [cs rs] n. unfold hdrsAsWritten. cbn [hsCommon hsRaw]. f_equal. destruct cs as [|? [|? ?]]; reflexivity. }
  rewrite !A, <- D. apply same_set; [exact S|]. constructor; [reflexivity|constructor].
Qed.
Theorem C50_message_multipart : forall e0 s m s1 e s2 text m' s3 t u, let b := boundaryOf (mHdrs m) in let body := encMultipart e b (mBodies m) in
  parseMsg e0 s = Ok m s1 -> netGood e0 -> e = withMem (memend e) e0 -> eUriNoEscape e = false -> plainLine e (mStart m) -> plainHdrs OMsg e (mHdrs m) ->
  (2 <= List.length (mBodies m))%nat -> Forall (fun x => plainHdrs OBody e (bHdrs x)) (mBodies m) -> ~ In 13 b -> len body < 4294967296 -> noLonger (statedLength (mHdrs m)) (len body) ->
  encMsg [] m e s2 = Ok (text, m') s3 ->
  stable e (mkmsg (mStart m) (hdrsAsWritten e (withMime (withLength (len body) (mHdrs m)))) (map (fun x => partAsWritten e (partWithLength x)) (mBodies m))) text t t u.
Proof.
  intros e0 s m s1 e s2 text m' s3 t u b body H NG Ee He Pl Ph H2 Pp Hb Hlt Hd E. destruct (canon_ready _ _ _ _ _ H NG Ee Pl Ph) as (Ho & Wm & Sl & Sh & Rh). pose proof (proj1 Ho) as L. change (List.length (slotIndexes OMsg)) with 19%nat in L.
  destruct (multi_facts _ _ _ _ _ H (proj2 Wm) Rh L H2) as (ma & st & p & ps & E10 & Hma & Hk & Po). fold b in Po. destruct (canon_boundary _ _ _ _ _ L E10) as (Bc & Wc & Wh & _).
  set (c := mkmsg (canonLine (mStart m)) (canonHdrs OMsg (mHdrs m)) (map canonBody (mBodies m))) in *.
  assert (PR : Forall (fun x => relBody e x (canonBody x) /\ sameHdrs (hdrsAsWritten e (bHdrs x)) (hdrsAsWritten e (bHdrs (canonBody x))) /\ wfPart e b (canonBody x)) (mBodies m)).
  { rewrite Forall_forall in *. intros x Hx. destruct (Po _ Hx) as [P1 P2]. pose proof (Pp _ Hx) as P3. rewrite Ee in P3. apply plain_mem in P3. split; [split; [exact (canon_rel _ _ _ _ NG P1 P3)|reflexivity]|]. split; [rewrite Ee; cbn [canonBody bHdrs]; rewrite !hdrs_mem; eapply canonHdrs_same; eauto|].
    split; [|exact P2]. cbn [canonBody bHdrs]. rewrite Ee. apply wfHdrs_mem. now apply canonHdrs_wf. }
  assert (RB : Forall2 (relBody e) (mBodies m) (mBodies c)) by (cbn [c mBodies]; clear - PR; induction PR as [|x xs Px _ IH]; cbn [map]; constructor; [apply Px|exact IH]).
  assert (R : relMsg e m c) by (split; [symmetry; apply encLine_canon|split; [exact Rh|exact RB]]).
  destruct (enc_rel _ _ _ _ _ _ _ _ R L E) as [c' Ec]. assert (Eb : encMultipart e (boundaryOf (mHdrs c)) (mBodies c) = body) by (cbn [mHdrs c]; rewrite Bc; symmetry; now apply multipart_rel).
  assert (Lc : (2 <= List.length (mBodies c))%nat) by (cbn [c mBodies]; rewrite map_length; exact H2). assert (Mt : manyType (mHdrs c)) by (right; cbn [c mHdrs]; rewrite canon_type10, E10 by exact L; cbn [map canonHVal]; eauto 7).
  assert (Hd' : noLonger (statedLength (mHdrs c)) (len body)) by (cbn [mHdrs c]; rewrite canon_stated by exact L; exact Hd).
  exists (mkmsg (mStart c) (hdrsAsWritten e (withMime (withLength (len body) (mHdrs c)))) (map (fun x => partAsWritten e (partWithLength x)) (mBodies c))). split; [|split].
  - pose proof (C38_multipart_round_trip e c s2 text c' s3 t u) as Q. cbv zeta in Q. rewrite Eb in Q. cbn [c mHdrs] in Q. rewrite Wc, Bc in Q. apply Q; [exact He|exact Hk|exact Wm|exact Lc|exact Mt|exact Hb| |exact Hlt|exact Hd'|exact Ec]. cbn [c mBodies]. rewrite Forall_map. eapply Forall_impl; [|exact PR]. intros x (_ & _ & Px). exact Px.
  - split; [exact Sl|]. split.
    + cbn [mHdrs c]. pose proof (same_length (len body) _ _ Sh) as [S1 S2]. rewrite <- !aw_length in S1. split; [exact S1|reflexivity].
    + cbn [c mBodies]. rewrite map_map. assert (A : forall x, In x (mBodies m) -> len (bData x) < two32) by (intros x Hx; pose proof (data_le e b x _ Hx) as Q; fold body in Q; unfold two32; lia). clear - A PR. induction PR as [|x xs (P1 & P2 & _) _ IH]; cbn [map]; constructor; [apply part_canon; auto; apply A; now left|apply IH; intros; apply A; now right].
  - pose proof (again_multi e c s2 text c' s3) as Q. cbv zeta in Q. rewrite Eb in Q. cbn [c mHdrs] in Q. rewrite Wc in Q. apply Q; [exact Hk|exact (proj2 Wm)|exact Lc|exact Mt|exact Hlt|exact Hd'|exact Ec].
Qed.
Print Assumptions C50_message_multipart.

(** ** The hypotheses are met *)
(** A check that is enough for a message to be plain. *)
Fixpoint unfoldedB (t : bytes) : bool := match t with x :: t' => negb ((x =? 13) && match t' with y :: _ => y =? 13 | [] => false end) && unfoldedB t' | [] => true end.
Lemma unfoldedB_ok t : unfoldedB t = true -> unfolded t.
Proof. intros H a b ->. induction a as [|x a IH]; [discriminate H|]. apply IH. cbn [app unfoldedB] in H. now apply andb_prop in H as [_ H]. Qed.
Definition paramB (p : gparam) : bool := match gpValue p with Some (GQuoted t) => unfoldedB t | _ => true end.
Definition tableB {A} (f : A -> bool) (t : known A) : bool := match t with Some tbl => forallb (fun o => match o with Some p => f p | None => true end) tbl | None => true end.
Lemma tableB_ok {A} (f : A -> bool) (Q : A -> Prop) t : (forall p, f p = true -> Q p) -> tableB f t = true -> match t with Some tbl => forall p, In (Some p) tbl -> Q p | None => True end.
Proof. intros HQ. destruct t as [tbl|]; [|trivial]. cbn [tableB]. rewrite forallb_forall. intros H p Hp. apply HQ. exact (H _ Hp). Qed.
Lemma forallB {A} (f : A -> bool) (Q : A -> Prop) l : (forall p, f p = true -> Q p) -> forallb f l = true -> Forall Q l.
Proof. rewrite forallb_forall, Forall_forall. intros HQ H p Hp. apply HQ, H, Hp. Qed.
Definition paramsB (t : known gparam) (ps : list gparam) : bool := forallb paramB ps && tableB paramB t.
Lemma paramB_ok p : paramB p = true -> plainParam p. Proof. unfold paramB, plainParam. destruct (gpValue p) as [[]|]; auto using unfoldedB_ok. Qed.
Lemma paramsB_ok t ps : paramsB t ps = true -> plainParams t ps.
Proof. intros H. apply andb_prop in H as [H1 H2]. split; [eapply forallB; eauto using paramB_ok|]. now apply (tableB_ok paramB plainParam t paramB_ok). Qed.
Definition uriB (u : auri) : bool := match u with ASip x => forallb (fun h => match upValue h with Some _ => true | None => false end) (uHeaders x) | ATel _ => true end.
Definition addrB (a : addr) : bool := match aName a with Some (true, t) => unfoldedB t | _ => true end && uriB (aUri a).
Lemma addrB_ok a : addrB a = true -> plainAddr a.
Proof.
  intros H. apply andb_prop in H as [H1 H2]. split; [destruct (aName a) as [[[] t]|]; auto using unfoldedB_ok|]. unfold plainUri, uriB in *. destruct (aUri a); [|trivial]. rewrite forallb_forall in H2. intros h Hh. specialize (H2 _ Hh). destruct (upValue h); [discriminate|discriminate H2].
Qed.
Definition noAtB (p : gparam) : bool := match gpValue p with Some (GToken t) | Some (GQuoted t) | Some (GBracket t) => forallb (fun x => negb (x =? 64)) t | None => true end.
Lemma noAtB_ok p : noAtB p = true -> paramNoAt p.
Proof. unfold noAtB, paramNoAt. destruct (gpValue p) as [[t|t|t]|]; trivial; rewrite forallb_forall; intros H Hi; specialize (H _ Hi); discriminate. Qed.
Definition hvalB (e : env) (v : hval) : bool :=
  match v with
  | VAddr a t ps => addrB a && paramsB t ps && match aName a with Some (false, 42 :: _) => false | _ => true end && (aAngle a || eNameSpace e || match aUri a with ASip x => match uUser x with Some _ => true | None => false end | ATel _ => true end || forallb noAtB ps && tableB noAtB t)
  | VVia p _ _ t ps => match p with Proto20 => true | _ => false end && paramsB t ps
  | VType _ _ t ps | VDisp _ t ps => paramsB t ps
  | _ => true
  end.
Lemma hvalB_ok e k v : hvalB e v = true -> plainHVal k v /\ plainAt e v.
Proof.
  destruct v as [ad t1 ps| |pr tr hp t1 ps|n mt|rr c0 mt|n|mn sb t1 ps|d t1 ps|w0 w2]; cbn [hvalB plainHVal plainAt]; try (intros; split; exact Logic.I); try (intros H; split; [now apply paramsB_ok|exact Logic.I]).
  - intros H. apply andb_prop in H as [H H4]. apply andb_prop in H as [H H3]. apply andb_prop in H as [H1 H2]. split.
    + split; [now apply addrB_ok|]. split; [now apply paramsB_ok|]. intros _. unfold notStarred. destruct (aName ad) as [[[] n]|]; trivial. intros t ->. discriminate H3.
    + unfold bareForm. intros Hb. rewrite Hb in H4. cbn [orb] in H4. destruct (aUri ad) as [x|]; [|exact Logic.I]. intros Hu. rewrite Hu in H4. cbn [orb] in H4. apply andb_prop in H4 as [H4 H5]. split; [eapply forallB; eauto using noAtB_ok|]. now apply (tableB_ok noAtB paramNoAt t1 noAtB_ok).
  - intros H. apply andb_prop in H as [H1 H2]. split; [|exact Logic.I]. split; [|now apply paramsB_ok]. destruct pr; [exact Logic.I|discriminate].
Qed.
Definition rawB (x : raw) : bool :=
  match rValue x with [] => false | c :: _ => negb ((c =? 32) || (c =? 9) || (c =? 13)) end && match rName x with Some n => forallb (fun c => negb (c =? 13)) n | None => existsb (N.eqb (rId x)) writtenHeaders end.
Lemma rawB_ok x : rawB x = true -> plainRaw x.
Proof.
  intros H. apply andb_prop in H as [H1 H2]. unfold plainRaw. destruct (rValue x) as [|c l]; [discriminate|]. apply negb_true_iff, orb_false_iff in H1 as [H1 H3]. apply orb_false_iff in H1 as [H0 H1]. rewrite N.eqb_neq in *.
  split; [discriminate|]. split; [intros (y & t & E & Hy); injection E as -> _; destruct Hy; congruence|]. split; [intros (t & E); injection E as -> _; congruence|]. destruct (rName x) as [n|].
  - rewrite forallb_forall in H2. intros Hi. specialize (H2 _ Hi). discriminate.
  - apply existsb_exists in H2 as (i & Hi & E). apply N.eqb_eq in E. now subst.
Qed.
Definition hdrsB (e : env) (h : hset) : bool := match nth 0 (hsCommon h) [] with [] => true | _ => false end && forallb (forallb (hvalB e)) (hsCommon h) && forallb rawB (hsRaw h).
Lemma hdrsB_ok o e h : hdrsB e h = true -> plainHdrs o e h.
Proof.
  intros H. apply andb_prop in H as [H H3]. apply andb_prop in H as [H1 H2]. split; [destruct (nth 0 (hsCommon h) []); [reflexivity|discriminate]|]. split; [|eapply forallB; eauto using rawB_ok].
  intros i k sv vs Hi _. apply in_combine_r in Hi. rewrite forallb_forall in H2. specialize (H2 _ Hi). eapply forallB; [|exact H2]. intros v Hv. now apply hvalB_ok.
Qed.
Definition lineB (e : env) (l : startline) : bool :=
  match l with
  | SRequest _ a _ => addrB a && match aUri a with ASip _ => true | ATel _ => false end
  | SStatus _ _ t => negb (eReasonNoEscape e)
  end.
Lemma lineB_ok e l : lineB e l = true -> plainLine e l.
Proof. destruct l as [m a v|v c t]; cbn [lineB plainLine]; [|intros H1 H2; rewrite H2 in H1; discriminate]. intros H. apply andb_prop in H as [H1 H2]. split; [now apply addrB_ok|]. destruct (aUri a); [eauto|discriminate]. Qed.
Definition line (t : String.string) : bytes := s2b t ++ CRLF.
(** A request without a body, as a peer might write it. *)
Definition exText0 : bytes :=
  line "OPTIONS sip:%61b@h;LR SIP/2.0" ++ line "v: SIP/2.0/UDP h ; BRANCH = z9 , SIP/2.0/TCP [::1]:5060" ++ line "f: ""A B""  <sip:a@h> ;TAG=1" ++ line "T : tel:+1-2;X=y" ++ line "i: 1@h" ++
  line "CSEQ: 1  OPTIONS" ++ line "Max-Forwards: 070" ++ line "X-Y : a" ++ line "  b" ++ CRLF.
(** A response with a body that is cut short of the input, in an environment that writes addresses without brackets. *)
Definition exText1 : bytes :=
  line "SIP/2.0 200 OK%20" ++ line "From: sip:h ;tag=1" ++ line "To: sip:a@h;x=""u@v""" ++ line "m: <sip:h> ; Q=1 , <sip:b@h?x=y>;EXPIRES=3" ++ line "c: Text / PLAIN ; charset=utf-8" ++ line "l: 5" ++ CRLF ++ s2b "hello, and more".
(** Two parts. *)
Definition exText2 : bytes :=
  line "SIP/2.0 200 OK" ++ line "c: MULTIPART/mixed;Boundary=""b 1""" ++ line "l: 9" ++ CRLF ++
  line "--b 1  " ++ line "CONTENT-length: 7" ++ line "e: x" ++ CRLF ++ line "A" ++ line "--b" ++ line "--b 1" ++ line "Content-Type: a/b" ++ line "Content-Disposition: s;HANDLING=r" ++ CRLF ++ s2b "B" ++ CRLF ++ s2b "--b 1--".
Example C50_message_no_body_case : let e := exNet (Some 9000) in exists m s1 text m' s3, parseMsg e (mkst exText0 8) = Ok m s1 /\ plainLine e (mStart m) /\ plainHdrs OMsg e (mHdrs m) /\ mBodies m = [] /\ noType (mHdrs m) /\
  encMsg [] m e (mkst [] 8) = Ok (text, m') s3 /\
  text = line "OPTIONS sip:ab@h;lr SIP/2.0" ++ line "Via: SIP/2.0/UDP h;branch=z9, SIP/2.0/TCP [::1]:5060" ++ line "From: ""A B""<sip:a@h>;tag=1" ++ line "To: <tel:+12>;X=y" ++ line "Call-ID: 1@h" ++ line "Content-Length:          0" ++ line "CSeq: 1 OPTIONS" ++
    line "Max-Forwards: 70" ++ line "X-Y: a" ++ line "  b" ++ CRLF.
Proof.
  cbv zeta. eexists. eexists. eexists. eexists. eexists. split; [vm_compute; reflexivity|]. split; [apply lineB_ok; vm_compute; reflexivity|]. split; [apply hdrsB_ok; vm_compute; reflexivity|]. split; [reflexivity|]. split; [reflexivity|]. split; [vm_compute; reflexivity|]. vm_compute. reflexivity.
Qed.
Example C50_message_one_body_case : let e := bareEnv (Some 9000) in exists m s1 text m' s3, parseMsg e (mkst exText1 8) = Ok m s1 /\ plainLine e (mStart m) /\ plainHdrs OMsg e (mHdrs m) /\ mBodies m = [exBody "hello"] /\ singleType (mHdrs m) /\
  noLonger (statedLength (mHdrs m)) 5 /\ encMsg [] m e (mkst [] 8) = Ok (text, m') s3 /\
  text = line "SIP/2.0 200 OK " ++ line "Contact: <sip:h>;q=1, <sip:b@h?x=y>;expires=3" ++ line "From: sip:h;tag=1" ++ line "To: sip:a@h;x=""u@v""" ++ line "Content-Length:          5" ++ line "Content-Type: Text/PLAIN;charset=utf-8" ++ CRLF ++ s2b "hello".
Proof.
  cbv zeta. eexists. eexists. eexists. eexists. eexists. split; [vm_compute; reflexivity|]. split; [apply lineB_ok; vm_compute; reflexivity|]. split; [apply hdrsB_ok; vm_compute; reflexivity|]. split; [reflexivity|].
  split; [eexists _, _, _, _; split; [reflexivity|]; unfold sameNoCase; vm_compute; discriminate|]. split; [left; reflexivity|]. split; [vm_compute; reflexivity|]. vm_compute. reflexivity.
Qed.
Example C50_message_multipart_case : let e := exNet (Some 9000) in exists m s1 text m' s3, parseMsg e (mkst exText2 8) = Ok m s1 /\ plainLine e (mStart m) /\ plainHdrs OMsg e (mHdrs m) /\ List.length (mBodies m) = 2%nat /\
  Forall (fun x => plainHdrs OBody e (bHdrs x)) (mBodies m) /\ boundaryOf (mHdrs m) = s2b "b 1" /\ noLonger (statedLength (mHdrs m)) (len (encMultipart e (s2b "b 1") (mBodies m))) /\ encMsg [] m e (mkst [] 8) = Ok (text, m') s3 /\
  text = line "SIP/2.0 200 OK" ++ line "Content-Length:        139" ++ line "Content-Type: MULTIPART/mixed;boundary=""b 1""" ++ line "MIME-Version: 1.0" ++ CRLF ++
    line "--b 1" ++ line "Content-Length:          6" ++ line "Content-Encoding: x" ++ CRLF ++ line "A" ++ line "--b" ++ line "--b 1" ++ line "Content-Disposition: s;handling=r" ++ line "Content-Type: a/b" ++ CRLF ++ line "B" ++ s2b "--b 1--".
Proof.
  cbv zeta. eexists. eexists. eexists. eexists. eexists. split; [vm_compute; reflexivity|]. split; [apply lineB_ok; vm_compute; reflexivity|]. split; [apply hdrsB_ok; vm_compute; reflexivity|]. split; [reflexivity|].
  split; [repeat (constructor; [apply hdrsB_ok; vm_compute; reflexivity|]); constructor|]. split; [reflexivity|]. split; [left; reflexivity|]. split; [vm_compute; reflexivity|]. vm_compute. reflexivity.
Qed.
(** ** Outside the domain *)
(** A multipart body without parts is read as no body and written without delimiters; what is written is not accepted. *)
Theorem C50_no_parts_refuted : exists e m s1 text m' s2 s3, parseMsg e (mkst (multi1 (s2b "--b--")) 8) = Ok m s1 /\ mBodies m = [] /\ encMsg [] m e s1 = Ok (text, m') s2 /\ parseMsg e (mkst text 8) = Fail s3.
Proof. exists (exNet (Some 4000)). eexists. eexists. eexists. eexists. eexists. eexists. split; [vm_compute; reflexivity|]. split; [reflexivity|]. split; [vm_compute; reflexivity|]. vm_compute. reflexivity. Qed.
Print Assumptions C50_no_parts_refuted.
(** A stated length with more digits than the body has bytes is not overwritten in full: the body that is read back swallows what follows it. *)
Theorem C50_length_refuted : exists e m s1 text m' s2 y s3, parseMsg e (mkst (s2b "SIP/2.0 200 OK" ++ CRLF ++ s2b "l: 77" ++ CRLF ++ s2b "c: a/b" ++ CRLF ++ CRLF ++ s2b "hello") 8) = Ok m s1 /\ mBodies m = [exBody "hello"] /\
  encMsg [] m e s1 = Ok (text, m') s2 /\ parseMsg e (mkst (text ++ s2b "NEXT") 8) = Ok y s3 /\ mBodies y = [exBody "helloNEXT"].
Proof. exists (exNet (Some 4000)). eexists. eexists. eexists. eexists. eexists. eexists. eexists. split; [vm_compute; reflexivity|]. split; [reflexivity|]. split; [vm_compute; reflexivity|]. split; [vm_compute; reflexivity|]. reflexivity. Qed.
Print Assumptions C50_length_refuted.
