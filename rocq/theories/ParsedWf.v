(** What a successful parse returns satisfies the round-trip predicates, once the recognised names are in the table's spelling. *)
From Verif Require Import Base Charset CharsetSpec CharsetProofs BaseLemmas Num NumSpec NumProofs Lws LwsSpec LwsProofs Str StrSpec StrProofs QuotedSpec QuotedExact Monad Good Rt Seq GoodAuto Inv
  NameSpec MethodTree NameProofs Lookup Host HostSpec HostProofs Uri UriSpec UriGood UriProofs UriSound Tel TelSpec TelProofs TelSound GenParam GenParamSpec GenParamProofs Addr AddrSpec AddrProofs
  StartLine StartLineSpec StartLineProofs Headers HeadersSpec HeadersProofs RawHeaders RawSpec Msg MsgSpec ParsedSpec.

(** ** Quoted strings *)
Lemma fits_any e u n : fits (withMem None e) u n = true. Proof. unfold fits. destruct (n =? 0); reflexivity. Qed.
Lemma copyLWS_any e u r x : copyLWS e u r = Some x -> copyLWS (withMem None e) u r = Some x.
Proof.
  unfold copyLWS. destruct (span isWsp r) as [w1 r1]. rewrite fits_any. cbn [negb]. destruct (negb (fits e u (len w1))); [discriminate|].
  destruct r1 as [|a [|b r2]]; auto. destruct (_ && _)%bool; [|auto]. rewrite fits_any. cbn [negb]. destruct (negb _); [discriminate|]. destruct r2 as [|y r3]; [auto|]. destruct (negb (isWsp y)); [auto|].
  destruct (span isWsp (y :: r3)) as [w2 r4]. rewrite fits_any. cbn [negb]. destruct (negb _); [discriminate|auto].
Qed.
Lemma qLoop_any e : forall f u U r tok k, qLoop f e u U r = QOk tok k -> qLoop f (withMem None e) u U r = QOk tok k.
Proof.
  induction f as [|f IH]; intros u U r tok k; [discriminate|]. cbn [qLoop]. destruct r as [|v r1]; [discriminate|]. destruct (v =? 34); [auto|].
  assert (App : forall w u1 U1 q, qApp w (qLoop f e u1 U1 q) = QOk tok k -> qApp w (qLoop f (withMem None e) u1 U1 q) = QOk tok k).
  { intros w u1 U1 q. destruct (qLoop f e u1 U1 q) as [t q'|q' U'| |] eqn:E; try discriminate. apply IH in E. now rewrite E. }
  destruct (IsLwsChar v).
  - destruct (copyLWS e u (v :: r1)) as [[[w r'] ok]|] eqn:C; [|discriminate]. apply copyLWS_any in C. rewrite C. destruct ok; [apply App|discriminate].
  - destruct (IsSipQuotedText v); [destruct (ltMem e u); [|discriminate]; apply App|]. destruct (v =? 92); [|discriminate]. destruct r1 as [|x r2]; [discriminate|]. destruct (leMem e (u + 2)); [|discriminate]. apply App.
Qed.
Lemma quoted_inv e s tok s' : paQuoted e s = Ok tok s' -> exists src, SWS (rest s) (34 :: src ++ 34 :: rest s') /\ QText plainQd isWsp src tok.
Proof.
  unfold paQuoted. destruct (ParseSWS_2 (rest s)) as [|x r1] eqn:R; [discriminate|]. destruct (N.eqb_spec x 34) as [->|]; [|discriminate]. cbn [negb].
  destruct (qLoop _ e _ _ r1) as [t q| | |] eqn:Q; try discriminate. destruct (negb _); [discriminate|]. intros [= <- <-]. cbn [rest]. apply qLoop_any in Q.
  pose proof (qLoop_exact (withMem None e) (S (List.length r1)) r1 (used s + 2) (used s) ltac:(lia) Logic.I) as X. rewrite Q in X. destruct X as (src & -> & H). exists src. split; [|exact H]. apply ParseSWS_spec, R.
Qed.
Lemma qd_rfc x : plainQd x = true -> qdChar x = true.
Proof.
  intros H. assert (S : forall b, inset SIP_QUOTED_TEXT b = true -> (implb (negb (IsLwsChar b)) (qdChar b)) = true) by (apply inset_sweep; vm_compute; reflexivity).
  unfold plainQd in H. apply andb_prop in H as [H1 H2]. specialize (S x H1). rewrite H2 in S. exact S.
Qed.
Lemma unfolded_quotable src tok : QText plainQd isWsp src tok -> unfolded tok -> quotable tok.
Proof.
  intros H U. induction H as [|x s t Hx H IH|x s t Hx H IH|z s t Hz H IH|x s t H IH]; [constructor|..].
  - apply QBText; [now apply qd_rfc|]. apply IH. intros a b ->. apply (U (x :: a) b). reflexivity.
  - apply QBWs; [exact Hx|]. apply IH. intros a b ->. apply (U (x :: a) b). reflexivity.
  - exfalso. apply (U [] (z :: t)). reflexivity.
  - apply QBPair. apply IH. intros a b ->. apply (U (92 :: x :: a) b). reflexivity.
Qed.
Lemma quoted_out e s tok s' : paQuoted e s = Ok tok s' -> unfolded tok -> quotable tok.
Proof. intros H. apply quoted_inv in H as (src & _ & H). exact (unfolded_quotable _ _ H). Qed.

(** ** Tokens and parameters *)
Lemma token_out e s t s' : paCString SIP_TOKEN e s = Ok t s' -> wfToken t.
Proof. intros H. apply cstring_inv in H as (H1 & H2 & _). split; [exact H1|]. now rewrite <- tokens_rfc. Qed.
Lemma escLoop_token e : forall r u tok r', escLoop SIP_TOKEN e u r = EStop tok r' -> forallb (inset SIP_TOKEN) tok = true.
Proof.
  induction r as [|v r1 IH]; intros u tok r' H; [injection H as <- _; reflexivity|]. cbn [escLoop] in H. destruct (inset SIP_TOKEN v) eqn:Ev.
  - destruct (ltMem e u); [|discriminate]. destruct (escLoop SIP_TOKEN e (u + 1) r1) as [t q|q| |] eqn:E; try discriminate. injection H as <- <-. cbn [forallb]. rewrite Ev. cbn [andb]. exact (IH _ _ _ E).
  - destruct (N.eqb_spec v 37) as [->|]; [vm_compute in Ev; discriminate|]. injection H as <- _. reflexivity.
Qed.
Lemma paramName_out e s n s' : paEscapable SIP_TOKEN e s = Ok n s' -> wfToken n.
Proof.
  unfold paEscapable. destruct (negb _); [discriminate|]. destruct (escLoop SIP_TOKEN e (used s + 2) (rest s)) as [tok r|r| |] eqn:E; try discriminate.
  destruct tok as [|x tok]; [discriminate|]. destruct (negb _); [discriminate|]. intros [= <- _]. split; [discriminate|]. rewrite <- tokens_rfc. exact (escLoop_token _ _ _ _ _ E).
Qed.
Lemma cutAfter_out c r : forall tok r', cutAfter c r = Some (tok, r') -> exists x, tok = x ++ [c] /\ ~ In c x.
Proof.
  induction r as [|y r IH]; intros tok r' H; [discriminate|]. cbn [cutAfter] in H. destruct (N.eqb_spec y c) as [->|Ne].
  - injection H as <- <-. exists []. split; [reflexivity|intros []].
  - destruct (cutAfter c r) as [[a b]|]; [|discriminate]. injection H as <- <-. destruct (IH _ _ eq_refl) as (x & -> & Hx). exists (y :: x). split; [reflexivity|]. intros [->|I]; [congruence|auto].
Qed.
Definition outGValue (v : gvalue) : Prop := match v with GQuoted t => unfolded t -> quotable t | _ => wfGenValue v end.
Lemma genValue_out e s v s' : parseGenValue e s = Ok v s' -> outGValue v.
Proof.
  unfold parseGenValue, onRest. destruct (rest s) as [|x r] eqn:R; [discriminate|]. destruct (IsSipToken x); [|destruct ((x =? 34) || IsLwsChar x)%bool; [|destruct (N.eqb_spec x 91) as [->|]; [|discriminate]]]; intros H.
  - apply bind_inv in H as (t & s1 & E & H). injection H as <- _. exact (token_out _ _ _ _ E).
  - apply bind_inv in H as (t & s1 & E & H). injection H as <- _. exact (quoted_out _ _ _ _ E).
  - destruct (cutAfter 93 (91 :: r)) as [[tok r']|] eqn:C; [|discriminate]. apply bind_inv in H as (t & s1 & E & H). injection H as <- _. unfold paSlice in E. apply bind_inv in E as (b & s2 & E1 & E2).
    apply bind_inv in E2 as ([] & s3 & _ & E2). injection E2 as <- _. unfold allocCString in E1. destruct (leMem _ _); [|discriminate]. injection E1 as <- _.
    cbn [cutAfter] in C. change (91 =? 93) with false in C. cbv iota in C. destruct (cutAfter 93 r) as [[a b]|] eqn:C2; [|discriminate]. injection C as <- <-. apply cutAfter_out in C2 as (y & -> & Hy). exists y. auto.
Qed.
Definition outGParam (p : gparam) : Prop := wfToken (gpName p) /\ match gpValue p with Some v => outGValue v | None => True end.
Lemma genParam_out e s p s' : parseGenParam e s = Ok p s' -> outGParam p.
Proof.
  intros H. apply bind_inv in H as (n & s1 & E & H). apply paramName_out in E. unfold onRest in H. destruct (rest s1) as [|v r]; [injection H as <- _; split; [exact E|exact Logic.I]|].
  destruct (_ && _)%bool; [injection H as <- _; split; [exact E|exact Logic.I]|]. apply bind_inv in H as (m & s2 & _ & H). destruct m; [|injection H as <- _; split; [exact E|exact Logic.I]].
  apply bind_inv in H as (x & s3 & Ex & H). injection H as <- _. split; [exact E|]. exact (genValue_out _ _ _ _ Ex).
Qed.
Lemma outGParam_wf p : outGParam p -> plainParam p -> wfGenParam p.
Proof. intros [H1 H2] H. split; [exact H1|]. unfold plainParam in H. destruct (gpValue p) as [[t|t|t]|]; try exact H2. exact (H2 H). Qed.

(** The loop: an invariant kept in one environment. *)
Lemma loop_env {A B} (body : A -> P (A + B)) (Q : A -> Prop) (R : B -> Prop) e : (forall a s x s', Q a -> body a e s = Ok x s' -> match x with inl a' => Q a' | inr b => R b end) ->
  forall a s b s', Q a -> loopP body a e s = Ok b s' -> R b.
Proof.
  intros H a s b s' Ha E. unfold loopP in E. revert a s b s' Ha E. assert (G : forall f a s b s', Q a -> iterP f body a e s = Ok b s' -> R b); [|intros a s b s' Ha; apply G, Ha].
  induction f as [|f IH]; intros a s b s' Ha E; [discriminate|]. cbn [iterP] in E. apply bind_inv in E as (x & s1 & E1 & E2). apply H in E1; [|exact Ha].
  destruct x as [a'|b']; [exact (IH _ _ _ _ E1 E2)|]. injection E2 as <- _. exact E1.
Qed.
Lemma genParams_out sep on names e s a s' : Forall (fun x => x <> []) names -> parseGenParams sep on names e s = Ok a s' -> outKnown (on e) names gpName outGParam a.
Proof.
  intros Hn. unfold parseGenParams. apply (loop_env _ (outKnown (on e) names gpName outGParam)); [|split; [constructor|split; [intros _ ? ? []|exact Logic.I]]].
  clear a s s'. intros a s x s' Ha E. unfold gpBody, onRest in E. destruct (rest s) as [|y r]; [injection E as <- _; exact Ha|]. destruct (IsOnlyCRLF (y :: r)); [injection E as <- _; exact Ha|].
  destruct (_ && _)%bool; [injection E as <- _; exact Ha|]. destruct (ParseSWSMarkCanOmmit sep (y :: r)) as [[r' m] ok]. destruct ok; [|destruct m; apply bind_inv in E as (q1 & q7 & _ & E); discriminate].
  destruct m; [|injection E as <- _; exact Ha]. apply bind_inv in E as (u0 & s1 & _ & E). apply bind_inv in E as (u1 & s2 & _ & E). apply bind_inv in E as (p & s3 & Ep & E). apply bind_inv in E as (a' & s4 & Ea & E).
  injection E as <- _. apply genParam_out in Ep. unfold withEnv in Ea. eapply addParam_out in Ea; [|exact Hn|exact Ha|exact Ep]. apply Ea.
Qed.

Definition canonGTable (names : list bytes) (tbl : list (option gparam)) : list (option gparam) :=
  map (fun np => match snd np with Some p => Some (mkgp (fst np) (gpValue p)) | None => None end) (combine names tbl).
Definition canonGKnown (names : list bytes) (t : known gparam) : known gparam := match t with Some tbl => Some (canonGTable names tbl) | None => None end.
Lemma canonG_wf on names t ps : Forall wfToken names -> outKnown on names gpName outGParam (t, ps) -> plainParams t ps -> wfGenParams on names (canonGKnown names t) ps.
Proof.
  intros Hn (O1 & O2 & O3) [P1 P2]. cbn [fst snd] in *. split; [split; [exact O2|]|].
  - destruct t as [tbl|]; [|exact Logic.I]. cbn [canonGKnown]. destruct O3 as (On & (p & Hp) & F). split; [exact On|]. split.
    + clear -F Hp. induction F as [|n o names tbl H F IH]; [destruct Hp|]. unfold canonGTable. cbn [combine map present flat_map fst snd]. destruct Hp as [->|Hp]; [cbn; discriminate|].
      specialize (IH Hp). intros X. apply app_eq_nil in X as [_ X]. exact (IH X).
    + clear Hp p On O2 O1. unfold canonGTable. induction F as [|n o names tbl H F IH]; cbn; constructor.
      * inversion Hn; subst. destruct o as [p|]; [|exact Logic.I]. cbn. split; [reflexivity|]. destruct H as [_ H]. assert (W : wfGenParam p) by (apply outGParam_wf; [exact H|apply P2; left; reflexivity]). split; [assumption|apply W].
      * inversion Hn; subst. apply IH; [assumption|]. intros p I. apply P2. right. exact I.
  - apply Forall_forall. intros p I. rewrite Forall_forall in O1, P1. apply outGParam_wf; auto.
Qed.
Lemma canonG_same on names t ps : outKnown on names gpName outGParam (t, ps) -> sameParams t (canonGKnown names t) ps ps.
Proof.
  intros (_ & _ & O3). cbn [fst snd] in O3. split; [|reflexivity]. destruct t as [tbl|]; [|exact Logic.I]. destruct O3 as (_ & _ & F). cbn. unfold canonGTable. induction F as [|n o names tbl H F IH]; [constructor|].
  cbn [combine map fst snd]. constructor; [|exact IH]. destruct o as [p|]; [|exact Logic.I]. split; [apply H|reflexivity].
Qed.
Lemma encGen_canon sep names t ps : encGenParams sep names (canonGKnown names t) ps = encGenParams sep names t ps.
Proof.
  unfold encGenParams. f_equal. destruct t as [tbl|]; [|reflexivity]. unfold encKnown, canonGKnown, canonGTable. revert tbl. induction names as [|n names IH]; intros [|o tbl]; try reflexivity.
  cbn [combine map flat_map fst snd]. f_equal; [destruct o; reflexivity|apply IH].
Qed.

(** ** Addresses *)
Definition canonAUri (u : auri) : auri := match u with ASip x => ASip (canonUri x) | ATel t => ATel (canonTel t) end.
Definition canonAddr (a : addr) : addr := mkaddr (aAngle a) (aName a) (canonAUri (aUri a)).
Definition outAUri (e : env) (u : auri) : Prop := match u with ASip x => outSipUri e x | ATel t => outTelUri e t end.
Lemma telNumber_out e s gn s' : parseTelNumber e s = Ok gn s' -> wfTelNumber (fst gn) (snd gn).
Proof.
  destruct gn as [g n]. intros H. apply telNumber_inv in H as (run & _ & En & Hg & Hl & _ & Hne & Hp). cbn [fst snd]. unfold wfTelNumber. destruct g.
  - destruct (Hg eq_refl) as (ds & -> & Fd & _). rewrite En in *. cbn [filter] in *. change (rfcVisualSep 43) with false in *. cbn [negb] in *. eexists. split; [reflexivity|].
    split; [intros X; rewrite X in Hp; congruence|]. clear -Fd. induction ds as [|x ds IH]; [reflexivity|]. cbn [forallb] in Fd. apply andb_prop in Fd as [Fx Fd]. cbn [filter].
    destruct (rfcVisualSep x) eqn:V; cbn [negb]; [exact (IH Fd)|]. cbn [forallb]. rewrite (IH Fd), andb_true_r. now rewrite orb_false_r in Fx.
  - destruct (Hl eq_refl) as [Fd _]. split; [exact Hne|]. rewrite En. clear -Fd. induction run as [|x ds IH]; [reflexivity|]. cbn [forallb] in Fd. apply andb_prop in Fd as [Fx Fd]. cbn [filter].
    destruct (rfcVisualSep x) eqn:V; cbn [negb]; [exact (IH Fd)|]. cbn [forallb]. rewrite (IH Fd), andb_true_r. now rewrite orb_false_r in Fx.
Qed.
Lemma outTel_none e g n : wfTelNumber g n -> outTelUri e (mktel g false n None None []).
Proof. intros H. split; [exact H|]. split; [reflexivity|split; [split; [constructor|split; [intros _ ? ? []|exact Logic.I]]|constructor]]. Qed.
Lemma telAfter_out e s t s' : parseTelAfterScheme e s = Ok t s' -> outTelUri e t.
Proof.
  intros H. apply bind_inv in H as (gn & s2 & E0 & H). apply telNumber_out in E0. unfold onRest in H. destruct (rest s2) as [|y q]; [injection H as <- _; now apply outTel_none|].
  destruct (y =? 59); [|injection H as <- _; now apply outTel_none]. apply bind_inv in H as (q2 & s3 & _ & H). apply bind_inv in H as (a & s4 & E & H). apply telParams_out in E. injection H as <- _.
  destruct a as [[c d] [k ps]]. split; [exact E0|exact E].
Qed.
Lemma telNoParam_out e s t s' : parseTelAfterSchemeNoParam e s = Ok t s' -> outTelUri e t /\ bareUri (ATel t).
Proof. intros H. apply bind_inv in H as (gn & s2 & E0 & H). apply telNumber_out in E0. injection H as <- _. split; [now apply outTel_none|]. repeat split. Qed.
Lemma uriNoParam_out e sec s x s' : netGood e -> parseUriAfterSchemeNoParam sec e s = Ok x s' -> outSipUri e x /\ bareUri (ASip x).
Proof.
  intros NG H. apply bind_inv in H as (up & s1 & Eu & H). apply userinfo_out in Eu as [U1 U2]. apply bind_inv in H as (h & s2 & Eh & H). apply hostport_out in Eh; [|exact NG]. injection H as <- _.
  split; [|repeat split]. split; [exact U1|]. split; [exact U2|]. split; [exact Eh|]. split; [split; [constructor|split; [intros _ ? ? []|exact Logic.I]]|constructor].
Qed.
Lemma spec_out e ps sch s u s' : netGood e -> parseSpec ps sch e s = Ok u s' -> outAUri e u /\ (ps = false -> bareUri u).
Proof.
  intros NG H. destruct sch; cbn [parseSpec] in H; try discriminate; apply bind_inv in H as (u0 & s1 & _ & H); apply bind_inv in H as (x & s2 & E & H); injection H as <- _; destruct ps;
    try (split; [|discriminate]); cbn [outAUri].
  - eapply uriAfterScheme_out; eassumption.
  - apply uriNoParam_out in E as [E1 E2]; [|exact NG]. auto.
  - eapply uriAfterScheme_out; eassumption.
  - apply uriNoParam_out in E as [E1 E2]; [|exact NG]. auto.
  - eapply telAfter_out; eassumption.
  - apply telNoParam_out in E as [E1 E2]. auto.
Qed.
Lemma lwsAny r r' : ParseLWS r = (r', true) -> exists w, r = w ++ r' /\ (w = [] \/ LWS w).
Proof.
  intros P. pose proof (ParseSWS_consumes r) as H. unfold ParseSWS_2 in H. rewrite P in H.
  destruct r as [|x r]; [vm_compute in P; injection P as <-; exact H|]. destruct (IsLwsChar x) eqn:L; cbn [negb] in H; [exact H|].
  assert (N1 : ~ startsWsp (x :: r)) by (intros (y & t & [= <- <-] & [->| ->]); discriminate).
  assert (N2 : ~ startsCRLF (x :: r)) by (intros (t & [= -> _]); discriminate).
  pose proof (ParseLWS_plain [] (x :: r) (Forall_nil _) N1 N2) as Q. cbn [app] in Q. rewrite P in Q. injection Q as ->. exact H.
Qed.
Lemma tokensLoop_out e : forall f s s', iterP f tokensBody tt e s = Ok tt s' -> exists c, rest s = c ++ rest s' /\ (c = [] \/ TokenSeq c).
Proof.
  induction f as [|f IH]; intros s s' H; [discriminate|]. rewrite iterP_step in H. unfold tokensBody, onRest in H. destruct (rest s) as [|x r] eqn:R; [injection H as <-; rewrite R; exists []; auto|].
  destruct (IsSipToken x) eqn:Ex; cbn [negb] in H; [|injection H as <-; rewrite R; exists []; auto].
  destruct (span (inset SIP_TOKEN) (x :: r)) as [t q] eqn:Sp. cbn [snd] in H. destruct (ParseLWS q) as [r1 []] eqn:L; [|discriminate]. cbv beta iota delta [bind goto ret] in H.
  apply IH in H as (c & Ec & Hc). cbn [rest] in Ec. apply lwsAny in L as (w & -> & Hw). pose proof (span_app _ _ _ _ Sp) as E1. pose proof (span_stops _ _ _ _ Sp) as E2. pose proof (span_all _ _ _ _ Sp) as E3.
  assert (Tk : wfToken t).
  { split; [|now rewrite <- tokens_rfc]. intros ->. cbn [app] in E1. rewrite <- E1 in E2. cbn [stops] in E2. unfold IsSipToken in Ex. now rewrite Ex in E2. }
  exists (t ++ w ++ c). split; [rewrite E1, Ec, <- !app_assoc; reflexivity|]. right. destruct Hc as [->|Hc]; [rewrite app_nil_r; destruct Hw as [->|Hw]; [rewrite app_nil_r; now apply TokOne|now apply TokLast]|].
  destruct Hw as [->|Hw]; [|now apply TokMore]. exfalso. cbn [app] in E2. rewrite Ec in E2. destruct (tokenSeq_head _ Hc) as (y & c' & -> & Hy). cbn [app stops] in E2. rewrite token_rfc, Hy in E2. discriminate.
Qed.
Lemma tokens_out e s n s' : (exists x r, rest s = x :: r /\ IsSipToken x = true) -> parseTokens e s = Ok n s' -> TokenSeq n.
Proof.
  intros (x & r & R & Hx) H. unfold parseTokens, onRest in H. apply bind_inv in H as ([] & s1 & E & H). unfold loopP in E.
  assert (Pr : len (rest s1) < len (rest s)).
  { pose proof (span_len (inset SIP_TOKEN) (rest s)) as SL. assert (E0 := E). rewrite iterP_step in E. unfold tokensBody, onRest in E. rewrite R in E. rewrite Hx in E. cbn [negb] in E.
    pose proof (ParseLWS_suffix (snd (span (inset SIP_TOKEN) (x :: r)))) as S1. destruct (ParseLWS _) as [r1 []]; [|discriminate]. cbv beta iota delta [bind goto ret] in E. cbn [fst] in S1.
    apply tokensLoop_out in E as (c & Ec & _). cbn [rest] in Ec. apply suffix_len in S1. rewrite Ec, len_app in S1. rewrite R in SL |- *. destruct (span (inset SIP_TOKEN) (x :: r)) as [t q] eqn:Sp. cbn [fst snd] in *.
    assert (t <> []). { intros ->. pose proof (span_app _ _ _ _ Sp) as Q. pose proof (span_stops _ _ _ _ Sp) as Q2. cbn [app] in Q. rewrite <- Q in Q2. cbn [stops] in Q2. unfold IsSipToken in Hx. now rewrite Hx in Q2. }
    pose proof (span_app _ _ _ _ Sp) as Q. rewrite Q, len_app. destruct t as [|y t]; [congruence|]. rewrite len_cons. lia. }
  apply tokensLoop_out in E as (c & Ec & Hc). unfold storeSince, onRest, allocCString in H. destruct (leMem _ _); [|discriminate]. injection H as <- _.
  destruct Hc as [->|Hc]; [cbn [app] in Ec; rewrite Ec in Pr; lia|]. rewrite Ec, app_length. replace (List.length c + List.length (rest s1) - List.length (rest s1))%nat with (List.length c) by lia.
  rewrite firstn_app, Nat.sub_diag, firstn_all, firstn_O, app_nil_r. exact Hc.
Qed.
Definition outDisplay (n : option (bool * bytes)) : Prop := match n with Some (true, q) => unfolded q -> quotable q | _ => wfDisplay n end.
Lemma display_out e s n s' : rest s <> [] -> parseDisplayName e s = Ok n s' -> outDisplay (Some n).
Proof.
  intros Hne H. unfold parseDisplayName, onRest in H. destruct (rest s) as [|x r] eqn:R; [congruence|]. destruct (IsSipToken x) eqn:Ex; apply bind_inv in H as (t & s1 & E & H); injection H as <- _; cbn.
  - eapply tokens_out; [|exact E]. eauto.
  - eapply quoted_out; exact E.
Qed.
(** What an address parse returns: with or without angle brackets. *)
Definition outAddr (e : env) (a : addr) : Prop := outDisplay (aName a) /\ outAUri e (aUri a) /\ (aAngle a = false -> aName a = None).
Lemma nameAddr_out e s a s' : netGood e -> parseNameAddr e s = Ok a s' -> outAddr e a /\ aAngle a = true.
Proof.
  intros NG H. apply bind_inv in H as (q3 & s1 & _ & H). apply bind_inv in H as (n & s2 & E & H). apply bind_inv in H as (sc & s3 & _ & H). apply bind_inv in H as (u & s4 & Eu & H). apply bind_inv in H as (q4 & s5 & _ & H). injection H as <- _.
  apply spec_out in Eu as [Eu _]; [|exact NG]. split; [|reflexivity]. split; [|split; [exact Eu|discriminate]]. cbn [aName]. unfold onRest in E. destruct (rest s1) as [|x r] eqn:R; [discriminate|]. destruct (negb (x =? 60)).
  - apply bind_inv in E as (n0 & s6 & En & E). apply bind_inv in E as (q5 & q8 & _ & E). injection E as <- _. eapply display_out; [|exact En]. congruence.
  - apply bind_inv in E as (q6 & q9 & _ & E). injection E as <- _. exact Logic.I.
Qed.
Lemma addr_out e ps s a s' : netGood e -> parseAddr ps e s = Ok a s' -> outAddr e a /\ (ps = false -> aAngle a = false -> bareUri (aUri a)).
Proof.
  intros NG H. unfold parseAddr, onRest in H. destruct (rest s) as [|x r]; [discriminate|]. destruct (_ || _)%bool.
  - apply nameAddr_out in H as [H1 H2]; [|exact NG]. split; [exact H1|congruence].
  - apply bind_inv in H as (o & s1 & E & H). destruct o as [sc|b].
    + apply bind_inv in H as (u & s2 & Eu & H). injection H as <- _. apply spec_out in Eu as [Eu1 Eu2]; [|exact NG]. split; [|auto]. split; [exact Logic.I|]. split; [exact Eu1|reflexivity].
    + injection H as <- _. unfold orRestore in E. destruct ((s0 <- parseScheme ;; ret (inl s0)) e s) as [y s2|s2| |] eqn:E1; try discriminate.
      * apply bind_inv in E1 as (sc & s3 & _ & E1). injection E1 as <- _. discriminate.
      * apply bind_inv in E as (b0 & s3 & E2 & E). injection E as <- _. apply nameAddr_out in E2 as [H1 H2]; [|exact NG]. split; [exact H1|congruence].
Qed.
Lemma addrSpec_out e s a s' : netGood e -> parseAddrSpec e s = Ok a s' -> outAddr e a /\ aAngle a = false.
Proof. intros NG H. apply bind_inv in H as (sc & s1 & _ & H). apply bind_inv in H as (u & s2 & Eu & H). injection H as <- _. apply spec_out in Eu as [Eu _]; [|exact NG]. split; [|reflexivity]. split; [exact Logic.I|]. split; [exact Eu|reflexivity]. Qed.

Lemma canonTable_entry ns tbl : Forall2 (fun n o => match o with Some p => sameNoCase (upName p) n /\ wfParam p | None => True end) ns tbl -> Forall2 (sameEntry upName upValue) tbl (canonTable ns tbl).
Proof. unfold canonTable. induction 1 as [|n o ns tbl H F IH]; [constructor|]. cbn [combine map fst snd]. constructor; [|exact IH]. destruct o as [p|]; [|exact Logic.I]. split; [apply H|reflexivity]. Qed.
Lemma canonAUri_same e u : outAUri e u -> sameAUri u (canonAUri u).
Proof.
  destruct u as [x|t]; cbn [outAUri canonAUri sameAUri].
  - intros (_ & _ & _ & (_ & _ & O) & _). cbn [fst snd] in O. unfold sameSip, canonUri. cbn [uSecure uUser uPass uHost uKnown uParams uHeaders]. do 4 (split; [reflexivity|]). split; [|split; reflexivity].
    destruct (uKnown x) as [tbl|]; [|exact Logic.I]. apply canonTable_entry, O.
  - intros (_ & Oc & (_ & _ & O) & _). cbn [fst snd] in *. unfold sameTelUri, canonTel. cbn [tGlobal tNumber tKnown tParams tContext tDomain]. split; [reflexivity|]. split; [reflexivity|]. split; [|split; [reflexivity|]].
    + destruct (tKnown t) as [tbl|]; [|exact Logic.I]. apply canonTable_entry, O.
    + destruct (tGlobal t); [reflexivity|]. split; [reflexivity|]. unfold outContext in Oc. cbn [fst snd] in Oc. destruct (tContext t) as [p|]; [|exact Logic.I]. split; [apply Oc|reflexivity].
Qed.
Lemma canonAUri_wf e u : outAUri e u -> plainUri u -> wfAUri e (canonAUri u).
Proof. destruct u as [x|t]; cbn [outAUri canonAUri wfAUri plainUri]; intros O Pl; [now apply canonUri_wf|now apply canonTel_wf]. Qed.
Lemma encAUri_canon e u : encAUri e (canonAUri u) = encAUri e u.
Proof. destruct u as [x|t]; cbn; [apply encSipUri_canon|apply encTel_canon]. Qed.
Lemma bareUri_canon u : bareUri u -> bareUri (canonAUri u).
Proof. destruct u as [x|t]; cbn; intros (H1 & H2 & H3); [rewrite H1; auto|]. rewrite H1, H2. destruct (tGlobal t); auto. Qed.
Lemma canonAddr_wf e a : outAddr e a -> plainAddr a -> wfAddr e (canonAddr a).
Proof.
  intros (O1 & O2 & O3) [P1 P2]. split; [|split; [now apply canonAUri_wf|exact O3]]. cbn [aName canonAddr]. destruct (aName a) as [[[] n]|]; [exact (O1 P1)|exact O1|exact Logic.I].
Qed.
Lemma canonAddr_same e a : outAddr e a -> sameAddr a (canonAddr a).
Proof. intros (_ & O & _). split; [reflexivity|]. split; [reflexivity|]. eapply canonAUri_same, O. Qed.
Lemma encAddr_canon e a : encAddr e (canonAddr a) = encAddr e a.
Proof. unfold encAddr, canonAddr. cbn [aAngle aName aUri]. rewrite !encAUri_canon. reflexivity. Qed.

(** ** Start lines *)
Lemma fromPos_inv e p mid cs s tok s' : rest s = p ++ mid -> paCStringFromPos mid cs e s = Ok tok s' -> exists q, tok = p ++ q /\ mid = q ++ rest s' /\ forallb (inset cs) q = true /\ stops (inset cs) (rest s') = true /\ tok <> [].
Proof.
  intros Er H. unfold paCStringFromPos in H. rewrite Er, app_length in H. replace (List.length p + List.length mid - List.length mid)%nat with (List.length p) in H by lia.
  rewrite firstn_app, Nat.sub_diag, firstn_all, firstn_O, app_nil_r in H. destruct (_ && _)%bool; [discriminate|]. destruct (negb _); [discriminate|].
  destruct (span (inset cs) mid) as [q r] eqn:Sp. destruct (negb _); [discriminate|]. destruct (p ++ q) as [|x t] eqn:Ep; [discriminate|]. destruct (negb _); [discriminate|]. injection H as <- <-.
  exists q. cbn [rest]. split; [auto|]. split; [exact (span_app _ _ _ _ Sp)|]. split; [exact (span_all _ _ _ _ Sp)|]. split; [exact (span_stops _ _ _ _ Sp)|discriminate].
Qed.
Lemma method_out e s m s' : parseMethod e s = Ok m s' -> wfMethod m.
Proof.
  unfold parseMethod, onRest. destruct (GetSipMethodIndex (rest s)) as [[i mid]|] eqn:G; [|discriminate]. unfold SIP_METHOD_UNKNOWN. destruct (N.eqb_spec i 0) as [->|Hi]; intros H.
  - apply bind_inv in H as (t & s1 & E & H). injection H as <- _. destruct (method_skips _ _ _ G) as (p & Er & Fp). destruct (fromPos_inv _ p _ _ _ _ _ Er E) as (q & Et & Em & Fq & St & Hne). rewrite Et in *. clear t Et E.
    split; [split; [exact Hne|]|].
    + rewrite <- tokens_rfc, forallb_app, Fq, andb_true_r. exact Fp.
    + intros i I. assert (NE : nameEnds (rest s1)) by (destruct (rest s1) as [|y r]; [exact Logic.I|]; cbn in St |- *; now apply negb_true_iff in St).
      pose proof (method_complete _ _ _ I NE) as C. rewrite <- app_assoc, <- Em, <- Er, G in C. injection C as C _. apply methodNames_nz in I. congruence.
  - injection H as <- _. assert (X : GetSipMethodIndex (rest s) = Some (i, mid) /\ i <> SIP_METHOD_UNKNOWN) by (split; [exact G|exact Hi]). apply method_spec in X as (name & I & _). exists name. exact I.
Qed.
Lemma digits_rfc q : forallb (inset DIGIT) q = forallb rfcDIGIT q.
Proof. induction q as [|x q IH]; [reflexivity|]. cbn [forallb]. rewrite IH. f_equal. change (inset DIGIT x) with (IsDigit x). rewrite IsDigit_isDec. reflexivity. Qed.
Lemma versionDigits_out e s v s' : (forall w, rest s = s2b "2.0" ++ w -> exists d w', w = d :: w' /\ IsDigit d = true) -> versionDigits (rest s) e s = Ok v s' -> wfVersion v.
Proof.
  intros N20. unfold versionDigits. destruct (span (inset DIGIT) (rest s)) as [ma r1] eqn:Sp. pose proof (span_app _ _ _ _ Sp) as E0. pose proof (span_all _ _ _ _ Sp) as Ha. destruct ma as [|a ma]; [discriminate|].
  destruct r1 as [|x mid]; [discriminate|]. destruct (N.eqb_spec x 46) as [->|]; [|discriminate]. cbn [negb]. intros E. apply bind_inv in E as (t & s1 & E1 & E2).
  assert (E0' : rest s = ((a :: ma) ++ [46]) ++ mid) by (rewrite <- app_assoc; exact E0). destruct (fromPos_inv _ _ _ _ _ _ _ E0' E1) as (q & Et & Em & Fq & St & _). rewrite Et in *. clear t Et E1.
  unfold onRest in E2. destruct (Nat.leb_spec (List.length mid) (List.length (rest s1))) as [L|L]; [discriminate|]. injection E2 as <- _. split.
  - intros X. specialize (N20 (rest s1)). rewrite <- X in N20. rewrite E0, Em, <- !app_assoc in N20. destruct N20 as (d & w' & Ed & Hd); [cbn [app]; rewrite <- !app_assoc; reflexivity|]. rewrite Ed in St. cbn [stops] in St.
    unfold IsDigit in Hd. rewrite Hd in St. discriminate.
  - exists (a :: ma), q. split; [rewrite <- app_assoc; reflexivity|]. split; [discriminate|]. split; [intros ->; cbn [app] in Em; rewrite Em in L; lia|]. rewrite <- !digits_rfc. auto.
Qed.
Lemma versionAfter_out e s v s' : parseVersionAfter e s = Ok v s' -> wfVersion v.
Proof.
  pose proof (versionDigits_out e s v s') as D. unfold parseVersionAfter, onRest. destruct s as [r u]. cbn [rest] in *. destruct r as [|a r]; [discriminate|].
  destruct (N.eqb_spec a 50) as [->|Na]; [|apply D; intros w X; change (s2b "2.0") with [50; 46; 48] in X; cbn [app] in X; congruence]. destruct r as [|b r]; [discriminate|]. destruct (N.eqb_spec b 46) as [->|Nb]; [|apply D; intros w X; change (s2b "2.0") with [50; 46; 48] in X; cbn [app] in X; congruence]. destruct r as [|c r]; [discriminate|].
  destruct (N.eqb_spec c 48) as [->|Nc]; [|apply D; intros w X; change (s2b "2.0") with [50; 46; 48] in X; cbn [app] in X; congruence]. destruct r as [|d r]; [rewrite goto_bind; intros [= <- _]; exact Logic.I|].
  destruct (negb (IsDigit d)) eqn:Ed; [rewrite goto_bind; intros [= <- _]; exact Logic.I|]. apply D. intros w X. change (s2b "2.0") with [50; 46; 48] in X. cbn [app] in X. injection X as <-. apply negb_false_iff in Ed. eauto.
Qed.
Lemma uintW_lt w e s v s' : w <> 0 -> pUIntW w e s = Ok v s' -> v < w.
Proof. intros Hw H. apply bind_inv in H as (n & s1 & _ & H). injection H as <- _. now apply N.mod_lt. Qed.
Definition canonLine (l : startline) : startline := match l with SRequest m a v => SRequest m (canonAddr a) v | _ => l end.
Lemma startLine_out e s l s' : netGood e -> parseStartLine e s = Ok l s' -> plainLine e l -> wfStartLine e (canonLine l) /\ sameLine l (canonLine l).
Proof.
  intros NG H Pl. unfold parseStartLine, onRest in H. destruct (versionStart (rest s)) as [r4|].
  - rewrite goto_bind in H. unfold parseStatusLine in H. apply bind_inv in H as (v & s1 & Ev & H). apply bind_inv in H as (u1 & s2 & _ & H). apply bind_inv in H as (c & s3 & Ec & H).
    apply bind_inv in H as (u2 & s4 & _ & H). apply bind_inv in H as (t & s5 & Et & H). apply bind_inv in H as (u3 & s6 & _ & H). injection H as <- _. apply versionAfter_out in Ev. apply uintW_lt in Ec; [|discriminate].
    apply escapableEmpty_inv in Et. split; [|cbn; auto]. cbn. auto.
  - unfold parseRequestLine in H. apply bind_inv in H as (m & s1 & Em & H). apply bind_inv in H as (u1 & s2 & _ & H). apply bind_inv in H as (a & s3 & Ea & H).
    apply bind_inv in H as (u2 & s4 & _ & H). apply bind_inv in H as (v & s5 & Ev & H). apply bind_inv in H as (u3 & s6 & _ & H). injection H as <- _. apply method_out in Em. apply addrSpec_out in Ea as [Ea Eg]; [|exact NG].
    unfold parseVersion, onRest in Ev. destruct (versionStart (rest s4)) as [q4|]; [|discriminate]. rewrite goto_bind in Ev. apply versionAfter_out in Ev. cbn in Pl. destruct Pl as [Pa (x & Ex)].
    split; [|cbn; split; [reflexivity|split; [eapply canonAddr_same, Ea|reflexivity]]]. cbn. split; [exact Em|]. split; [exact Ev|]. exists (canonUri x). pose proof (canonAddr_wf _ _ Ea Pa) as (_ & W & _).
    destruct Ea as (_ & _ & En). specialize (En Eg). unfold canonAddr in *. cbn [aUri] in W. rewrite Ex in *. cbn [canonAUri wfAUri] in *. rewrite Eg, En. auto.
Qed.
Lemma encLine_canon e l : encStartLine e (canonLine l) = encStartLine e l.
Proof.
  destruct l as [m a v|v c t]; [|reflexivity]. unfold encStartLine, canonLine. assert (E : encAddrSpec e (canonAddr a) = encAddrSpec e a); [|now rewrite E].
  unfold encAddrSpec, canonAddr. cbn [aUri]. destruct (aUri a) as [x|t]; cbn [canonAUri]; [apply encSipUri_canon|reflexivity].
Qed.

(** ** Header values *)
Definition canonHVal (k : hkind) (v : hval) : hval :=
  match v with
  | VAddr a t ps => VAddr (canonAddr a) (canonGKnown (knownNames k) t) ps
  | VVia p tr h t ps => VVia p tr h (canonGKnown (knownNames k) t) ps
  | VType m s t ps => VType m s (canonGKnown (knownNames k) t) ps
  | VDisp d t ps => VDisp d (canonGKnown (knownNames k) t) ps
  | _ => v
  end.
Lemma knownNames_tok k : Forall wfToken (knownNames k).
Proof. destruct k; cbn [knownNames]; repeat constructor; (discriminate || (vm_compute; reflexivity)). Qed.
Lemma knownNames_ne k : Forall (fun x => x <> []) (knownNames k).
Proof. destruct k; cbn [knownNames]; repeat constructor; discriminate. Qed.
Lemma params_out k e s tp s' : parseParams k e s = Ok tp s' -> plainParams (fst tp) (snd tp) ->
  wfParams e k (canonGKnown (knownNames k) (fst tp)) (snd tp) /\ sameParams (fst tp) (canonGKnown (knownNames k) (fst tp)) (snd tp) (snd tp).
Proof.
  intros H Pl. destruct tp as [t ps]. cbn [fst snd] in *. apply genParams_out in H; [|apply knownNames_ne]. split; [|eapply canonG_same, H]. unfold wfParams.
  assert (E1 : paramNames k = knownNames k) by (destruct k; reflexivity). assert (E2 : recognise k e = knownOn k e) by (destruct k; reflexivity). rewrite E1, E2. apply canonG_wf; [apply knownNames_tok|exact H|exact Pl].
Qed.
Lemma canonStar a : notStarred a -> notStarred (canonAddr a). Proof. exact (fun H => H). Qed.
Lemma hval_out e k s v s' : netGood e -> parseHVal k e s = Ok v s' -> plainHVal k v -> wfHVal e k (canonHVal k v) /\ sameHVal v (canonHVal k v).
Proof.
  intros NG H Pl.
  assert (FT : forall k e s v s', netGood e -> parseFromTo k e s = Ok v s' -> plainHVal k v -> exists a t ps, v = VAddr a t ps /\ wfAddr e (canonAddr a) /\ sameAddr a (canonAddr a) /\ wfParams e k (canonGKnown (knownNames k) t) ps /\ sameParams t (canonGKnown (knownNames k) t) ps ps).
  { clear. intros k e s v s' NG H Pl. apply bind_inv in H as (a & s1 & Ea & H). apply bind_inv in H as (tp & s2 & Et & H). injection H as <- _. cbn in Pl. destruct Pl as (P1 & P2 & _). apply addr_out in Ea as [Ea _]; [|exact NG].
    apply params_out in Et as [W1 W2]; [|exact P2]. exists a, (fst tp), (snd tp). split; [reflexivity|]. split; [now apply canonAddr_wf|]. split; [eapply canonAddr_same, Ea|]. auto. }
  assert (RT : forall k e s v s', netGood e -> parseRoute k e s = Ok v s' -> plainHVal k v -> exists a t ps, v = VAddr a t ps /\ aAngle a = true /\ wfAddr e (canonAddr a) /\ sameAddr a (canonAddr a) /\ wfParams e k (canonGKnown (knownNames k) t) ps /\ sameParams t (canonGKnown (knownNames k) t) ps ps).
  { clear. intros k e s v s' NG H Pl. apply bind_inv in H as (a & s1 & Ea & H). apply bind_inv in H as (tp & s2 & Et & H). injection H as <- _. cbn in Pl. destruct Pl as (P1 & P2 & _). apply nameAddr_out in Ea as [Ea Eg]; [|exact NG].
    apply params_out in Et as [W1 W2]; [|exact P2]. exists a, (fst tp), (snd tp). split; [reflexivity|]. split; [exact Eg|]. split; [now apply canonAddr_wf|]. split; [eapply canonAddr_same, Ea|]. auto. }
  destruct k; cbn [parseHVal] in H.
  - apply FT in H as (a & t & ps & -> & W1 & W2 & W3 & W4); [|assumption|assumption]. cbn. auto.
  - apply FT in H as (a & t & ps & -> & W1 & W2 & W3 & W4); [|assumption|assumption]. cbn. auto.
  - apply bind_inv in H as (p & s1 & Ep & H). apply bind_inv in H as (tr & s2 & Etr & H). apply bind_inv in H as (u0 & s3 & _ & H). apply bind_inv in H as (h & s4 & Eh & H). apply bind_inv in H as (tp & s5 & Et & H). injection H as <- _.
    cbn in Pl. destruct Pl as (P1 & P2). apply params_out in Et as [W1 W2]; [|exact P2]. apply token_out in Etr. apply hostport_out in Eh; [|exact NG]. split; [|cbn; auto]. cbn. split; [|auto].
    assert (Oth : otherProtocol e s = Ok p s1 -> wfProto p).
    { intros E. apply bind_inv in E as (u1 & q1 & _ & E). apply bind_inv in E as (n & q2 & En & E). apply bind_inv in E as (u2 & q3 & _ & E). apply bind_inv in E as (w & q4 & Ew & E). apply bind_inv in E as (u3 & q5 & _ & E). injection E as <- _.
      apply token_out in En, Ew. split; [exact En|]. split; [exact Ew|]. exact P1. }
    unfold parseSentProtocol, onRest in Ep. destruct (rest s) as [|c1 [|c2 [|c3 [|c4 [|c5 [|c6 [|c7 [|c8 r]]]]]]]]; try (exact (Oth Ep)).
    destruct (_ && _)%bool; [|exact (Oth Ep)]. rewrite goto_bind in Ep. apply bind_inv in Ep as (u1 & q1 & _ & Ep). injection Ep as <- _. exact Logic.I.
  - apply bind_inv in H as (u0 & s1 & _ & H). unfold onRest in H. destruct (rest s1) as [|x r]; [discriminate|]. destruct (x =? 42).
    + rewrite goto_bind in H. apply bind_inv in H as (u1 & s2 & _ & H). injection H as <- _. cbn. auto.
    + assert (Pl' := Pl). apply FT in H as (a & t & ps & -> & W1 & W2 & W3 & W4); [|assumption|assumption]. cbn in Pl |- *. destruct Pl as (_ & _ & Ps). split; [|auto]. split; [exact W1|]. split; [exact W3|]. exact (Ps eq_refl).
  - apply RT in H as (a & t & ps & -> & Eg & W1 & W2 & W3 & W4); [|assumption|assumption]. cbn in *. auto.
  - apply RT in H as (a & t & ps & -> & Eg & W1 & W2 & W3 & W4); [|assumption|assumption]. cbn in *. auto.
  - apply RT in H as (a & t & ps & -> & Eg & W1 & W2 & W3 & W4); [|assumption|assumption]. cbn in *. auto.
  - apply RT in H as (a & t & ps & -> & Eg & W1 & W2 & W3 & W4); [|assumption|assumption]. cbn in *. auto.
  - apply bind_inv in H as (a & s1 & Ea & H). injection H as <- _. apply addr_out in Ea as [Ea _]; [|exact NG]. cbn in Pl |- *. destruct Pl as (P1 & _). split; [now apply canonAddr_wf|]. split; [eapply canonAddr_same, Ea|]. split; [exact Logic.I|reflexivity].
  - apply bind_inv in H as (n & s1 & En & H). apply bind_inv in H as (u0 & s2 & _ & H). apply bind_inv in H as (m & s3 & Em & H). injection H as <- _. apply uintW_lt in En; [|discriminate]. apply method_out in Em. cbn. auto.
  - apply bind_inv in H as (n & s1 & En & H). apply bind_inv in H as (u0 & s2 & _ & H). apply bind_inv in H as (c & s3 & Ec & H). apply bind_inv in H as (u1 & s4 & _ & H). apply bind_inv in H as (m & s5 & Em & H). injection H as <- _.
    apply uintW_lt in En, Ec; [|discriminate|discriminate]. apply method_out in Em. cbn. auto.
  - apply bind_inv in H as (n & s1 & En & H). injection H as <- _. apply uintW_lt in En; [|discriminate]. cbn. auto.
  - apply bind_inv in H as (n & s1 & En & H). injection H as <- _. apply uintW_lt in En; [|discriminate]. cbn. auto.
  - apply bind_inv in H as (n & s1 & En & H). injection H as <- _. apply uintW_lt in En; [|discriminate]. cbn. auto.
  - apply bind_inv in H as (n & s1 & En & H). injection H as <- _. apply uintW_lt in En; [|discriminate]. cbn. auto.
  - apply bind_inv in H as (m & s1 & Em & H). apply bind_inv in H as (u0 & s2 & _ & H). apply bind_inv in H as (b & s3 & Eb & H). apply bind_inv in H as (tp & s4 & Et & H). injection H as <- _. apply token_out in Em, Eb.
    cbn in Pl. apply params_out in Et as [W1 W2]; [|exact Pl]. cbn. auto.
  - apply bind_inv in H as (d & s1 & Ed & H). apply bind_inv in H as (tp & s4 & Et & H). injection H as <- _. apply token_out in Ed. cbn in Pl. apply params_out in Et as [W1 W2]; [|exact Pl]. cbn. auto.
  - assert (Wd : forall s w s', paCString SIP_WORD e s = Ok w s' -> wfWord w).
    { clear. intros s w s' H. apply cstring_inv in H as (H1 & H2 & _). split; [exact H1|]. now rewrite <- words_rfc. }
    apply bind_inv in H as (w & s1 & Ew & H). apply Wd in Ew. unfold onRest in H. destruct (rest s1) as [|x r]; [injection H as <- _; cbn; auto|]. destruct (x =? 64); [|injection H as <- _; cbn; auto].
    rewrite goto_bind in H. apply bind_inv in H as (w2 & s2 & Ew2 & H). injection H as <- _. apply Wd in Ew2. cbn. auto.
Qed.
Lemma encHVal_canon e k v : encHVal e k (canonHVal k v) = encHVal e k v.
Proof. destruct v; cbn [canonHVal encHVal]; rewrite ?encAddr_canon, ?encGen_canon; reflexivity. Qed.
