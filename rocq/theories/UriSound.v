(** What an accepted SIP URI looks like, and stability of re-encoding. *)
From Verif Require Import Base Charset CharsetSpec CharsetProofs BaseLemmas Num NumSpec NumProofs Lws LwsSpec LwsProofs Str StrSpec StrProofs Monad Good Rt Seq GoodAuto Inv
  Host HostSpec HostProofs Uri UriSpec UriGood UriProofs.

(** Every address ParseIP returns prints to a text that ParseIP reads back. *)
Definition netGood (e : env) : Prop := forall t ip, ipParse e t = Some ip -> netOK e ip.

(** ** Host and port *)
Lemma hostname_inv e s n s' : parseHostname e s = Ok (HName n) s' -> n <> [] /\ forallb rfcHostname n = true /\ rest s = n ++ rest s' /\ stops rfcHostname (rest s') = true.
Proof. intros H. apply bind_inv in H as (b & s1 & E & [= -> <-]). apply cstring_inv in E. rewrite forallb_hostname, <- stops_host in E. exact E. Qed.
Lemma hostname_name e s h s' : parseHostname e s = Ok h s' -> exists n, h = HName n.
Proof. intros H. apply bind_inv in H as (b & s1 & _ & [= <- _]). eauto. Qed.
Lemma host_out e s h s' : netGood e -> parseHost e s = Ok h s' -> wfHost e h.
Proof.
  intros NG H. unfold parseHost, onRest in H. destruct (rest s) as [|x r1] eqn:R; [discriminate|]. destruct (x =? 91).
  - apply bind_inv in H as (? & s1 & E & H). injection E as _ <-. unfold parseIpv6, onRest in H. cbn [rest used] in H. destruct (span _ r1) as [txt r2].
    apply bind_inv in H as (? & s1 & E & H). injection E as _ <-. destruct r2 as [|y r2]; [discriminate|]. unfold withEnv in H. destruct (ipParse e txt) as [ip|] eqn:Ei; [|discriminate].
    apply bind_inv in H as (? & s1 & _ & H). apply bind_inv in H as (? & s2 & _ & H). injection H as <- _. exact (NG _ _ Ei).
  - assert (Name : (forall a b c d q, parseIpv4 (rest s) = Some (a, b, c, d, q) -> IsAlpha x = true) -> parseHostname e s = Ok h s' -> wfHost e h).
    { intros Hq Hh. destruct (hostname_name _ _ _ _ Hh) as [n ->]. apply hostname_inv in Hh as (Hne & Hn & Er & St). split; [exact Hne|]. split; [exact Hn|].
      intros (a & b & c & d & Q). assert (E : parseIpv4 (rest s) = Some (a, b, c, d, rest s')). { apply parseIpv4_spec. exists n. auto. }
      apply Hq in E. apply quad_head in Q as (y & t' & -> & Hy). rewrite R in Er. injection Er as <- _. apply alpha_not_isDec in E. congruence. }
    rewrite R in Name. destruct (IsAlpha x) eqn:A; [apply Name; [reflexivity|exact H]|]. destruct (parseIpv4 (x :: r1)) as [[[[[a b] c] d] q]|] eqn:E4.
    + apply bind_inv in H as (? & s1 & _ & H). apply bind_inv in H as (? & s2 & _ & H). injection H as <- _.
      apply parseIpv4_spec in E4 as (t & _ & (da & db & dc & dd & _ & (_ & _ & _ & Ha) & (_ & _ & _ & Hb) & (_ & _ & _ & Hc) & (_ & _ & _ & Hd)) & _). cbn. lia.
    + apply Name; [discriminate|exact H].
Qed.
Lemma hostport_out e s h s' : netGood e -> parseHostPort e s = Ok h s' -> wfHostPort e h.
Proof.
  intros NG H. apply bind_inv in H as (h0 & s1 & E & H). apply host_out in E; [|exact NG]. unfold onRest in H. destruct (rest s1) as [|x r1]; [injection H as <- _; split; [exact E|exact I]|].
  destruct (x =? 58); [|injection H as <- _; split; [exact E|exact I]]. apply bind_inv in H as (? & s2 & _ & H). apply bind_inv in H as (n & s3 & _ & H).
  destruct (N.ltb_spec 65535 n); [discriminate|]. injection H as <- _. split; [exact E|]. cbn. lia.
Qed.

(** ** Parameters and headers *)
Lemma uriParam_out cn cv e s p s' : parseUriParam cn cv e s = Ok p s' -> wfParam p.
Proof.
  intros H. apply bind_inv in H as (n & s1 & E & H). apply escapable_inv in E as [E1 E2]. unfold onRest in H. destruct (rest s1) as [|x r1]; [injection H as <- _; split; [exact E1|split; [exact E2|exact I]]|].
  destruct (x =? 61); [|injection H as <- _; split; [exact E1|split; [exact E2|exact I]]]. apply bind_inv in H as (? & s2 & _ & H). apply bind_inv in H as (v & s3 & Ev & H). injection H as <- _.
  apply escapable_inv in Ev. split; [exact E1|split; [exact E2|exact Ev]].
Qed.
(** A header that was read: the name is there; the value may be missing. *)
Definition outUHeader (h : uparam) : Prop := upName h <> [] /\ allBytes (upName h) /\ match upValue h with Some v => allBytes v | None => True end.
Lemma uriHeader_out e s h s' : parseUriHeader e s = Ok h s' -> outUHeader h.
Proof.
  intros H. apply bind_inv in H as (n & s1 & E & H). apply escapable_inv in E as [E1 E2]. unfold onRest in H. destruct (rest s1) as [|x r1]; [discriminate|].
  destruct (x =? 61); [|discriminate]. apply bind_inv in H as (? & s2 & _ & H). destruct r1; [injection H as <- _; split; [exact E1|split; [exact E2|exact I]]|].
  apply bind_inv in H as (v & s3 & Ev & H). injection H as <- _. apply escapableEmpty_inv in Ev. split; [exact E1|split; [exact E2|exact Ev]].
Qed.
Lemma uriHeaders_out e s hs s' : parseUriHeaders e s = Ok hs s' -> Forall outUHeader hs.
Proof.
  unfold parseUriHeaders, onRest. destruct (rest s); [discriminate|]. apply (sepLoop_inv (Forall outUHeader)); [|constructor].
  intros a e0 s0 a' s0' Ha H. apply bind_inv in H as (? & s1 & _ & H). apply bind_inv in H as (h & s2 & Eh & H). injection H as <- _. apply Forall_app. split; [exact Ha|]. constructor; [|constructor]. eapply uriHeader_out, Eh.
Qed.
Lemma sipUriNames_ne : Forall (fun x => x <> []) sipUriKnownNames. Proof. apply (goodNames_ok _ sipUriKnownNames_good). Qed.
Lemma sepLoop_env {A} c (one : A -> P A) (Q : A -> Prop) e : (forall a s a' s', Q a -> one a e s = Ok a' s' -> Q a') -> forall a s b s', Q a -> sepLoop c one a e s = Ok b s' -> Q b.
Proof.
  intros H a s b s' Ha E. unfold sepLoop, loopP in E. revert a s b s' Ha E.
  assert (X : forall f a s b s', Q a -> iterP f (fun a => onRest (fun r => match r with [] => ret (inr a) | _ => bind (one a) (contIf c) end)) a e s = Ok b s' -> Q b).
  { induction f as [|f IH]; intros a s b s' Ha E; [discriminate|]. cbn [iterP] in E. apply bind_inv in E as (x & s1 & E1 & E2). unfold onRest in E1.
    destruct (rest s); [injection E1 as <- <-; injection E2 as <- _; exact Ha|]. apply bind_inv in E1 as (a1 & s2 & E1 & E3). apply H in E1; [|exact Ha].
    unfold contIf, onRest in E3. destruct (rest s2) as [|y r]; [injection E3 as <- <-; injection E2 as <- _; exact E1|].
    destruct (y =? c); [|injection E3 as <- <-; injection E2 as <- _; exact E1]. apply bind_inv in E3 as (? & ? & _ & E3). injection E3 as <- <-. exact (IH _ _ _ _ E1 E2). }
  intros a s b s' Ha. apply X, Ha.
Qed.
Lemma sipUriParams_out e s a s' : parseUriParams SIP_PNAME SIP_PVALUE sipUriSet (None, []) e s = Ok a s' -> outKnown (fSipUriKnown e) sipUriKnownNames upName wfParam a.
Proof.
  unfold parseUriParams, onRest. destruct (rest s); [discriminate|]. apply sepLoop_env; [|split; [constructor|split; [intros _ ? ? []|exact I]]].
  intros a0 s0 a' s0' Ha H. apply bind_inv in H as (? & s1 & _ & H). apply bind_inv in H as (p & s2 & Ep & H). unfold sipUriSet, withEnv in H.
  apply uriParam_out in Ep. eapply addParam_out in H; [|exact sipUriNames_ne|exact Ha|exact Ep]. apply H.
Qed.

(** ** The whole URI *)
Definition outSipUri (e : env) (u : sipuri) : Prop :=
  match uUser u with Some n => n <> [] /\ allBytes n | None => uPass u = None end /\
  match uPass u with Some p => allBytes p | None => True end /\
  wfHostPort e (uHost u) /\
  outKnown (fSipUriKnown e) sipUriKnownNames upName wfParam (uKnown u, uParams u) /\
  Forall outUHeader (uHeaders u).
Lemma userinfo_out e s up s' : parseUserinfo e s = Ok up s' ->
  match fst up with Some n => n <> [] /\ allBytes n | None => snd up = None end /\ match snd up with Some p => allBytes p | None => True end.
Proof.
  unfold parseUserinfo, onRest. destruct (findUserinfo (rest s)); [|intros [= <- _]; split; [reflexivity|exact I]]. intros H. apply bind_inv in H as (n & s1 & E & H). apply escapable_inv in E.
  destruct (rest s1) eqn:R1; [discriminate|]. apply bind_inv in H as (pw & s2 & Ep & H).
  assert (W : match pw with Some p => allBytes p | None => True end).
  { unfold parsePassword, onRest in Ep. rewrite R1 in Ep. destruct (n0 =? 58); [|injection Ep as <- _; exact I]. apply bind_inv in Ep as (? & s3 & _ & Ep). destruct b; [discriminate|].
    apply bind_inv in Ep as (v & s4 & Ev & Ep). injection Ep as <- _. eapply escapableEmpty_inv, Ev. }
  destruct (rest s2) as [|x r3]; [discriminate|]. destruct (x =? 64); [|discriminate]. apply bind_inv in H as (? & s3 & _ & H). injection H as <- _. auto.
Qed.
Lemma uriAfterScheme_out e sec s x s' : netGood e -> parseUriAfterScheme sec e s = Ok x s' -> outSipUri e x /\ uSecure x = sec.
Proof.
  intros NG H. apply bind_inv in H as (up & s1 & Eu & H). apply userinfo_out in Eu as [U1 U2]. apply bind_inv in H as (h & s2 & Eh & H). apply hostport_out in Eh; [|exact NG].
  assert (K0 : outKnown (fSipUriKnown e) sipUriKnownNames upName wfParam (None, [])) by (split; [constructor|split; [intros _ ? ? []|exact I]]).
  assert (Done : forall k ps hs, outKnown (fSipUriKnown e) sipUriKnownNames upName wfParam (k, ps) -> Forall outUHeader hs ->
    outSipUri e (mkuri sec (fst up) (snd up) h k ps hs) /\ uSecure (mkuri sec (fst up) (snd up) h k ps hs) = sec).
  { intros k ps hs Hk Hh. split; [|reflexivity]. split; [exact U1|]. split; [exact U2|]. split; [exact Eh|]. split; [exact Hk|exact Hh]. }
  unfold onRest in H. destruct (rest s2) as [|y r1]; [injection H as <- _; apply Done; [exact K0|constructor]|].
  apply bind_inv in H as (kp & s3 & Ek & H).
  assert (K1 : outKnown (fSipUriKnown e) sipUriKnownNames upName wfParam (fst kp, snd kp)).
  { destruct (y =? 59); [|injection Ek as <- _; exact K0]. apply bind_inv in Ek as (? & s4 & _ & Ek). apply sipUriParams_out in Ek. destruct kp; exact Ek. }
  destruct (rest s3) as [|z r3]; [injection H as <- _; apply Done; [exact K1|constructor]|].
  destruct (z =? 63); [|injection H as <- _; apply Done; [exact K1|constructor]].
  apply bind_inv in H as (? & s4 & _ & H). apply bind_inv in H as (hs & s5 & Ehs & H). injection H as <- _. apply uriHeaders_out in Ehs. apply Done; assumption.
Qed.
Lemma sipUri_out e s x s' : netGood e -> parseSipUri e s = Ok x s' -> outSipUri e x.
Proof. intros NG H. apply bind_inv in H as (sec & s1 & _ & H). eapply uriAfterScheme_out; eassumption. Qed.

(** The same URI with the recognised parameter names in the table's spelling. *)
Definition canonTable (names : list bytes) (tbl : list (option uparam)) : list (option uparam) :=
  map (fun np => match snd np with Some p => Some (mkup (fst np) (upValue p)) | None => None end) (combine names tbl).
Definition canonUri (u : sipuri) : sipuri :=
  mkuri (uSecure u) (uUser u) (uPass u) (uHost u) (match uKnown u with Some tbl => Some (canonTable sipUriKnownNames tbl) | None => None end) (uParams u) (uHeaders u).
Lemma canonTable_wf names tbl : Forall (fun x => x <> [] /\ allBytes x) names ->
  Forall2 (fun n o => match o with Some p => sameNoCase (upName p) n /\ wfParam p | None => True end) names tbl ->
  Forall2 (fun n o => match o with Some p => upName p = n /\ wfParam p | None => True end) names (canonTable names tbl).
Proof.
  intros Hn F. unfold canonTable. induction F as [|n o names tbl H F IH]; cbn; constructor; [|apply IH; inversion Hn; assumption]. destruct o as [p|]; [|exact I]. cbn.
  inversion Hn as [|? ? [N1 N2] _]; subst. destruct H as [_ (_ & _ & W)]. split; [reflexivity|]. split; [exact N1|]. split; [exact N2|exact W].
Qed.
Lemma canonTable_present names tbl p : List.length names = List.length tbl -> In (Some p) tbl -> present (canonTable names tbl) <> [].
Proof.
  revert names. induction tbl as [|o tbl IH]; intros [|n names] L H; try discriminate; [destruct H|]. cbn in L. unfold canonTable. cbn [combine map present flat_map fst snd].
  destruct H as [->|H]; [cbn; discriminate|]. specialize (IH names ltac:(lia) H). intros X. apply app_eq_nil in X as [_ X]. apply IH, X.
Qed.
Lemma canonUri_wf e u : outSipUri e u -> (forall h, In h (uHeaders u) -> upValue h <> None) -> wfSipUri e (canonUri u).
Proof.
  intros (O1 & O2 & O3 & (O4 & O5 & O6) & O7) Hh. unfold canonUri. cbn [fst snd] in *.
  split; [exact O1|]. split; [exact O2|]. split; [exact O3|]. cbn [uKnown uParams uHeaders]. split; [|split; [exact O4|]].
  - split; [exact O5|]. destruct (uKnown u) as [tbl|]; [|exact I]. destruct O6 as (On & (p & Hp) & F). split; [exact On|]. split.
    + eapply canonTable_present; [eapply Forall2_length, F|exact Hp].
    + apply canonTable_wf; [|exact F]. repeat constructor; discriminate.
  - apply Forall_forall. intros h Hin. specialize (Hh _ Hin). rewrite Forall_forall in O7. destruct (O7 _ Hin) as (A & B & C). split; [exact A|]. split; [exact B|]. destruct (upValue h) as [v|]; [|congruence]. eauto.
Qed.
Lemma encSipUri_canon e u : encSipUri e (canonUri u) = encSipUri e u.
Proof.
  unfold encSipUri, canonUri. cbn [uSecure uUser uPass uHost uKnown uParams uHeaders]. do 3 f_equal. f_equal. destruct (uKnown u) as [tbl|]; [|reflexivity].
  unfold encUriKnown, encKnown, canonTable. generalize sipUriKnownNames. induction tbl as [|o tbl IH]; intros [|n names]; try reflexivity.
  cbn [combine map flat_map fst snd]. f_equal; [destruct o; reflexivity|apply IH].
Qed.
