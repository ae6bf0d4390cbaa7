(** What a telephone URI parse returns; the URI its encoding stands for. *)
From Verif Require Import Base Charset CharsetSpec CharsetProofs BaseLemmas Num NumSpec NumProofs Lws LwsSpec LwsProofs Str StrSpec StrProofs Monad Good Rt Seq GoodAuto Inv
  Host HostSpec HostProofs Uri UriSpec UriGood UriProofs UriSound Tel TelSpec TelProofs.

(** The context kept by the parameter loop. *)
Definition outContext (c : option uparam * bool) : Prop :=
  match fst c with
  | None => snd c = false
  | Some p => sameNoCase (upName p) (s2b "phone-context") /\ exists x v, upValue p = Some (x :: v) /\ allBytes (x :: v) /\
      ((x <> 43 /\ snd c = true) \/ (x = 43 /\ snd c = false /\ forallb (fun b => negb (rfcVisualSep b)) v = true))
  end.
Definition outTelParams (e : env) (a : (option uparam * bool) * (known uparam * list uparam)) : Prop :=
  outContext (fst a) /\ outKnown (fTelUriKnown e) telKnownNames upName wfParam (snd a) /\ Forall (fun p => ~ sameNoCase (upName p) (s2b "phone-context")) (snd (snd a)).
Lemma telNames_ne : Forall (fun x => x <> []) telKnownNames. Proof. apply (goodNames_ok _ telKnownNames_good). Qed.
Lemma addParam_params {A} on names (name : A -> bytes) (Q : A -> Prop) a p e s a' s' : Forall Q (snd a) -> Q p -> addParam on names name a p e s = Ok a' s' -> Forall Q (snd a').
Proof.
  intros F Hp E. unfold addParam in E. destruct on; [|injection E as <- _; apply Forall_app; auto]. apply bind_inv in E as (o & s1 & E1 & E2). injection E2 as <- _.
  destruct o; cbn [snd]; [exact F|apply Forall_app; auto].
Qed.
Lemma vis_filter v : forallb (fun b => negb (rfcVisualSep b)) (removeVisual v) = true.
Proof.
  unfold removeVisual. induction v as [|x v IH]; [reflexivity|]. cbn [filter]. destruct (IsTelVisualSperator x) eqn:E; cbn [negb]; [exact IH|]. cbn [forallb]. rewrite IH, andb_true_r.
  now rewrite <- vis_rfc, E.
Qed.
Lemma telParams_out e s a s' : parseUriParams SIP_PNAME SIP_PVALUE telSet ((None, false), (None, [])) e s = Ok a s' -> outTelParams e a.
Proof.
  unfold parseUriParams, onRest. destruct (rest s) as [|z0 r0]; [discriminate|]. apply sepLoop_env; [|split; [reflexivity|split; [split; [constructor|split; [intros _ ? ? []|exact I]]|constructor]]].
  intros a0 s0 a' s0' (H1 & H2 & H3) H. apply bind_inv in H as (u0 & s1 & _ & H). apply bind_inv in H as (p & s2 & Ep & H). apply uriParam_out in Ep. unfold telSet in H.
  destruct (equalNoCase (upName p) (s2b "phone-context")) eqn:Q.
  - apply equalNoCase_spec in Q; [|discriminate]. destruct Ep as (_ & _ & Wv). destruct (upValue p) as [[|x v]|] eqn:V; try discriminate. destruct Wv as [_ Wv].
    destruct (N.eqb_spec x 43) as [->|Hx]; cbn [negb] in H; injection H as <- _; split; try (split; [exact H2|exact H3]); unfold outContext; cbn [fst snd].
    + split; [exact Q|]. cbn [upValue]. exists 43, (removeVisual v). split; [reflexivity|]. split; [|right; repeat split; apply vis_filter].
      inversion Wv as [|? ? W1 W2]; subst. constructor; [exact W1|]. unfold removeVisual. apply Forall_forall. intros y I. apply filter_In in I as [I _]. unfold allBytes in W2. rewrite Forall_forall in W2. now apply W2.
    + split; [exact Q|]. exists x, v. split; [exact V|]. split; [exact Wv|left; auto].
  - apply bind_inv in H as (b0 & s3 & E & H). injection H as <- _. unfold withEnv in E. split; [exact H1|]. cbn [snd]. split.
    + eapply addParam_out in E; [|exact telNames_ne|exact H2|exact Ep]. apply E.
    + eapply addParam_params; [exact H3| |exact E]. intros S. apply (equalNoCase_spec _ (s2b "phone-context")) in S; [congruence|discriminate].
Qed.
Definition outTelUri (e : env) (t : teluri) : Prop :=
  wfTelNumber (tGlobal t) (tNumber t) /\ outTelParams e ((tContext t, tDomain t), (tKnown t, tParams t)).
Lemma telUri_out e s t s' : parseTelUri e s = Ok t s' -> outTelUri e t.
Proof.
  intros H. split.
  - apply telUri_number in H as (h & run & r' & _ & _ & En & Hg & Hl & _ & Hne & Hp). unfold wfTelNumber. destruct (tGlobal t).
    + destruct (Hg eq_refl) as (ds & -> & Fd & _). rewrite En in *. cbn [filter] in *. change (rfcVisualSep 43) with false in *. cbn [negb] in *. eexists. split; [reflexivity|].
      split; [intros X; rewrite X in Hp; congruence|]. clear -Fd. induction ds as [|x ds IH]; [reflexivity|]. cbn [forallb] in Fd. apply andb_prop in Fd as [Fx Fd]. cbn [filter].
      destruct (rfcVisualSep x) eqn:V; cbn [negb]; [exact (IH Fd)|]. cbn [forallb]. rewrite (IH Fd), andb_true_r. now rewrite orb_false_r in Fx.
    + destruct (Hl eq_refl) as [Fd _]. split; [exact Hne|]. rewrite En. clear -Fd. induction run as [|x ds IH]; [reflexivity|]. cbn [forallb] in Fd. apply andb_prop in Fd as [Fx Fd]. cbn [filter].
      destruct (rfcVisualSep x) eqn:V; cbn [negb]; [exact (IH Fd)|]. cbn [forallb]. rewrite (IH Fd), andb_true_r. now rewrite orb_false_r in Fx.
  - assert (O0 : outTelParams e ((None, false), (None, []))) by (split; [reflexivity|split; [split; [constructor|split; [intros _ ? ? []|exact I]]|constructor]]).
    apply bind_inv in H as (? & s1 & _ & H). apply bind_inv in H as (gn & s2 & _ & H). unfold onRest in H. destruct (rest s2) as [|y q]; [injection H as <- _; exact O0|].
    destruct (y =? 59); [|injection H as <- _; exact O0]. apply bind_inv in H as (? & s3 & _ & H). apply bind_inv in H as (a & s4 & E & H). apply telParams_out in E. injection H as <- _.
    destruct a as [[c d] [k ps]]. exact E.
Qed.
(** The URI that the encoding stands for: names in the table's spelling, and no context for a global number. *)
Definition canonTel (t : teluri) : teluri :=
  mktel (tGlobal t) (if tGlobal t then false else tDomain t) (tNumber t)
    (if tGlobal t then None else match tContext t with Some p => Some (mkup (s2b "phone-context") (upValue p)) | None => None end)
    (match tKnown t with Some tbl => Some (canonTable telKnownNames tbl) | None => None end) (tParams t).
Lemma canonTel_wf e t : outTelUri e t -> wfTelUri e (canonTel t).
Proof.
  intros (H1 & Hc & (O4 & O5 & O6) & Hp). cbn [fst snd] in *. unfold canonTel, wfTelUri. cbn [tGlobal tNumber tKnown tParams]. split; [exact H1|]. split; [|split; [|split; [exact O4|exact Hp]]].
  - unfold wfTelContext. cbn [tContext tDomain tGlobal]. unfold outContext in Hc. cbn [fst snd] in Hc. destruct (tGlobal t); [reflexivity|]. destruct (tContext t) as [p|]; [|exact Hc].
    destruct Hc as (_ & Hc). split; [reflexivity|]. split; [reflexivity|]. exact Hc.
  - split; [exact O5|]. destruct (tKnown t) as [tbl|]; [|exact I]. destruct O6 as (On & (p & Hq) & F). split; [exact On|]. split.
    + eapply canonTable_present; [eapply Forall2_length, F|exact Hq].
    + apply canonTable_wf; [|exact F]. repeat constructor; discriminate.
Qed.
Lemma encTel_canon e t : encTelUri e (canonTel t) = encTelUri e t.
Proof.
  unfold encTelUri, canonTel. cbn [tGlobal tNumber tContext tKnown tParams]. do 2 f_equal. f_equal; [destruct (tGlobal t); [reflexivity|]; destruct (tContext t); reflexivity|]. f_equal.
  destruct (tKnown t) as [tbl|]; [|reflexivity]. unfold encUriKnown, encKnown, canonTable. generalize telKnownNames. induction tbl as [|o tbl IH]; intros [|n names]; try reflexivity.
  cbn [combine map flat_map fst snd]. f_equal; [destruct o; reflexivity|apply IH].
Qed.
