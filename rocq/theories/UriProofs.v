From Verif Require Import Base Charset CharsetSpec CharsetProofs BaseLemmas Num NumSpec NumProofs Lws LwsSpec LwsProofs Str StrSpec StrProofs Monad Good Rt Seq GoodAuto
  Host HostSpec HostProofs Uri UriSpec UriGood.

(** ** Known-parameter tables *)
Lemma findName_none names n : forall i, Forall (fun x => x <> []) names -> (findName names n i = None <-> forall x, In x names -> ~ sameNoCase n x).
Proof.
  induction names as [|x names IH]; intros i Hn; cbn; [split; [intros _ ? []|reflexivity]|]. inversion Hn as [|? ? Hx Hn']; subst.
  destruct (equalNoCase n x) eqn:E.
  - apply equalNoCase_spec in E; [|exact Hx]. split; [discriminate|]. intros H. exfalso. apply (H x); auto.
  - rewrite (IH _ Hn'). split; intros H y.
    + intros [->|Hy]; [|apply H, Hy]. intros S. apply equalNoCase_spec in S; [congruence|exact Hx].
    + intros Hy. apply H. auto.
Qed.
Definition tblOf {A} (n : nat) (t : known A) : list (option A) := match t with Some l => l | None => repeat None n end.
Lemma fold_known {A} names (name : A -> bytes) (wf : A -> Prop) :
  (forall i, (i < List.length names)%nat -> findName names (nth i names []) 0 = Some i) ->
  forall names2 tbl2, Forall2 (fun n o => match o with Some p => name p = n /\ wf p | None => True end) names2 tbl2 ->
  forall pre1 (pre : list (option A)) a, names = pre1 ++ names2 -> List.length pre1 = List.length pre ->
  tblOf (List.length names) (fst a) = pre ++ repeat None (List.length names2) ->
  let a' := fold_left (addStep true names name) (present tbl2) a in
  tblOf (List.length names) (fst a') = pre ++ tbl2 /\ snd a' = snd a /\ (fst a' = None -> fst a = None /\ present tbl2 = []).
Proof.
  intros Hf names2 tbl2 F. induction F as [|n o names2 tbl2 Hno F IH]; intros pre1 pre a Hn Hl Ht; cbn [present flat_map List.length repeat fold_left] in *.
  - cbn. auto.
  - assert (Hi : findName names n 0 = Some (List.length pre1)).
    { replace n with (nth (List.length pre1) names []). 2:{ rewrite Hn, app_nth2 by lia. rewrite Nat.sub_diag. reflexivity. }
      apply Hf. rewrite Hn, app_length. cbn. lia. }
    destruct o as [p|]; cbn [app fold_left].
    + destruct Hno as [<- _]. set (a1 := addStep true names name a p).
      assert (A1 : a1 = (Some (pre ++ Some p :: repeat None (List.length names2)), snd a)).
      { unfold a1, addStep. rewrite Hi, Hl. fold (tblOf (List.length names) (fst a)). rewrite Ht, setNth_app. reflexivity. }
      destruct (IH (pre1 ++ [name p]) (pre ++ [Some p]) a1) as (E1 & E2 & E3).
      * rewrite Hn, <- app_assoc. reflexivity.
      * rewrite !app_length. cbn. lia.
      * rewrite A1. cbn [fst tblOf]. rewrite <- app_assoc. reflexivity.
      * fold (present tbl2) in *. rewrite E1, E2. rewrite <- app_assoc. split; [reflexivity|]. split; [rewrite A1; reflexivity|]. intros X. apply E3 in X as [X _]. rewrite A1 in X. discriminate.
    + destruct (IH (pre1 ++ [n]) (pre ++ [None]) a) as (E1 & E2 & E3).
      * rewrite Hn, <- app_assoc. reflexivity.
      * rewrite !app_length. cbn. lia.
      * rewrite Ht, <- app_assoc. reflexivity.
      * fold (present tbl2) in *. rewrite E1, E2, <- app_assoc. auto.
Qed.
Lemma fold_plain {A} on names (name : A -> bytes) ps : Forall (fun x => x <> []) names ->
  (on = true -> forall p n, In p ps -> In n names -> ~ sameNoCase (name p) n) ->
  forall t l, fold_left (addStep on names name) ps (t, l) = (t, l ++ ps).
Proof.
  intros Hn. induction ps as [|p ps IH]; intros H t l; cbn [fold_left]; [now rewrite app_nil_r|].
  assert (E : addStep on names name (t, l) p = (t, l ++ [p])).
  { unfold addStep. destruct on; [|reflexivity]. rewrite (proj2 (findName_none names (name p) 0 Hn)); [reflexivity|]. intros x Hx. apply H; cbn; auto. }
  rewrite E, IH, <- app_assoc; [reflexivity|]. intros O p' n Hp. apply H; cbn; auto.
Qed.
(** All parameters, known ones first, are put back where they came from. *)
Lemma fold_wfKnown {A} on names (name : A -> bytes) wf t ps : Forall (fun x => x <> []) names ->
  (forall i, (i < List.length names)%nat -> findName names (nth i names []) 0 = Some i) ->
  wfKnown on names name wf t ps ->
  fold_left (addStep on names name) (match t with Some tbl => present tbl | None => [] end ++ ps) (None, []) = (t, ps).
Proof.
  intros Hn Hf [Hp Ht]. rewrite fold_left_app. destruct t as [tbl|]; [|cbn [fold_left]; apply fold_plain; auto].
  destruct Ht as (-> & Hpr & F).
  destruct (fold_known names name wf Hf names tbl F [] [] (None, []) eq_refl eq_refl eq_refl) as (E1 & E2 & E3).
  destruct (fold_left (addStep true names name) (present tbl) (None, [])) as [t' l'] eqn:E. cbn [fst snd app] in *. subst l'.
  destruct t' as [tbl'|]; [|destruct (E3 eq_refl) as [_ X]; congruence]. cbn in E1. subst tbl'. rewrite fold_plain; auto.
Qed.
(** A Boolean check of the two table conditions. *)
Definition goodNames (names : list bytes) : bool :=
  forallb (fun i => match findName names (nth i names []) 0 with Some j => Nat.eqb i j | None => false end) (seq 0 (List.length names)) &&
  forallb (fun n => negb (beq n [])) names.
Lemma goodNames_ok names : goodNames names = true -> Forall (fun x => x <> []) names /\
  (forall i, (i < List.length names)%nat -> findName names (nth i names []) 0 = Some i).
Proof.
  unfold goodNames. rewrite andb_true_iff, !forallb_forall. intros [H1 H2]. split.
  - apply Forall_forall. intros x Hx E. apply H2 in Hx. subst. discriminate.
  - intros i Hi. specialize (H1 i). destruct (findName names (nth i names []) 0) as [j|]; [|discriminate H1; apply in_seq; lia].
    f_equal. symmetry. apply Nat.eqb_eq, H1, in_seq. lia.
Qed.
Lemma present_In {A} (tbl : list (option A)) p : In p (present tbl) <-> In (Some p) tbl.
Proof.
  unfold present. rewrite in_flat_map. split.
  - intros (o & Ho & Hp). destruct o; [destruct Hp as [->|[]]; exact Ho|destruct Hp].
  - intros H. exists (Some p). split; [exact H|left; reflexivity].
Qed.
Lemma Forall2_in_r {A B} (R : A -> B -> Prop) l l' : Forall2 R l l' -> forall y, In y l' -> exists x, In x l /\ R x y.
Proof.
  intros F. induction F as [|x y l l' H F IH]; intros z []; [subst; exists x; cbn; auto|]. destruct (IH z H0) as (w & Hw & HR). exists w. cbn. auto.
Qed.

(** ** Character facts *)
Lemma all256_inset cs (f : N -> bool) : forallb (fun b => implb (inset cs b) (f b)) all256 = true -> forall b, inset cs b = true -> f b = true.
Proof. apply inset_sweep. Qed.
Lemma rfc_ge (f : N -> bool) cs : agrees cs f -> (forall b, f b = true -> b < 256) -> forall b, inset cs b = f b.
Proof.
  intros A G b. destruct (N.ltb_spec b 256) as [H|H]; [apply A, H|]. destruct (inset cs b) eqn:E; [apply inset_byte in E; lia|].
  destruct (f b) eqn:F; [apply G in F; lia|reflexivity].
Qed.
Lemma rfcUnreserved_lt b : rfcUnreserved b = true -> b < 256.
Proof.
  unfold rfcUnreserved, rfcAlphanum, rfcALPHA, rfcLOWER, rfcUPPER, rfcDIGIT, rng, rfcMark. intros H. apply orb_prop in H as [H|H]; [lia|].
  apply oneOf_lt in H; [exact H|reflexivity].
Qed.
Lemma pname_rfc b : inset SIP_PNAME b = rfcPname b.
Proof.
  apply rfc_ge; [apply charsets_exact|]. intros x H. unfold rfcPname, rfcParamUnreserved in H. apply orb_prop in H as [H|H]; [|apply rfcUnreserved_lt, H].
  apply oneOf_lt in H; [exact H|reflexivity].
Qed.
Lemma pvalue_rfc b : inset SIP_PVALUE b = rfcPname b.
Proof.
  apply rfc_ge; [apply charsets_exact|]. intros x H. unfold rfcPname, rfcParamUnreserved in H. apply orb_prop in H as [H|H]; [|apply rfcUnreserved_lt, H].
  apply oneOf_lt in H; [exact H|reflexivity].
Qed.
Lemma hname_rfc b : inset SIP_HNAME b = rfcHname b.
Proof.
  apply rfc_ge; [apply charsets_exact|]. intros x H. unfold rfcHname, rfcHnvUnreserved in H. apply orb_prop in H as [H|H]; [|apply rfcUnreserved_lt, H].
  apply oneOf_lt in H; [exact H|reflexivity].
Qed.
Lemma hvalue_rfc b : inset SIP_HVALUE b = rfcHname b.
Proof.
  apply rfc_ge; [apply charsets_exact|]. intros x H. unfold rfcHname, rfcHnvUnreserved in H. apply orb_prop in H as [H|H]; [|apply rfcUnreserved_lt, H].
  apply oneOf_lt in H; [exact H|reflexivity].
Qed.
Lemma lws_rfc b : IsLwsChar b = rfcLWSchar b.
Proof.
  unfold IsLwsChar. apply rfc_ge; [apply charsets_exact|]. unfold rfcLWSchar, rfcWSP, rfcCRLFchar. intros. lia.
Qed.
Lemma hostname_unreserved b : rfcHostname b = true -> rfcPname b = true.
Proof.
  unfold rfcHostname, rfcPname, rfcUnreserved, rfcMark, oneOf. cbn [s2b existsb]. intros H. apply orb_prop in H as [->|H]; [now rewrite orb_true_r|].
  apply orb_true_iff. right. apply orb_true_iff. right. revert H. rewrite !orb_true_iff. tauto.
Qed.
(** What may follow a URI parameter. *)
Definition paramEnds (k : bytes) : Prop := match k with [] => True | x :: _ => rfcPname x = false /\ x <> 37 /\ x <> 61 end.
Lemma paramEnds_name k : paramEnds k -> endsRun (inset SIP_PNAME) k. Proof. destruct k; cbn; [trivial|]. rewrite pname_rfc. tauto. Qed.
Lemma paramEnds_value k : paramEnds k -> endsRun (inset SIP_PVALUE) k. Proof. destruct k; cbn; [trivial|]. rewrite pvalue_rfc. tauto. Qed.
Lemma oneOf_false s b c : oneOf s b = false -> In c (s2b s) -> b <> c.
Proof. unfold oneOf. intros H Hc ->. assert (existsb (N.eqb c) (s2b s) = true) by (apply existsb_exists; exists c; split; [exact Hc|apply N.eqb_refl]). congruence. Qed.
Ltac inlist := vm_compute; tauto.
Lemma uriEnds_param k : uriEnds k -> paramEnds k.
Proof.
  destruct k as [|x k]; cbn [uriEnds paramEnds]; [trivial|]. intros (H1 & H2 & H3). repeat split; [exact H1| |]; apply (oneOf_false _ _ _ H3); inlist.
Qed.
Lemma uriEnds_host k : uriEnds k -> hostEnds k.
Proof.
  destruct k as [|x k]; cbn [uriEnds hostEnds]; [trivial|]. intros (H1 & H2 & H3). split; [|apply (oneOf_false _ _ _ H3); inlist].
  destruct (rfcHostname x) eqn:E; [|reflexivity]. apply hostname_unreserved in E. congruence.
Qed.
Lemma uriEnds_neq k c : uriEnds k -> In c (s2b "%:;?=&") -> forall k', k <> c :: k'.
Proof. intros H Hc k' ->. cbn [uriEnds] in H. destruct H as (_ & _ & H). exact (oneOf_false _ _ _ H Hc eq_refl). Qed.

(** ** Parameters *)
Definition sub (ws cs : charset) : Prop := forall x, inset ws x = true -> inset cs x = true.
Lemma sub_refl cs : sub cs cs. Proof. intros x. auto. Qed.
Lemma rt_uriParam e wn wv cn cv p k u : infinite e -> eUriNoEscape e = false -> sub wn cn -> sub wv cv -> inset cn 37 = false -> inset cv 37 = false -> inset cn 61 = false ->
  wfParam p -> endsRun (inset cn) k -> endsRun (inset cv) k -> (forall k', k <> 61 :: k') ->
  exists u', parseUriParam cn cv e (mkst (encUriParam e wn wv p ++ k) u) = Ok p (mkst k u').
Proof.
  intros HI He S1 S2 H1 H2 H3 (Hne & Hb & Hv) Hk1 Hk2 Hk3. destruct p as [n v]. cbn [upName upValue] in *. unfold parseUriParam, encUriParam, encUriValue, escUri. cbn [upName upValue]. rewrite He, <- app_assoc.
  destruct v as [v|]; cbn [app].
  - destruct Hv as [Hv1 Hv2]. rewrite (bind_ok _ _ _ _ _ _ (rt_escapable_sub e wn cn n (61 :: escape wv v ++ k) u HI S1 H1 Hb Hne ltac:(split; [exact H3|discriminate]))).
    rewrite onRest_eq. change (61 =? 61) with true. cbv iota. rewrite goto_bind. cbn [used]. rewrite (bind_ok _ _ _ _ _ _ (rt_escapable_sub e wv cv v k _ HI S2 H2 Hv2 Hv1 Hk2)). eexists. reflexivity.
  - rewrite (bind_ok _ _ _ _ _ _ (rt_escapable_sub e wn cn n k u HI S1 H1 Hb Hne Hk1)), onRest_eq. destruct k as [|x k]; [eexists; reflexivity|].
    destruct (N.eqb_spec x 61) as [->|_]; [exfalso; eapply Hk3; reflexivity|eexists; reflexivity].
Qed.
Lemma encUriParam_nonempty e cn cv p : upName p <> [] -> encUriParam e cn cv p <> [].
Proof.
  intros H X. unfold encUriParam in X. apply app_eq_nil in X as [X _]. unfold escUri in X. destruct (eUriNoEscape e); [contradiction|]. revert X. apply escape_nonempty, H.
Qed.
Lemma flat_joined {X} (enc : X -> bytes) c xs : xs <> [] -> flat_map (fun x => c :: enc x) xs = c :: joined c (map enc xs).
Proof.
  induction xs as [|x xs IH]; [congruence|]. intros _. cbn [flat_map map]. destruct xs as [|y xs]; [cbn; now rewrite app_nil_r|].
  rewrite IH by discriminate. cbn [map]. rewrite joined_cons2. reflexivity.
Qed.
(** The list loop with an arbitrary treatment of each parameter. *)
Lemma rt_uriParams {S} e wn wv cn cv (set : S -> uparam -> P S) (step : S -> uparam -> S) Kg Cg (F : bytes -> Prop) (inv : S -> list uparam -> Prop) :
  infinite e -> eUriNoEscape e = false -> sub wn cn -> sub wv cv -> inset cn 37 = false -> inset cv 37 = false -> inset cn 61 = false ->
  (forall a e s, goodAt Kg Cg (uriParamOne cn cv set a) e s) ->
  (forall k, F k -> endsRun (inset cn) k /\ endsRun (inset cv) k /\ (forall k', k <> 61 :: k')) -> (forall k, F (59 :: k)) ->
  (forall a p ps, inv a (p :: ps) -> wfParam p /\ inv (step a p) ps /\ forall r u, exists u', set a p e (mkst r u) = Ok (step a p) (mkst r u')) ->
  forall ps a k u, ps <> [] -> inv a ps -> F k -> (forall k', k <> 59 :: k') ->
  exists u', parseUriParams cn cv set a e (mkst (joined 59 (map (encUriParam e wn wv) ps) ++ k) u) = Ok (fold_left step ps a) (mkst k u').
Proof.
  intros HI He S1 S2 H1 H2 H3 G HF F59 Hset ps a k u Hne Ha Fk Nk. unfold parseUriParams. rewrite onRest_eq.
  assert (X : exists u', sepLoop 59 (uriParamOne cn cv set) a e (mkst (joined 59 (map (encUriParam e wn wv) ps) ++ k) u) = Ok (fold_left step ps a) (mkst k u')).
  { apply (rt_sepLoop Kg Cg 59 (uriParamOne cn cv set) (encUriParam e wn wv) step F inv); auto.
    - intros a1 p ps1 k1 u1 Hi Hk1 _. destruct (Hset _ _ _ Hi) as (W & _ & St). destruct (HF _ Hk1) as (E1 & E2 & E3). unfold uriParamOne.
      rewrite (bind_ok _ _ _ _ _ _ (rt_alloc e 6 _ _ HI)). destruct (rt_uriParam e wn wv cn cv p k1 (u1 + 6) HI He S1 S2 H1 H2 H3 W E1 E2 E3) as [u2 E].
      rewrite (bind_ok _ _ _ _ _ _ E). apply St.
    - intros a1 p ps1 Hi. apply (Hset _ _ _ Hi).
    - intros a1 p ps1 Hi. destruct (Hset _ _ _ Hi) as ((W & _) & _). apply encUriParam_nonempty, W. }
  destruct (joined 59 (map (encUriParam e wn wv) ps) ++ k) eqn:E; [|exact X].
  exfalso. apply app_eq_nil in E as [E _]. destruct ps as [|p ps]; [congruence|]. destruct (Hset _ _ _ Ha) as ((W & _) & _). apply (encUriParam_nonempty e wn wv) in W.
  destruct ps; [exact (W E)|]. cbn [map] in E. rewrite joined_cons2 in E. apply app_eq_nil in E as [E _]. exact (W E).
Qed.
Lemma encKnown_present e cn cv names tbl : eUriNoEscape e = false -> Forall (fun n => forallb (inset cn) n = true) names ->
  Forall2 (fun n o => match o with Some p => upName p = n /\ wfParam p | None => True end) names tbl ->
  encUriKnown e cv names (Some tbl) = flat_map (fun p => 59 :: encUriParam e cn cv p) (present tbl).
Proof.
  intros He Hn F. unfold encUriKnown, encKnown. induction F as [|n o names tbl H F IH]; [reflexivity|]. inversion Hn as [|? ? Hn1 Hn2]; subst.
  cbn [combine flat_map fst snd]. rewrite (IH Hn2). unfold present. cbn [flat_map]. rewrite flat_map_app. f_equal. destruct o as [p|]; [|reflexivity].
  destruct H as [<- _]. cbn [flat_map]. rewrite app_nil_r. unfold encUriParam, escUri. rewrite He. f_equal. f_equal.
  clear -Hn1. induction (upName p) as [|x l IH]; [reflexivity|]. cbn in *. apply andb_prop in Hn1 as [-> Hn1]. cbn. f_equal. apply IH, Hn1.
Qed.

(** ** Headers *)
Lemma rt_uriHeader e h k u : infinite e -> eUriNoEscape e = false -> wfUHeader h -> endsRun (inset SIP_HVALUE) k -> (k = [] -> upValue h <> Some []) ->
  exists u', parseUriHeader e (mkst (encUriParam e SIP_HNAME SIP_HVALUE h ++ k) u) = Ok h (mkst k u').
Proof.
  intros HI He (Hne & Hb & v & Hv & Hvb) Hk Hl. destruct h as [n v0]. cbn [upName upValue] in *. subst v0. unfold parseUriHeader, encUriParam, encUriValue, escUri. cbn [upName upValue]. rewrite He, <- app_assoc. cbn [app].
  rewrite (bind_ok _ _ _ _ _ _ (rt_escapable e SIP_HNAME n (61 :: escape SIP_HVALUE v ++ k) u HI eq_refl Hb Hne ltac:(split; [reflexivity|discriminate]))).
  rewrite onRest_eq. change (61 =? 61) with true. cbv iota. rewrite goto_bind. cbn [used].
  destruct (escape SIP_HVALUE v ++ k) eqn:E.
  - apply app_eq_nil in E as [E ->]. destruct v as [|x v]; [exfalso; apply Hl; reflexivity|]. exfalso. revert E. apply escape_nonempty. discriminate.
  - rewrite <- E. rewrite (bind_ok _ _ _ _ _ _ (rt_escapableEmpty e SIP_HVALUE v k _ HI eq_refl Hvb Hk)). eexists. reflexivity.
Qed.
Lemma encUriHeaders_joined e hs : encUriHeaders e hs = joined 38 (map (encUriParam e SIP_HNAME SIP_HVALUE) hs).
Proof. induction hs as [|h hs IH]; [reflexivity|]. destruct hs as [|h2 hs]; [reflexivity|]. cbn [map]. rewrite joined_cons2. cbn [map] in IH. rewrite <- IH. reflexivity. Qed.
Lemma fold_snoc {A} (l : list A) : forall a, fold_left (fun a x => a ++ [x]) l a = a ++ l.
Proof. induction l as [|x l IH]; intros a; cbn; [now rewrite app_nil_r|]. rewrite IH, <- app_assoc. reflexivity. Qed.
Lemma rt_uriHeaders e hs k u : infinite e -> eUriNoEscape e = false -> hs <> [] -> Forall wfUHeader hs -> endsRun (inset SIP_HVALUE) k -> (forall k', k <> 38 :: k') ->
  (k = [] -> forall hs0 h, hs = hs0 ++ [h] -> upValue h <> Some []) ->
  exists u', parseUriHeaders e (mkst (encUriHeaders e hs ++ k) u) = Ok hs (mkst k u').
Proof.
  intros HI He Hne W Hk Nk Hl. unfold parseUriHeaders. rewrite onRest_eq, encUriHeaders_joined.
  assert (X : exists u', sepLoop 38 uriHeaderOne [] e (mkst (joined 38 (map (encUriParam e SIP_HNAME SIP_HVALUE) hs) ++ k) u) = Ok (fold_left (fun a x => a ++ [x]) hs []) (mkst k u')).
  { apply (rt_sepLoop 1 12 38 uriHeaderOne (encUriParam e SIP_HNAME SIP_HVALUE) (fun a x => a ++ [x])
      (fun q => endsRun (inset SIP_HVALUE) q /\ (q = [] -> k = []))
      (fun a xs => Forall wfUHeader xs /\ (k = [] -> forall hs0 h, xs = hs0 ++ [h] -> upValue h <> Some []))); auto.
    - intros. unfold uriHeaderOne. good.
    - intros k'. split; [split; [reflexivity|discriminate]|discriminate].
    - intros a x xs q u1 [Wx Lx] [Hq Hq2] Hq3. inversion Wx; subst. unfold uriHeaderOne. rewrite (bind_ok _ _ _ _ _ _ (rt_alloc e 6 _ _ HI)).
      destruct (rt_uriHeader e x q (u1 + 6) HI He ltac:(assumption) Hq) as [u2 E]; [|rewrite (bind_ok _ _ _ _ _ _ E); eexists; reflexivity].
      intros ->. specialize (Hq2 eq_refl). specialize (Hq3 eq_refl). subst xs. apply (Lx Hq2 [] x eq_refl).
    - intros a x xs [Wx Lx]. inversion Wx; subst. split; [assumption|]. intros Ek hs0 h ->. apply (Lx Ek (x :: hs0) h eq_refl).
    - intros a x xs [Wx _]. inversion Wx as [|? ? (Hn & _) _]; subst. apply encUriParam_nonempty, Hn. }
  rewrite fold_snoc in X. cbn [app] in X. destruct (joined 38 (map (encUriParam e SIP_HNAME SIP_HVALUE) hs) ++ k) eqn:E; [|exact X].
  exfalso. apply app_eq_nil in E as [E _]. destruct hs as [|p ps]; [congruence|]. inversion W as [|? ? (Hn & _) _]; subst. apply (encUriParam_nonempty e SIP_HNAME SIP_HVALUE) in Hn.
  destruct ps; [exact (Hn E)|]. cbn [map] in E. rewrite joined_cons2 in E. apply app_eq_nil in E as [E _]. exact (Hn E).
Qed.

(** ** User part *)
Lemma findUserinfo_noAt k : findUserinfo k = false <-> noAt k.
Proof.
  unfold noAt. induction k as [|v k IH]; cbn [findUserinfo].
  - split; [intros _; exists [], []; auto|reflexivity].
  - destruct (N.eqb_spec v 64) as [->|N64].
    + split; [discriminate|]. intros (a & b & E & Ha & Hb). exfalso. destruct a as [|y a]; cbn in E.
      * subst b. destruct Hb as [|(x & t & [= <- <-] & [H|H])]; discriminate.
      * injection E as <- _. inversion Ha as [|? ? (H & _)]; subst. congruence.
    + rewrite lws_rfc. destruct ((v =? 62) || rfcLWSchar v)%bool eqn:Ev.
      * split; [intros _|reflexivity]. exists [], (v :: k). split; [reflexivity|]. split; [constructor|]. right. exists v, k. split; [reflexivity|]. apply orb_prop in Ev as [Ev|Ev]; [left; lia|right; exact Ev].
      * apply orb_false_iff in Ev as [Ev1 Ev2]. apply N.eqb_neq in Ev1. rewrite IH. split.
        -- intros (a & b & -> & Ha & Hb). exists (v :: a), b. repeat split; auto.
        -- intros (a & b & E & Ha & Hb). destruct a as [|y a]; cbn in E.
           ++ subst b. destruct Hb as [|(x & t & [= <- <-] & [H|H])]; congruence.
           ++ injection E as <- ->. inversion Ha; subst. exists a, b. auto.
Qed.
(** Bytes the scan for "@" passes over. *)
Definition passes (x : N) : bool := negb ((x =? 64) || (x =? 62) || IsLwsChar x).
Lemma findUserinfo_app a b : forallb passes a = true -> findUserinfo (a ++ b) = findUserinfo b.
Proof.
  induction a as [|x a IH]; [reflexivity|]. cbn [forallb app findUserinfo]. intros H. apply andb_prop in H as [Hx Ha]. unfold passes in Hx. rewrite negb_true_iff, !orb_false_iff in Hx.
  destruct Hx as [[H1 H2] H3]. rewrite H1, H2, H3. cbn. auto.
Qed.
Lemma escape_class cs (f : N -> bool) b : allBytes b -> forallb (fun x => implb (inset cs x) (f x)) all256 = true -> f 37 = true ->
  forallb (fun x => implb (rfcUHex x) (f x)) all256 = true -> forallb f (escape cs b) = true.
Proof.
  intros Hb H1 H2 H3. unfold escape. induction Hb as [|x b Hx Hb IH]; [reflexivity|]. cbn [flat_map]. rewrite forallb_app, IH, andb_true_r. destruct (inset cs x) eqn:E.
  - cbn. rewrite (inset_sweep cs f H1 x E). reflexivity.
  - cbn [forallb]. rewrite H2. cbn. rewrite andb_true_r.
    assert (U : forall v, f (upperHex v) = true).
    { intros v. unfold upperHex. assert (L : N.land v 15 < 16) by (change 15 with (N.ones 4); rewrite N.land_ones; apply N.mod_lt; discriminate).
      set (n := N.land v 15) in *. assert (Y : forall y, y < 256 -> rfcUHex y = true -> f y = true).
      { intros y Hy Hr. pose proof (sweep _ H3 y Hy) as Z. cbv beta in Z. rewrite Hr in Z. exact Z. }
      destruct (N.ltb_spec n 10); apply Y; try lia; unfold rfcUHex, rfcDIGIT, rfcUHexAlpha, rng; lia. }
    rewrite !U. reflexivity.
Qed.
Lemma forallb_mono (f g : N -> bool) l : (forall x, f x = true -> g x = true) -> forallb f l = true -> forallb g l = true.
Proof. rewrite !forallb_forall. auto. Qed.
Lemma byte_mono (f g : N -> bool) : forallb (fun x => implb (f x) (g x)) all256 = true -> (forall x, f x = true -> x < 256) -> forall x, f x = true -> g x = true.
Proof. intros H Hf x Hx. pose proof (sweep _ H x (Hf x Hx)) as Y. cbv beta in Y. rewrite Hx in Y. exact Y. Qed.

Definition uriTextChar (x : N) : bool := passes x.
Lemma digits_pass ds : forallb isDec ds = true -> forallb passes ds = true.
Proof. apply forallb_mono. intros x Hx. rewrite <- IsDigit_isDec in Hx. revert x Hx. apply inset_sweep. vm_compute. reflexivity. Qed.
Lemma encHostPort_pass e h : wfHostPort e h -> forallb passes (encHostPort e h) = true.
Proof.
  intros [W Wp]. unfold encHostPort. rewrite forallb_app. apply andb_true_intro. split.
  - destruct (hpHost h) as [|a b c d|ip|n]; cbn [encHost wfHost] in *; [contradiction| | |].
    + destruct W as (Ha & Hb & Hc & Hd). repeat (rewrite ?forallb_app; cbn [forallb app]).
      rewrite !digits_pass by (apply byte_quadPart; assumption). reflexivity.
    + destruct W as [_ W]. cbn [app forallb]. rewrite forallb_app. cbn. rewrite andb_true_r. revert W. apply forallb_mono. apply byte_mono; [vm_compute; reflexivity|].
      unfold ipv6Char, rfcHEXDIG, rfcDIGIT, rfcLHexAlpha, rfcUHexAlpha, rng. intros x Hx. apply orb_prop in Hx as [Hx|Hx]; [lia|]. apply oneOf_lt in Hx; [exact Hx|reflexivity].
    + destruct W as (_ & W & _). rewrite <- forallb_hostname in W. revert W. apply forallb_mono, inset_sweep. vm_compute. reflexivity.
  - destruct (hpPort h) as [p|]; [|reflexivity]. cbn [forallb]. apply andb_true_intro. split; [reflexivity|]. apply digits_pass. apply (encUInt_canonical p). unfold two64. lia.
Qed.
Lemma encUriValue_pass e cv v : eUriNoEscape e = false -> match v with Some b => allBytes b | None => True end ->
  forallb (fun x => implb (inset cv x) (passes x)) all256 = true -> forallb passes (encUriValue e cv v) = true.
Proof.
  intros He Hv Hc. unfold encUriValue, escUri. rewrite He. destruct v as [b|]; [|reflexivity]. cbn [forallb]. apply andb_true_intro. split; [reflexivity|].
  apply escape_class; auto.
Qed.
Lemma encUriParam_pass e cn cv p : eUriNoEscape e = false -> allBytes (upName p) -> match upValue p with Some b => allBytes b | None => True end ->
  forallb (fun x => implb (inset cn x) (passes x)) all256 = true -> forallb (fun x => implb (inset cv x) (passes x)) all256 = true -> forallb passes (encUriParam e cn cv p) = true.
Proof.
  intros He Hn Hv H1 H2. unfold encUriParam. rewrite forallb_app, encUriValue_pass by assumption. rewrite andb_true_r. unfold escUri. rewrite He. apply escape_class; auto.
Qed.
Lemma encUriParams_pass e cn cv ps : eUriNoEscape e = false -> Forall wfParam ps ->
  forallb (fun x => implb (inset cn x) (passes x)) all256 = true -> forallb (fun x => implb (inset cv x) (passes x)) all256 = true -> forallb passes (encUriParams e cn cv ps) = true.
Proof.
  intros He W H1 H2. induction W as [|p ps (Hn1 & Hn & Hv) W IH]; [reflexivity|]. cbn [encUriParams flat_map app forallb]. fold (encUriParams e cn cv ps). rewrite forallb_app, IH, andb_true_r.
  rewrite encUriParam_pass; auto. destruct (upValue p); [apply Hv|exact I].
Qed.
Lemma encUriHeaders_pass e hs : eUriNoEscape e = false -> Forall wfUHeader hs -> forallb passes (encUriHeaders e hs) = true.
Proof.
  intros He W. induction W as [|h hs (Hn1 & Hn & v & Hv & Hvb) W IH]; [reflexivity|].
  assert (E : forallb passes (encUriParam e SIP_HNAME SIP_HVALUE h) = true). { apply encUriParam_pass; auto. rewrite Hv. exact Hvb. }
  destruct hs as [|h2 hs]; [exact E|]. cbn [encUriHeaders]. rewrite forallb_app, E. exact IH.
Qed.

Lemma rt_userinfo e usr pw k u : infinite e -> eUriNoEscape e = false ->
  match usr with Some n => n <> [] /\ allBytes n | None => pw = None end -> match pw with Some p => allBytes p | None => True end ->
  (usr = None -> findUserinfo k = false) ->
  exists u', parseUserinfo e (mkst (match usr with
    | Some n => escUri e SIP_USER n ++ match pw with Some p => 58 :: escUri e SIP_PASSWORD p | None => [] end ++ [64]
    | None => [] end ++ k) u) = Ok (usr, pw) (mkst k u').
Proof.
  intros HI He Hu Hp Hk. unfold parseUserinfo. rewrite onRest_eq. destruct usr as [n|].
  2:{ subst pw. cbn [app]. rewrite (Hk eq_refl). eexists. reflexivity. }
  destruct Hu as [Hne Hb]. unfold escUri. rewrite He. repeat rewrite <- app_assoc. cbn [app].
  rewrite findUserinfo_app by (apply escape_class; auto).
  assert (F1 : findUserinfo (match pw with Some p => 58 :: escape SIP_PASSWORD p | None => [] end ++ 64 :: k) = true).
  { rewrite findUserinfo_app; [reflexivity|]. destruct pw; [|reflexivity]. cbn [forallb]. apply andb_true_intro. split; [reflexivity|]. apply escape_class; auto. }
  rewrite F1. clear F1. destruct pw as [p|]; cbn [app].
  - rewrite (bind_ok _ _ _ _ _ _ (rt_escapable e SIP_USER n (58 :: escape SIP_PASSWORD p ++ 64 :: k) u HI eq_refl Hb Hne ltac:(split; [reflexivity|discriminate]))).
    rewrite onRest_eq. unfold parsePassword at 1. unfold bind at 1. rewrite onRest_eq. change (58 =? 58) with true. cbv iota. rewrite goto_bind. cbn [used].
    destruct (escape SIP_PASSWORD p ++ 64 :: k) eqn:E; [apply app_eq_nil in E as [_ E]; discriminate|]. rewrite <- E. clear E.
    rewrite (bind_ok _ _ _ _ _ _ (rt_escapableEmpty e SIP_PASSWORD p (64 :: k) _ HI eq_refl Hp ltac:(split; [reflexivity|discriminate]))). cbn [ret].
    rewrite onRest_eq. eexists. reflexivity.
  - rewrite (bind_ok _ _ _ _ _ _ (rt_escapable e SIP_USER n (64 :: k) u HI eq_refl Hb Hne ltac:(split; [reflexivity|discriminate]))). eexists. reflexivity.
Qed.

(** ** The whole URI *)
Lemma sipUriKnownNames_good : goodNames sipUriKnownNames = true. Proof. vm_compute. reflexivity. Qed.
Definition allParams (t : known uparam) (ps : list uparam) : list uparam := match t with Some tbl => present tbl | None => [] end ++ ps.
Lemma wfKnown_all on names t ps : wfKnown on names upName wfParam t ps -> Forall wfParam ps -> Forall wfParam (allParams t ps).
Proof.
  intros [_ W] F. unfold allParams. apply Forall_app. split; [|exact F]. destruct t as [tbl|]; [|constructor]. destruct W as (_ & _ & F2).
  apply Forall_forall. intros p Hp. apply present_In in Hp. destruct (Forall2_in_r _ _ _ F2 _ Hp) as (n & _ & _ & W). exact W.
Qed.
Lemma rt_sipUriParams e t ps k u : infinite e -> eUriNoEscape e = false -> wfKnown (fSipUriKnown e) sipUriKnownNames upName wfParam t ps -> Forall wfParam ps ->
  allParams t ps <> [] -> paramEnds k -> (forall k', k <> 59 :: k') ->
  exists u', parseUriParams SIP_PNAME SIP_PVALUE sipUriSet (None, []) e (mkst (joined 59 (map (encUriParam e SIP_PNAME SIP_PVALUE) (allParams t ps)) ++ k) u) = Ok (t, ps) (mkst k u').
Proof.
  intros HI He W F Hne Hk Nk. destruct (goodNames_ok _ sipUriKnownNames_good) as [N1 N2].
  rewrite <- (fold_wfKnown _ _ _ _ _ _ N1 N2 W). fold (allParams t ps).
  apply (rt_uriParams e SIP_PNAME SIP_PVALUE SIP_PNAME SIP_PVALUE sipUriSet (addStep (fSipUriKnown e) sipUriKnownNames upName) 1 24 paramEnds (fun _ l => Forall wfParam l)); auto using sub_refl.
  - intros. unfold uriParamOne. good1. good1. apply gd_sipUriSet.
  - intros q Hq. split; [apply paramEnds_name, Hq|]. split; [apply paramEnds_value, Hq|]. intros k' ->. destruct Hq as (_ & _ & H). congruence.
  - intros q. split; [reflexivity|split; discriminate].
  - intros a p l Hl. inversion Hl; subst. split; [assumption|]. split; [assumption|]. intros r v. unfold sipUriSet, withEnv. apply rt_addParam, HI.
  - eapply wfKnown_all; eassumption.
Qed.
Lemma encUriAll_eq e t ps : eUriNoEscape e = false -> wfKnown (fSipUriKnown e) sipUriKnownNames upName wfParam t ps ->
  encUriKnown e SIP_PVALUE sipUriKnownNames t ++ encUriParams e SIP_PNAME SIP_PVALUE ps = flat_map (fun p => 59 :: encUriParam e SIP_PNAME SIP_PVALUE p) (allParams t ps).
Proof.
  intros He [_ W]. unfold allParams. rewrite flat_map_app. unfold encUriParams. f_equal. destruct t as [tbl|]; [|reflexivity]. destruct W as (_ & _ & F).
  apply encKnown_present; auto. repeat constructor.
Qed.
Lemma rt_uriAfterScheme e x k u : infinite e -> eUriNoEscape e = false -> wfSipUri e x -> uriFollow x k ->
  exists u', parseUriAfterScheme (uSecure x) e (mkst (skipn (if uSecure x then 5 else 4) (encSipUri e x) ++ k) u) = Ok x (mkst k u').
Proof.
  intros HI He (Wu & Wp & Wh & Wk & Wps & Whs) (Hk & Hat & Hl).
  replace (skipn (if uSecure x then 5 else 4) (encSipUri e x)) with
    (match uUser x with
     | Some n => escUri e SIP_USER n ++ match uPass x with Some p => 58 :: escUri e SIP_PASSWORD p | None => [] end ++ [64]
     | None => [] end ++ encHostPort e (uHost x) ++
     flat_map (fun p => 59 :: encUriParam e SIP_PNAME SIP_PVALUE p) (allParams (uKnown x) (uParams x)) ++ match uHeaders x with [] => [] | hs => 63 :: encUriHeaders e hs end).
  2:{ rewrite <- encUriAll_eq by assumption. unfold encSipUri. rewrite <- !app_assoc. destruct (uSecure x); reflexivity. }
  set (H := match uHeaders x with [] => [] | hs => 63 :: encUriHeaders e hs end).
  set (Ps := flat_map (fun p => 59 :: encUriParam e SIP_PNAME SIP_PVALUE p) (allParams (uKnown x) (uParams x))).
  assert (HP : forallb passes H = true). { unfold H. pose proof (encUriHeaders_pass e _ He Whs) as X. destruct (uHeaders x); [reflexivity|exact X]. }
  assert (PP : forallb passes Ps = true). { apply encUriParams_pass; auto. eapply wfKnown_all; eassumption. }
  repeat rewrite <- app_assoc. unfold parseUriAfterScheme.
  destruct (rt_userinfo e (uUser x) (uPass x) (encHostPort e (uHost x) ++ Ps ++ H ++ k) u HI He Wu Wp) as [u1 E1].
  { intros X. rewrite !findUserinfo_app; auto using encHostPort_pass. apply findUserinfo_noAt, Hat, X. }
  rewrite !app_assoc in E1 |- *. rewrite (bind_ok _ _ _ _ _ _ E1). clear E1. repeat rewrite <- app_assoc.
  assert (HHk : paramEnds (H ++ k) /\ (forall k', H ++ k <> 59 :: k')).
  { unfold H. destruct (uHeaders x); cbn [app]; [split; [apply uriEnds_param, Hk|apply (uriEnds_neq k 59 Hk); inlist]|]. split; [split; [reflexivity|split; discriminate]|discriminate]. }
  assert (HE : hostEnds (Ps ++ H ++ k)).
  { unfold Ps. destruct (allParams (uKnown x) (uParams x)); cbn [flat_map app]; [|split; [reflexivity|discriminate]].
    unfold H. destruct (uHeaders x); cbn [app]; [apply uriEnds_host, Hk|split; [reflexivity|discriminate]]. }
  destruct (rt_hostport e (uHost x) HI Wh (Ps ++ H ++ k) u1 HE) as [u2 E2]. rewrite (bind_ok _ _ _ _ _ _ E2). clear E2 HE. rewrite onRest_eq. cbn [fst snd].
  assert (Hend : forall u0 t ps, t = uKnown x -> ps = uParams x -> exists u',
     onRest (fun r2 => match r2 with
          | y :: r3 => if y =? 63
              then goto r3 ;;; (hs <- parseUriHeaders ;; ret (mkuri (uSecure x) (uUser x) (uPass x) (uHost x) t ps hs))
              else ret (mkuri (uSecure x) (uUser x) (uPass x) (uHost x) t ps [])
          | [] => ret (mkuri (uSecure x) (uUser x) (uPass x) (uHost x) t ps [])
          end) e (mkst (H ++ k) u0) = Ok x (mkst k u')).
  { intros u0 t ps -> ->. rewrite onRest_eq. unfold H in *. destruct (uHeaders x) as [|h hs] eqn:Ehs; cbn [app].
    - assert (X : mkuri (uSecure x) (uUser x) (uPass x) (uHost x) (uKnown x) (uParams x) [] = x) by (destruct x; cbn in *; congruence).
      destruct k as [|y k]; [rewrite X; eexists; reflexivity|]. destruct (N.eqb_spec y 63) as [->|]; [|rewrite X; eexists; reflexivity].
      exfalso. eapply (uriEnds_neq _ 63 Hk); [inlist|reflexivity].
    - change (63 =? 63) with true. cbv iota. rewrite goto_bind. cbn [used].
      destruct (rt_uriHeaders e (h :: hs) k u0 HI He ltac:(discriminate) Whs) as [u3 E3].
      + destruct k as [|y k]; [exact I|]. split; [rewrite hvalue_rfc; apply Hk|]. intros ->. eapply (uriEnds_neq _ 37 Hk); [inlist|reflexivity].
      + apply (uriEnds_neq k 38 Hk). inlist.
      + intros X. specialize (Hl X). rewrite Ehs in Hl. exact Hl.
      + rewrite (bind_ok _ _ _ _ _ _ E3). eexists. unfold ret. f_equal. destruct x; cbn in *; congruence. }
  unfold Ps in *. destruct (allParams (uKnown x) (uParams x)) as [|p0 ps0] eqn:Ep.
  - cbn [flat_map app] in *. assert (Ek : uKnown x = None /\ uParams x = []).
    { unfold allParams in Ep. apply app_eq_nil in Ep as [Ea Eb]. split; [|exact Eb]. destruct (uKnown x); [|reflexivity]. destruct Wk as [_ (_ & X & _)]. congruence. }
    destruct Ek as [Ek1 Ek2]. specialize (Hend u2 None [] (eq_sym Ek1) (eq_sym Ek2)).
    destruct (H ++ k) as [|y r] eqn:Er.
    + rewrite onRest_eq in Hend. exact Hend.
    + destruct (N.eqb_spec y 59) as [->|_]; [exfalso; eapply (proj2 HHk); reflexivity|]. exact Hend.
  - rewrite <- Ep in *. rewrite flat_joined by (rewrite Ep; discriminate). cbn [app]. change (59 =? 59) with true. cbv iota.
    destruct (rt_sipUriParams e (uKnown x) (uParams x) (H ++ k) u2 HI He Wk Wps ltac:(rewrite Ep; discriminate) (proj1 HHk) (proj2 HHk)) as [u3 E3].
    unfold bind at 1. rewrite goto_bind. cbn [used]. rewrite E3. cbn [fst snd]. apply Hend; reflexivity.
Qed.
Lemma rt_sipUri e x k u : infinite e -> eUriNoEscape e = false -> wfSipUri e x -> uriFollow x k ->
  exists u', parseSipUri e (mkst (encSipUri e x ++ k) u) = Ok x (mkst k u').
Proof.
  intros HI He W F. destruct (rt_uriAfterScheme e x k u HI He W F) as [u' E]. exists u'. rewrite <- E. unfold parseSipUri, encSipUri.
  destruct (uSecure x); cbn [s2b app skipn]; reflexivity.
Qed.

(** The encoding does not depend on the arena. *)
Lemma encUriHeaders_mem m e hs : encUriHeaders (withMem m e) hs = encUriHeaders e hs.
Proof. induction hs as [|h hs IH]; [reflexivity|]. cbn [encUriHeaders]. rewrite IH. reflexivity. Qed.
Lemma encSipUri_mem m e x : encSipUri (withMem m e) x = encSipUri e x.
Proof.
  unfold encSipUri. destruct (uHeaders x) as [|h hs]; [reflexivity|]. rewrite encUriHeaders_mem. reflexivity.
Qed.
