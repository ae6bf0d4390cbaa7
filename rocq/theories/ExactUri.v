(** SIP and telephone URIs: the parsers accept exactly the grammars of GrammarSpec. *)
From Verif Require Import Base BaseLemmas Charset CharsetSpec CharsetProofs Num NumSpec NumProofs Lws LwsSpec LwsProofs Str StrSpec StrProofs QuotedSpec Monad Good Rt Seq GoodAuto Inv
  Host HostSpec HostProofs Uri UriSpec UriGood UriProofs UriSound Tel TelSpec TelProofs TelSound TelCrash GenParam GenParamSpec GenParamProofs Addr AddrSpec AddrProofs GrammarSpec Exact.

(** ** Recognised parameters *)
Definition okNames (names : list bytes) : Prop := NoDup (map (map asciiLower) names) /\ Forall (fun x => x <> []) names.
Lemma isNamed_iff {A} (name : A -> bytes) n p : isNamed name n p = true <-> sameNoCase (name p) n.
Proof. unfold isNamed, sameNoCase. apply beq_eq. Qed.
Lemma isNamed_eq {A} (name : A -> bytes) n p : n <> [] -> equalNoCase (name p) n = isNamed name n p.
Proof.
  intros Hn. pose proof (equalNoCase_spec (name p) n Hn) as H1. pose proof (isNamed_iff name n p) as H2.
  destruct (equalNoCase (name p) n), (isNamed name n p); auto; exfalso; intuition congruence.
Qed.
Lemma isKnown_find {A} (name : A -> bytes) names p : Forall (fun x => x <> []) names -> forall i, (isKnown name names p = false <-> findName names (name p) i = None).
Proof.
  intros F. induction F as [|n names Hn F IH]; intros i; cbn; [tauto|]. rewrite (isNamed_eq name n p Hn). destruct (isNamed name n p); cbn; [split; discriminate|]. apply IH.
Qed.
Lemma setNth_named {A} (name : A -> bytes) (f : bytes -> option A) p : forall names i j, okNames names -> findName names (name p) i = Some j ->
  setNth (map f names) (j - i) (Some p) = map (fun n => if isNamed name n p then Some p else f n) names.
Proof.
  induction names as [|n names IH]; intros i j [Nd F] H; [discriminate|]. inversion F as [|n0 l Hn F']; subst. cbn [map] in Nd. inversion Nd as [|n0 l Ni Nd']; subst.
  cbn [findName] in H. rewrite (isNamed_eq name n p Hn) in H. cbn [map]. destruct (isNamed name n p) eqn:Ei.
  - injection H as <-. rewrite Nat.sub_diag. cbn [setNth]. f_equal. apply map_ext_in. intros m Hm. destruct (isNamed name m p) eqn:Em; [|reflexivity]. exfalso. apply Ni.
    apply isNamed_iff in Ei, Em. unfold sameNoCase in *. rewrite <- Ei, Em. now apply in_map.
  - pose proof (findName_lt _ _ _ _ H). replace (j - i)%nat with (S (j - S i)) by lia. cbn [setNth]. f_equal. apply (IH (S i) j); [split; assumption|exact H].
Qed.
Lemma lastNamed_snoc {A} (name : A -> bytes) xs p n : lastNamed name (xs ++ [p]) n = if isNamed name n p then Some p else lastNamed name xs n.
Proof. unfold lastNamed. rewrite filter_app, rev_app_distr. cbn [filter]. destruct (isNamed name n p); reflexivity. Qed.
Lemma lastNamed_none {A} (name : A -> bytes) names xs : existsb (isKnown name names) xs = false -> map (lastNamed name xs) names = map (fun _ => None) names.
Proof.
  intros H. apply map_ext_in. intros n Hn. unfold lastNamed. replace (filter (isNamed name n) xs) with (@nil A); [reflexivity|]. symmetry.
  induction xs as [|x xs IH]; [reflexivity|]. cbn [existsb] in H. apply orb_false_iff in H as [H1 H2]. cbn [filter]. destruct (isNamed name n x) eqn:E; [|apply IH, H2].
  exfalso. assert (isKnown name names x = true) by (apply existsb_exists; eauto). congruence.
Qed.
Lemma map_none {A B} (l : list A) : map (fun _ => @None B) l = repeat None (List.length l).
Proof. induction l; cbn; congruence. Qed.
Lemma filter_all {A} (f : A -> bool) xs : (forall x, In x xs -> f x = true) -> filter f xs = xs.
Proof. induction xs as [|x xs IH]; intros H; cbn; [reflexivity|]. rewrite (H x) by now left. f_equal. apply IH. intros y Hy. apply H. now right. Qed.
Lemma filter_unknown {A} (name : A -> bytes) names xs : existsb (isKnown name names) xs = false -> filter (fun p => negb (isKnown name names p)) xs = xs.
Proof.
  intros H. apply filter_all. intros x Hx. apply negb_true_iff. destruct (isKnown name names x) eqn:E; [|reflexivity]. exfalso.
  assert (existsb (isKnown name names) xs = true) by (apply existsb_exists; eauto). congruence.
Qed.
Definition sorted {A} (on : bool) (name : A -> bytes) (names : list bytes) (ps : list A) : known A * list A :=
  if on then (if existsb (isKnown name names) ps then Some (map (lastNamed name ps) names) else None, filter (fun p => negb (isKnown name names p)) ps) else (None, ps).
Lemma fold_sorted {A} on (name : A -> bytes) names ps : okNames names -> fold_left (addStep on names name) ps (None, []) = sorted on name names ps.
Proof.
  intros Hn. induction ps as [|p ps IH] using rev_ind; [destruct on; reflexivity|]. rewrite fold_left_app. cbn [fold_left]. rewrite IH. clear IH. unfold sorted, addStep.
  destruct on; cbn [fst snd]; [|reflexivity]. rewrite existsb_app, filter_app. cbn [existsb filter]. pose proof (isKnown_find name names p (proj2 Hn) 0%nat) as Hk.
  destruct (findName names (name p) 0) as [j|] eqn:Ef.
  - assert (Ek : isKnown name names p = true) by (destruct (isKnown name names p); [reflexivity|]; destruct Hk as [Hk _]; specialize (Hk eq_refl); discriminate).
    rewrite Ek. cbn [negb orb]. rewrite orb_true_r, app_nil_r. f_equal. f_equal.
    replace (match (if existsb (isKnown name names) ps then Some (map (lastNamed name ps) names) else None) with Some tbl => tbl | None => repeat None (List.length names) end) with (map (lastNamed name ps) names).
    + pose proof (setNth_named name (lastNamed name ps) p names 0 j Hn Ef) as Hs. rewrite Nat.sub_0_r in Hs. rewrite Hs. apply map_ext. intros n. now rewrite lastNamed_snoc.
    + destruct (existsb (isKnown name names) ps) eqn:Ex; [reflexivity|]. now rewrite lastNamed_none, map_none.
  - destruct Hk as [_ Hk]. specialize (Hk eq_refl). rewrite Hk. cbn [negb orb]. rewrite orb_false_r. f_equal. destruct (existsb (isKnown name names) ps); [|reflexivity]. f_equal.
    apply map_ext_in. intros n Hi. rewrite lastNamed_snoc. destruct (isNamed name n p) eqn:En; [|reflexivity]. exfalso. assert (isKnown name names p = true) by (apply existsb_exists; eauto). congruence.
Qed.
Definition SortInv {A} (e : env) (on : bool) (names : list bytes) (name : A -> bytes) (xs : list A) (a : known A * list A) (u : N) : Prop :=
  a = sorted on name names xs \/
  (memend e <> None /\ on = true /\ existsb (isKnown name names) xs = true /\ a = (None, filter (fun p => negb (isKnown name names p)) xs) /\ leMem e (u + 2 * N.of_nat (List.length names)) = false).
Lemma SortInv_mono {A} e on names (name : A -> bytes) xs a u u' : u <= u' -> SortInv e on names name xs a u -> SortInv e on names name xs a u'.
Proof.
  intros Hu [H|(H1 & H2 & H3 & H4 & H5)]; [now left|]. right. split; [exact H1|]. split; [exact H2|]. split; [exact H3|]. split; [exact H4|].
  unfold leMem in *. destruct (memend e); [|discriminate]. apply N.leb_gt in H5. apply N.leb_gt. lia.
Qed.
Lemma SortInv_step {A} e on names (name : A -> bytes) xs a p s a' s' : okNames names -> SortInv e on names name xs a (used s) -> addParam on names name a p e s = Ok a' s' ->
  rest s' = rest s /\ SortInv e on names name (xs ++ [p]) a' (used s').
Proof.
  intros Hn Hi H. assert (St' : addStep on names name (sorted on name names xs) p = sorted on name names (xs ++ [p])) by (rewrite <- !(fold_sorted on name names _ Hn), fold_left_app; reflexivity).
  unfold addStep in St'. unfold addParam in H. destruct on; [|injection H as <- <-; split; [reflexivity|]; left; rewrite <- St'; destruct Hi as [->|(_ & Hi & _)]; [reflexivity|discriminate]].
  apply bind_inv in H as (o & s1 & E & H). injection H as <- <-. unfold setKnown in E. pose proof (isKnown_find name names p (proj2 Hn) 0%nat) as Hk.
  destruct (findName names (name p) 0) as [j|] eqn:Ef.
  - assert (Ek : isKnown name names p = true) by (destruct (isKnown name names p); [reflexivity|]; destruct Hk as [Hk _]; specialize (Hk eq_refl); discriminate).
    destruct (fst a) as [tbl|] eqn:Ea.
    + injection E as <- <-. split; [reflexivity|]. left. destruct Hi as [->|(_ & _ & _ & -> & _)]; [|discriminate]. rewrite Ea in St'. exact St'.
    + destruct (leMem e (used s + 2 * N.of_nat (List.length names))) eqn:El.
      * injection E as <- <-. split; [reflexivity|]. cbn [used]. left. destruct Hi as [->|(_ & _ & _ & _ & Hl)]; [|congruence]. rewrite Ea in St'. exact St'.
      * destruct (Nat.ltb j 4); [|discriminate]. injection E as <- <-. split; [reflexivity|]. right. split; [unfold leMem in El; destruct (memend e); discriminate|]. split; [reflexivity|].
        rewrite existsb_app, filter_app. cbn [existsb filter]. rewrite Ek. cbn [negb orb]. rewrite orb_true_r, app_nil_r. split; [reflexivity|]. split; [|exact El].
        f_equal. destruct Hi as [->|(_ & _ & _ & -> & _)]; reflexivity.
  - injection E as <- <-. split; [reflexivity|]. destruct Hk as [_ Hk]. specialize (Hk eq_refl). destruct Hi as [->|(H1 & _ & H3 & -> & H5)]; [left; exact St'|].
    right. split; [exact H1|]. split; [reflexivity|]. rewrite existsb_app, filter_app, H3. cbn [filter]. rewrite Hk. cbn [negb orb fst snd]. auto.
Qed.
Lemma SortInv_Sorted {A} e on names (name : A -> bytes) ps a u : SortInv e on names name ps a u -> Sorted e on name names ps (fst a) (snd a).
Proof.
  intros [->|(H1 & H2 & H3 & -> & _)]; [|now apply SoLost]. unfold sorted. destruct on; [|now apply SoOff]. destruct (existsb (isKnown name names) ps) eqn:E; [now apply SoSome|].
  cbn [fst snd]. rewrite filter_unknown by exact E. now apply SoNone.
Qed.
Lemma Sorted_inf {A} e on names (name : A -> bytes) ps kn others : infinite e -> Sorted e on name names ps kn others -> (kn, others) = sorted on name names ps.
Proof.
  intros HI [-> | -> E | -> E|_ _ H]; [reflexivity| | |exfalso; exact (H HI)]; unfold sorted; rewrite E; [|reflexivity]. now rewrite filter_unknown.
Qed.
Lemma good_used {A} K C (p : P A) e s v s' : goodAt K C p e s -> p e s = Ok v s' -> used s <= used s'.
Proof. intros G E. pose proof (good_any _ _ _ _ _ G (memend e)) as H. replace (withMem (memend e) e) with e in H by (destruct e; reflexivity). rewrite E in H. apply H. Qed.

(** ** Parameters and headers of a URI *)
Lemma EscRead_ne (cls : N -> bool) t v k : EscRead cls t v k -> v <> [] -> t <> [].
Proof. intros [D _] H. destruct D; [congruence|discriminate|discriminate]. Qed.
Lemma ParamRead_ne t p k : ParamRead t p k -> t <> [].
Proof. intros [t' n k' E Hn _|t' n tv v k' E Hn _ _]; apply EscRead_ne in E; auto; destruct t'; cbn; congruence. Qed.
Lemma HeaderRead_ne t p k : HeaderRead t p k -> t <> [].
Proof. intros [t' n tv v k' E Hn _ _|t' n E Hn]; apply EscRead_ne in E; auto; destruct t'; cbn; congruence. Qed.
Lemma exact_uriParam e : exact e (parseUriParam SIP_PNAME SIP_PVALUE) ParamRead.
Proof.
  pose proof (exact_escapable SIP_PNAME rfcPname e pname_rfc) as Xn. pose proof (exact_escapable SIP_PVALUE rfcPname e pvalue_rfc) as Xv. split.
  - intros s v s' H. apply bind_inv in H as (n & s1 & E & H). apply (ex_sound _ _ _ Xn) in E as (t & Er & En & Hn). unfold onRest in H. destruct (rest s1) as [|x r1] eqn:R1.
    + injection H as <- <-. rewrite R1. exists t. split; [exact Er|]. apply PRbare; auto. intros k' Hk. discriminate.
    + destruct (N.eqb_spec x 61) as [->|Hx].
      * apply bind_inv in H as (x0 & s2 & E & H). injection E as _ <-. apply bind_inv in H as (w & s3 & E & H). injection H as <- <-.
        apply (ex_sound _ _ _ Xv) in E as (tv & Ev & Ew & Hw). cbn [rest] in Ev. exists (t ++ 61 :: tv). split; [rewrite Er, Ev, <- app_assoc; reflexivity|]. apply PRval; auto; rewrite <- Ev; exact En.
      * injection H as <- <-. rewrite R1. exists t. split; [exact Er|]. apply PRbare; auto. intros k' [= Y _]. congruence.
  - intros HI t v k u H. destruct H as [t n k En Hn Nk|t n tv v k En Hn Ev Hv].
    + destruct (ex_complete _ _ _ Xn HI _ _ _ u (conj En Hn)) as [u1 E]. exists u1. unfold parseUriParam. rewrite (bind_ok _ _ _ _ _ _ E), onRest_eq. destruct k as [|x k]; [reflexivity|].
      destruct (N.eqb_spec x 61) as [->|]; [exfalso; eapply Nk; reflexivity|reflexivity].
    + destruct (ex_complete _ _ _ Xn HI _ _ _ u (conj En Hn)) as [u1 E]. destruct (ex_complete _ _ _ Xv HI _ _ _ u1 (conj Ev Hv)) as [u2 E2]. exists u2.
      rewrite <- app_assoc. cbn [app]. unfold parseUriParam. rewrite (bind_ok _ _ _ _ _ _ E), onRest_eq. change (61 =? 61) with true. cbv iota. rewrite goto_bind. cbn [used]. rewrite (bind_ok _ _ _ _ _ _ E2). reflexivity.
Qed.
Lemma exact_uriHeader e : exact e parseUriHeader HeaderRead.
Proof.
  pose proof (exact_escapable SIP_HNAME rfcHname e hname_rfc) as Xn. pose proof (exact_escapableEmpty SIP_HVALUE rfcHname e hvalue_rfc) as Xv. split.
  - intros s v s' H. apply bind_inv in H as (n & s1 & E & H). apply (ex_sound _ _ _ Xn) in E as (t & Er & En & Hn). unfold onRest in H. destruct (rest s1) as [|x r1] eqn:R1; [discriminate|].
    destruct (N.eqb_spec x 61) as [->|Hx]; [|discriminate]. apply bind_inv in H as (x0 & s2 & E & H). injection E as _ <-. destruct r1 as [|y r1].
    + injection H as <- <-. cbn [rest]. exists (t ++ [61]). split; [rewrite app_nil_r; exact Er|]. now apply HRend.
    + apply bind_inv in H as (w & s3 & E & H). injection H as <- <-. apply (ex_sound _ _ _ Xv) in E as (tv & Ev & Ew). cbn [rest] in Ev.
      exists (t ++ 61 :: tv). split; [rewrite Er, Ev, <- app_assoc; reflexivity|]. apply HRval; [rewrite <- Ev; exact En|exact Hn|exact Ew|rewrite <- Ev; discriminate].
  - intros HI t v k u H. destruct H as [t n tv v k En Hn Ev Hv|t n En Hn].
    + destruct (ex_complete _ _ _ Xn HI _ _ _ u (conj En Hn)) as [u1 E]. destruct (ex_complete _ _ _ Xv HI _ _ _ u1 Ev) as [u2 E2]. exists u2.
      rewrite <- app_assoc. cbn [app]. unfold parseUriHeader. rewrite (bind_ok _ _ _ _ _ _ E), onRest_eq. change (61 =? 61) with true. cbv iota. rewrite goto_bind. cbn [used].
      destruct (tv ++ k) as [|y r] eqn:Er; [congruence|]. rewrite (bind_ok _ _ _ _ _ _ E2). reflexivity.
    + destruct (ex_complete _ _ _ Xn HI _ _ _ u (conj En Hn)) as [u1 E]. exists u1. rewrite app_nil_r. unfold parseUriHeader. rewrite (bind_ok _ _ _ _ _ _ E), onRest_eq. reflexivity.
Qed.
Lemma uriParams_sound {Y} K C (set : Y -> uparam -> P Y) (Q : list uparam -> Y -> N -> Prop) e : (forall a e s, goodAt K C (uriParamOne SIP_PNAME SIP_PVALUE set a) e s) ->
  (forall xs a u u', u <= u' -> Q xs a u -> Q xs a u') ->
  (forall xs a p s a' s', Q xs a (used s) -> set a p e s = Ok a' s' -> rest s' = rest s /\ Q (xs ++ [p]) a' (used s')) ->
  forall a s b s', Q [] a (used s) -> parseUriParams SIP_PNAME SIP_PVALUE set a e s = Ok b s' ->
  exists t ps, rest s = t ++ rest s' /\ SepRead 59 ParamRead t ps (rest s') /\ Q ps b (used s').
Proof.
  intros G M H a s b s' Hq E. unfold parseUriParams, onRest in E. destruct s as [[|z r] u]; cbn [rest used] in *; [discriminate|].
  destruct (sepLoop_sound K C 59 ParamRead (uriParamOne SIP_PNAME SIP_PVALUE set) Q e G) with (n := List.length (z :: r)) (xs := @nil uparam) (a := a) (r := z :: r) (u := u) (b := b) (s' := s') as (t & ps & H1 & H2 & H3); auto; [|discriminate|].
  - intros xs a1 s1 a2 s2 Hq1 E1. unfold uriParamOne in E1. apply bind_inv in E1 as (x0 & s3 & Ea & E1). pose proof (alloc_inv _ _ _ _ _ Ea) as [R3 _].
    apply bind_inv in E1 as (p & s4 & Ep & Es). pose proof (good_used _ _ _ _ _ _ _ (gd_alloc 1 6 e s1) Ea) as U1. pose proof (good_used _ _ _ _ _ _ _ (gd_uriParam 1 SIP_PNAME SIP_PVALUE e s3 (N.le_refl 1)) Ep) as U2.
    apply (ex_sound _ _ _ (exact_uriParam e)) in Ep as (t & Er & Hp). destruct (H xs a1 p s4 a2 s2) as [R5 Q5]; [eapply M; [|exact Hq1]; lia|exact Es|].
    exists t, p. rewrite R5, <- R3. split; [exact Er|]. split; [eapply ParamRead_ne, Hp|]. split; [exact Hp|exact Q5].
  - exists t, ps. auto.
Qed.
Lemma uriParams_complete {Y} K C (set : Y -> uparam -> P Y) (step : Y -> uparam -> Y) (ok : uparam -> Prop) e : (forall a e s, goodAt K C (uriParamOne SIP_PNAME SIP_PVALUE set a) e s) -> infinite e ->
  (forall a p r u, ok p -> exists u', set a p e (mkst r u) = Ok (step a p) (mkst r u')) ->
  forall t ps k, SepRead 59 ParamRead t ps k -> Forall ok ps -> forall a u, exists u', parseUriParams SIP_PNAME SIP_PVALUE set a e (mkst (t ++ k) u) = Ok (fold_left step ps a) (mkst k u').
Proof.
  intros G HI H t ps k S F a u. unfold parseUriParams. rewrite onRest_eq. pose proof (SepRead_ne _ _ _ _ _ ParamRead_ne S) as Hne. destruct (t ++ k) as [|z r] eqn:Er; [destruct t; [congruence|discriminate]|]. rewrite <- Er. clear Er.
  apply (sepLoop_complete K C 59 ParamRead _ step ok e G ParamRead_ne); auto. intros a1 t1 p k1 u1 Hp Hr. unfold uriParamOne. rewrite (bind_ok _ _ _ _ _ _ (rt_alloc e 6 _ _ HI)).
  destruct (ex_complete _ _ _ (exact_uriParam e) HI _ _ _ (u1 + 6) Hr) as [u2 E2]. rewrite (bind_ok _ _ _ _ _ _ E2). now apply H.
Qed.
Lemma exact_uriHeaders e : exact e parseUriHeaders (SepRead 38 HeaderRead).
Proof.
  assert (G : forall a e s, goodAt 1 12 (uriHeaderOne a) e s) by (intros; unfold uriHeaderOne; good). split.
  - intros s v s' E. unfold parseUriHeaders, onRest in E. destruct s as [[|z r] u]; cbn [rest used] in *; [discriminate|].
    destruct (sepLoop_sound 1 12 38 HeaderRead uriHeaderOne (fun xs a _ => a = xs) e G) with (n := List.length (z :: r)) (xs := @nil uparam) (a := @nil uparam) (r := z :: r) (u := u) (b := v) (s' := s') as (t & ps & H1 & H2 & ->); auto; [|discriminate|].
    + intros xs a1 s1 a2 s2 -> E1. unfold uriHeaderOne in E1. apply bind_inv in E1 as (x0 & s3 & Ea & E1). apply alloc_inv in Ea as [R3 _]. apply bind_inv in E1 as (p & s4 & Ep & Es). injection Es as <- <-.
      apply (ex_sound _ _ _ (exact_uriHeader e)) in Ep as (t & Er & Hp). exists t, p. rewrite <- R3. split; [exact Er|]. split; [eapply HeaderRead_ne, Hp|]. auto.
    + exists t. auto.
  - intros HI t ps k u S. unfold parseUriHeaders. rewrite onRest_eq. pose proof (SepRead_ne _ _ _ _ _ HeaderRead_ne S) as Hne. destruct (t ++ k) as [|z r] eqn:Er; [destruct t; [congruence|discriminate]|]. rewrite <- Er. clear Er.
    replace ps with (fold_left (fun a p => a ++ [p]) ps []).
    + apply (sepLoop_complete 1 12 38 HeaderRead _ (fun a p => a ++ [p]) (fun _ => True) e G HeaderRead_ne); auto; [|now apply Forall_forall]. intros a1 t1 p k1 u1 _ Hr. unfold uriHeaderOne. rewrite (bind_ok _ _ _ _ _ _ (rt_alloc e 6 _ _ HI)).
      destruct (ex_complete _ _ _ (exact_uriHeader e) HI _ _ _ (u1 + 6) Hr) as [u2 E2]. rewrite (bind_ok _ _ _ _ _ _ E2). eexists. reflexivity.
    + assert (X : forall (l a : list uparam), fold_left (fun a p => a ++ [p]) l a = a ++ l) by (induction l as [|x l IHl]; intros a; cbn; [now rewrite app_nil_r|]; rewrite IHl, <- app_assoc; reflexivity). apply X.
Qed.

(** ** User part *)
Lemma user_rfc b : inset SIP_USER b = rfcUser b.
Proof.
  apply rfc_ge; [apply charsets_exact|]. intros x H. unfold rfcUser in H. apply orb_prop in H as [H|H]; [apply rfcUnreserved_lt, H|]. apply oneOf_lt in H; [exact H|reflexivity].
Qed.
Lemma password_rfc b : inset SIP_PASSWORD b = rfcPassword b.
Proof.
  apply rfc_ge; [apply charsets_exact|]. intros x H. unfold rfcPassword in H. apply orb_prop in H as [H|H]; [apply rfcUnreserved_lt, H|]. apply oneOf_lt in H; [exact H|reflexivity].
Qed.
Lemma hexv_rfc h v : hexDigitValue h v -> rfcHEXDIG h = true.
Proof. unfold hexDigitValue, rfcHEXDIG, rfcDIGIT, rfcLHexAlpha, rfcUHexAlpha, rng. lia. Qed.
Lemma hex_pass h v : hexDigitValue h v -> passes h = true.
Proof. intros H. apply hexv_rfc in H. apply (inset_sweep TEL_PHONE_DIGIT_HEX passes); [vm_compute; reflexivity|]. rewrite phonehex_rfc, H. reflexivity. Qed.
Lemma Decodes_pass cs t v : forallb (fun x => implb (inset cs x) (passes x)) all256 = true -> Decodes (inset cs) t v -> forallb passes t = true.
Proof.
  intros H D. assert (Hx : forall x, inset cs x = true -> passes x = true).
  { exact (inset_sweep cs passes H). }
  induction D as [|c s b Hc D IH|h1 h2 v1 v2 s b H37 H1 H2 D IH]; [reflexivity| |].
  - cbn [forallb]. rewrite IH, (Hx c Hc). reflexivity.
  - cbn [forallb]. rewrite IH. rewrite (hex_pass _ _ H1), (hex_pass _ _ H2). reflexivity.
Qed.
Lemma exact_userinfo e : exact e parseUserinfo (fun t v k => UserRead t (fst v) (snd v) k).
Proof.
  pose proof (exact_escapable SIP_USER rfcUser e user_rfc) as Xn. pose proof (exact_escapableEmpty SIP_PASSWORD rfcPassword e password_rfc) as Xv. split.
  - intros s v s' H. unfold parseUserinfo, onRest in H. destruct (findUserinfo (rest s)) eqn:F.
    + apply bind_inv in H as (n & s1 & E & H). apply (ex_sound _ _ _ Xn) in E as (t & Er & [Dn _] & Hn). destruct (rest s1) as [|x r1] eqn:R1; [discriminate|].
      apply bind_inv in H as (pw & s2 & E & H). destruct (rest s2) as [|y r2] eqn:R2; [discriminate|]. destruct (N.eqb_spec y 64) as [->|]; [|discriminate].
      apply bind_inv in H as (x0 & s3 & E0 & H). injection E0 as _ <-. injection H as <- <-. cbn [rest fst snd]. unfold parsePassword, onRest in E. rewrite R1 in E. destruct (N.eqb_spec x 58) as [->|].
      * apply bind_inv in E as (x1 & s3 & E1 & E). injection E1 as _ <-. destruct r1 as [|z r1]; [discriminate|]. apply bind_inv in E as (w & s3 & E1 & E). injection E as <- <-.
        apply (ex_sound _ _ _ Xv) in E1 as (tp & Ep & Dp & _). cbn [rest] in Ep. rewrite R2 in Ep. exists (t ++ 58 :: tp ++ [64]). split; [rewrite Er, Ep; repeat (rewrite <- app_assoc; cbn [app]); reflexivity|]. now apply URpass.
      * injection E as <- <-. rewrite R1 in R2. injection R2 as -> ->. exists (t ++ [64]). split; [rewrite Er, <- app_assoc; reflexivity|]. now apply URuser.
    + injection H as <- <-. exists []. split; [reflexivity|]. constructor. now apply findUserinfo_noAt.
  - intros HI t v k u H. destruct v as [us pw]. cbn [fst snd] in H. unfold parseUserinfo. rewrite onRest_eq. inversion H as [k0 Hk|t0 n k0 Dn Hn|t0 n tp p k0 Dn Hn Dp]; subst.
    + apply findUserinfo_noAt in Hk. cbn [app]. rewrite Hk. exists u. reflexivity.
    + pose proof (Decodes_ext _ _ _ _ (fun x => eq_sym (user_rfc x)) Dn) as Dn'. rewrite <- app_assoc. cbn [app]. rewrite findUserinfo_app by (eapply Decodes_pass; [|exact Dn']; vm_compute; reflexivity). cbn [findUserinfo]. change (64 =? 64) with true. cbv iota.
      destruct (ex_complete _ _ _ Xn HI t0 n (64 :: k) u) as [u1 E]; [split; [split; [exact Dn|split; [reflexivity|discriminate]]|exact Hn]|].
      exists u1. rewrite (bind_ok _ _ _ _ _ _ E), onRest_eq. unfold bind at 1. unfold parsePassword. rewrite onRest_eq. reflexivity.
    + pose proof (Decodes_ext _ _ _ _ (fun x => eq_sym (user_rfc x)) Dn) as Dn'. pose proof (Decodes_ext _ _ _ _ (fun x => eq_sym (password_rfc x)) Dp) as Dp'. repeat (rewrite <- app_assoc; cbn [app]).
      rewrite findUserinfo_app by (eapply Decodes_pass; [|exact Dn']; vm_compute; reflexivity). change (58 :: tp ++ 64 :: k) with ((58 :: tp) ++ 64 :: k).
      rewrite findUserinfo_app by (cbn [forallb]; apply andb_true_intro; split; [reflexivity|eapply Decodes_pass; [|exact Dp']; vm_compute; reflexivity]). cbn [findUserinfo app]. change (64 =? 64) with true. cbv iota.
      destruct (ex_complete _ _ _ Xn HI t0 n (58 :: tp ++ 64 :: k) u) as [u1 E]; [split; [split; [exact Dn|split; [reflexivity|discriminate]]|exact Hn]|].
      destruct (ex_complete _ _ _ Xv HI tp p (64 :: k) u1) as [u2 E2]; [split; [exact Dp|split; [reflexivity|discriminate]]|].
      exists u2. rewrite (bind_ok _ _ _ _ _ _ E), onRest_eq. unfold bind at 1. unfold parsePassword. rewrite onRest_eq. change (58 =? 58) with true. cbv iota. rewrite goto_bind. cbn [used].
      destruct (tp ++ 64 :: k) as [|z r] eqn:Ez; [apply app_eq_nil in Ez as [_ Ez]; discriminate|]. rewrite (bind_ok _ _ _ _ _ _ E2). cbn [ret]. rewrite onRest_eq. reflexivity.
Qed.

(** ** SIP URI *)
Lemma lc_iff x v : In v [115; 105; 112; 116; 101; 108] -> lc x v = true <-> asciiLower x = v.
Proof.
  intros Iv. assert (Bv : v < 256) by (cbn in Iv; intuition lia). split.
  - intros H. assert (Lx : x < 256). { unfold lc in H. apply N.eqb_eq in H. destruct (N.ltb_spec x 256) as [|G]; [assumption|]. pose proof (NameProofs.lor32_big x G). lia. }
    pose proof (sweep (fun x => forallb (fun v => implb (lc x v) (asciiLower x =? v)) [115; 105; 112; 116; 101; 108]) ltac:(vm_compute; reflexivity) x Lx) as S. cbv beta in S.
    rewrite forallb_forall in S. specialize (S v Iv). rewrite H in S. now apply N.eqb_eq in S.
  - intros H. assert (Lx : x < 256) by (unfold asciiLower in H; destruct (_ && _)%bool; lia).
    pose proof (sweep (fun x => forallb (fun v => implb (asciiLower x =? v) (lc x v)) [115; 105; 112; 116; 101; 108]) ltac:(vm_compute; reflexivity) x Lx) as S. cbv beta in S.
    rewrite forallb_forall in S. specialize (S v Iv). rewrite H, N.eqb_refl in S. exact S.
Qed.
Lemma colon_lower x : asciiLower x = 58 <-> x = 58.
Proof. split; [|intros ->; reflexivity]. unfold asciiLower. destruct (_ && _)%bool eqn:E; [|auto]. apply andb_prop in E as [E1 E2]. apply N.leb_le in E1, E2. lia. Qed.
Lemma sip4 a b c d : sameNoCase [a; b; c; d] (s2b "sip:") <-> (lc a 115 && lc b 105 && lc c 112)%bool = true /\ d = 58.
Proof.
  unfold sameNoCase. change (map asciiLower (s2b "sip:")) with [115; 105; 112; 58]. cbn [map]. rewrite !andb_true_iff, !lc_iff, <- (colon_lower d) by (cbn; tauto). split; [intros [= -> -> -> ->]; auto|].
  intros [[[-> ->] ->] ->]. reflexivity.
Qed.
Lemma sips5 a b c d x : sameNoCase [a; b; c; d; x] (s2b "sips:") <-> (lc a 115 && lc b 105 && lc c 112)%bool = true /\ lc d 115 = true /\ x = 58.
Proof.
  unfold sameNoCase. change (map asciiLower (s2b "sips:")) with [115; 105; 112; 115; 58]. cbn [map]. rewrite !andb_true_iff, !lc_iff, <- (colon_lower x) by (cbn; tauto). split; [intros [= -> -> -> -> ->]; auto|].
  intros [[[-> ->] ->] [-> ->]]. reflexivity.
Qed.
Lemma same_length a b : sameNoCase a b -> List.length a = List.length b.
Proof. intros H. apply (f_equal (@List.length N)) in H. now rewrite !map_length in H. Qed.
Lemma exact_sipScheme e : exact e parseSipScheme (fun t v _ => SipScheme t v).
Proof.
  split.
  - intros s v s' H. unfold parseSipScheme, onRest in H. destruct (rest s) as [|a [|b [|c [|d r1]]]]; try discriminate. destruct (lc a 115 && lc b 105 && lc c 112)%bool eqn:E; [|discriminate].
    destruct (N.eqb_spec d 58) as [->|Hd].
    + apply bind_inv in H as (x0 & s1 & E0 & H). injection E0 as _ <-. injection H as <- <-. exists [a; b; c; 58]. split; [reflexivity|]. constructor. now apply sip4.
    + destruct r1 as [|x r2]; [discriminate|]. destruct (lc d 115) eqn:Ed; [|discriminate]. destruct (N.eqb_spec x 58) as [->|]; [|discriminate]. cbn [andb] in H.
      apply bind_inv in H as (x0 & s1 & E0 & H). injection E0 as _ <-. injection H as <- <-. exists [a; b; c; d; 58]. split; [reflexivity|]. apply SchSips. now apply sips5.
  - intros _ t v k u [t' H|t' H]; exists u; pose proof (same_length _ _ H) as L; cbn in L.
    + destruct t' as [|a [|b [|c [|d [|]]]]]; try discriminate. apply sip4 in H as [H ->]. unfold parseSipScheme. cbn [app]. rewrite onRest_eq, H. reflexivity.
    + destruct t' as [|a [|b [|c [|d [|x [|]]]]]]; try discriminate. apply sips5 in H as (H & Hd & ->). unfold parseSipScheme. cbn [app]. rewrite onRest_eq, H, Hd.
      destruct (N.eqb_spec d 58) as [->|]; [discriminate|]. reflexivity.
Qed.
Lemma okNames_check names : forallb (fun n => negb (beq n [])) names = true -> (fix go l := match l with [] => true | x :: l' => negb (existsb (beq x) l') && go l' end) (map (map asciiLower) names) = true -> okNames names.
Proof.
  intros H1 H2. split.
  - induction (map (map asciiLower) names) as [|x l IH]; [constructor|]. apply andb_prop in H2 as [Hx Hl]. constructor; [|now apply IH]. intros Hi. apply negb_true_iff in Hx.
    assert (existsb (beq x) l = true) by (apply existsb_exists; exists x; split; [exact Hi|apply beq_refl]). congruence.
  - apply Forall_forall. intros x Hx ->. rewrite forallb_forall in H1. apply H1 in Hx. discriminate.
Qed.
Lemma sipNames_ok : okNames sipUriKnownNames. Proof. apply okNames_check; vm_compute; reflexivity. Qed.
Lemma gd_sipOne a e s : goodAt 1 24 (uriParamOne SIP_PNAME SIP_PVALUE sipUriSet a) e s.
Proof. unfold uriParamOne. good1. good1. apply gd_sipUriSet. Qed.
Lemma sipParams_sound e s a' s' : parseUriParams SIP_PNAME SIP_PVALUE sipUriSet (None, []) e s = Ok a' s' ->
  exists t ps, rest s = t ++ rest s' /\ SepRead 59 ParamRead t ps (rest s') /\ Sorted e (fSipUriKnown e) upName uriParamNames ps (fst a') (snd a').
Proof.
  intros E. destruct (uriParams_sound 1 24 sipUriSet (SortInv e (fSipUriKnown e) sipUriKnownNames upName) e gd_sipOne) with (a := (@None (list (option uparam)), @nil uparam)) (s := s) (b := a') (s' := s') as (t & ps & H1 & H2 & H3); auto.
  - intros xs a u u' Hu. now apply SortInv_mono.
  - intros xs a p s1 a1 s2 Hq Es. unfold sipUriSet, withEnv in Es. eapply SortInv_step; [apply sipNames_ok|exact Hq|exact Es].
  - left. unfold sorted. destruct (fSipUriKnown e); reflexivity.
  - exists t, ps. split; [exact H1|]. split; [exact H2|]. eapply SortInv_Sorted, H3.
Qed.
Lemma sipParams_complete e t ps k kn others u : infinite e -> SepRead 59 ParamRead t ps k -> Sorted e (fSipUriKnown e) upName uriParamNames ps kn others ->
  exists u', parseUriParams SIP_PNAME SIP_PVALUE sipUriSet (None, []) e (mkst (t ++ k) u) = Ok (kn, others) (mkst k u').
Proof.
  intros HI H1 H2. rewrite (Sorted_inf _ _ _ _ _ _ _ HI H2), <- (fold_sorted _ _ _ _ sipNames_ok).
  apply (uriParams_complete 1 24 sipUriSet (addStep (fSipUriKnown e) sipUriKnownNames upName) (fun _ => True) e gd_sipOne HI); auto; [|now apply Forall_forall].
  intros a p r u0 _. unfold sipUriSet, withEnv. now apply rt_addParam.
Qed.
Lemma Sorted_nil {A} e on (name : A -> bytes) names : Sorted e on name names [] None [].
Proof. destruct on; [now apply SoNone|now apply SoOff]. Qed.
Lemma notNext_nil c : notNext c []. Proof. intros k' H. discriminate. Qed.
Lemma notNext_ne c x k : x <> c -> notNext c (x :: k). Proof. intros H k' [= Y _]. congruence. Qed.
Lemma exact_uriAfterScheme e sec : exact e (parseUriAfterScheme sec) (UriRead e sec).
Proof.
  pose proof (exact_userinfo e) as Xu. pose proof (exact_hostPort e) as Xh. pose proof (exact_uriHeaders e) as Xhs. split.
  - intros s v s' H. apply bind_inv in H as ([us pw] & s1 & E & H). apply (ex_sound _ _ _ Xu) in E as (tu & Eu & Hu). cbn [fst snd] in Hu.
    apply bind_inv in H as (h & s2 & E & H). apply (ex_sound _ _ _ Xh) in E as (th & Eh & Hh). unfold onRest in H. cbn [fst snd] in H.
    destruct (rest s2) as [|x r1] eqn:R2.
    { injection H as <- <-. exists (tu ++ th ++ [] ++ []). rewrite R2. split; [rewrite Eu, Eh; cbn [app]; now rewrite !app_nil_r|].
      apply UrRead with (ps := []); cbn [app]; rewrite ?app_nil_r; [rewrite Eh, app_nil_r in Hu; exact Hu|exact Hh| | |apply Sorted_nil]; constructor; apply notNext_nil. }
    apply bind_inv in H as (kp & s3 & E & H).
    assert (X : exists tp ps, rest s2 = tp ++ rest s3 /\ OptRead 59 (SepRead 59 ParamRead) tp ps (rest s3) /\ Sorted e (fSipUriKnown e) upName uriParamNames ps (fst kp) (snd kp)).
    { destruct (N.eqb_spec x 59) as [->|Hx].
      - apply bind_inv in E as (x0 & s4 & E0 & E). injection E0 as _ <-. apply sipParams_sound in E as (t & ps & H1 & H2 & H3). cbn [rest] in H1. exists (59 :: t), ps. rewrite R2, H1.
        split; [reflexivity|]. split; [constructor; exact H2|exact H3].
      - injection E as <- <-. exists [], []. split; [reflexivity|]. split; [constructor; rewrite R2; now apply notNext_ne|apply Sorted_nil]. }
    clear E. destruct X as (tp & ps & Ep & Hp & Hs). rewrite R2 in Ep. rewrite Ep in Hh.
    assert (Y : exists ths hs, rest s3 = ths ++ rest s' /\ OptRead 63 (SepRead 38 HeaderRead) ths hs (rest s') /\ v = mkuri sec us pw h (fst kp) (snd kp) hs).
    { destruct (rest s3) as [|y r3] eqn:R3.
      - injection H as <- <-. rewrite R3. exists [], []. split; [reflexivity|]. split; [constructor; apply notNext_nil|reflexivity].
      - destruct (N.eqb_spec y 63) as [->|Hy].
        + apply bind_inv in H as (x0 & s4 & E0 & E). injection E0 as _ <-. apply bind_inv in E as (hs & s4 & E & E1). injection E1 as <- <-.
          apply (ex_sound _ _ _ Xhs) in E as (t & H1 & H2). cbn [rest] in H1. exists (63 :: t), hs. rewrite H1. split; [reflexivity|]. split; [constructor; exact H2|reflexivity].
        + injection H as <- <-. rewrite R3. exists [], []. split; [reflexivity|]. split; [constructor; now apply notNext_ne|reflexivity]. }
    destruct Y as (ths & hs & Er & Hhs & ->). rewrite Er in Hh, Hp, Ep. exists (tu ++ th ++ tp ++ ths). repeat rewrite <- app_assoc. split; [congruence|].
    apply UrRead with (ps := ps); auto. rewrite <- Ep, <- Eh. exact Hu.
  - intros HI t v k u [tu us pw th h tp ps ths hs kn others k' Hu Hh Hp Hhs Hs]. clear t v k. rename k' into k. repeat rewrite <- app_assoc.
    destruct (ex_complete _ _ _ Xu HI tu (us, pw) _ u Hu) as [u1 E1]. destruct (ex_complete _ _ _ Xh HI _ _ _ u1 Hh) as [u2 E2].
    unfold parseUriAfterScheme. rewrite (bind_ok _ _ _ _ _ _ E1), (bind_ok _ _ _ _ _ _ E2). cbn [fst snd].
    destruct (tp ++ ths ++ k) as [|x r1] eqn:R.
    { apply app_eq_nil in R as [-> R]. apply app_eq_nil in R as [-> ->]. inversion Hp; subst. inversion Hhs; subst.
      pose proof (Sorted_inf _ _ _ _ _ _ _ HI Hs) as Y. unfold sorted in Y. cbn [existsb filter] in Y. exists u2. destruct (fSipUriKnown e); injection Y as -> ->; rewrite onRest_eq; reflexivity. }
    assert (K1 : exists u3, (if x =? 59 then goto r1 ;;; parseUriParams SIP_PNAME SIP_PVALUE sipUriSet (None, []) else ret (None, [])) e (mkst (x :: r1) u2) = Ok (kn, others) (mkst (ths ++ k) u3)).
    { inversion Hp as [k0 Nk|t0 ps0 k0 Hsep]; subst.
      - cbn [app] in R. pose proof (Sorted_inf _ _ _ _ _ _ _ HI Hs) as Y. unfold sorted in Y. cbn [existsb filter] in Y. exists u2. rewrite R.
        destruct (N.eqb_spec x 59) as [->|]; [exfalso; exact (Nk _ R)|]. destruct (fSipUriKnown e); injection Y as -> ->; reflexivity.
      - injection R as <- <-. change (59 =? 59) with true. cbv iota. rewrite goto_bind. cbn [used]. now apply sipParams_complete with (ps := ps). }
    destruct K1 as [u3 E3]. rewrite onRest_eq, (bind_ok _ _ _ _ _ _ E3), onRest_eq. cbn [fst snd]. inversion Hhs as [k0 Nk|t0 hs0 k0 Hsep]; subst.
    + cbn [app]. exists u3. destruct k as [|y k]; [reflexivity|]. destruct (N.eqb_spec y 63) as [->|]; [exfalso; eapply Nk; reflexivity|reflexivity].
    + cbn [app]. change (63 =? 63) with true. cbv iota. rewrite goto_bind. cbn [used]. destruct (ex_complete _ _ _ Xhs HI _ _ _ u3 Hsep) as [u4 E4]. exists u4. rewrite (bind_ok _ _ _ _ _ _ E4). reflexivity.
Qed.
Lemma exact_uriBare e sec : exact e (parseUriAfterSchemeNoParam sec) (UriBareRead e sec).
Proof.
  pose proof (exact_userinfo e) as Xu. pose proof (exact_hostPort e) as Xh. split.
  - intros s v s' H. apply bind_inv in H as ([us pw] & s1 & E & H). apply (ex_sound _ _ _ Xu) in E as (tu & Eu & Hu). cbn [fst snd] in Hu.
    apply bind_inv in H as (h & s2 & E & H). apply (ex_sound _ _ _ Xh) in E as (th & Eh & Hh). injection H as <- <-. exists (tu ++ th). rewrite <- app_assoc. split; [congruence|]. constructor; [rewrite <- Eh; exact Hu|exact Hh].
  - intros HI t v k u [tu us pw th h k' Hu Hh]. rewrite <- app_assoc. destruct (ex_complete _ _ _ Xu HI tu (us, pw) _ u Hu) as [u1 E1]. destruct (ex_complete _ _ _ Xh HI _ _ _ u1 Hh) as [u2 E2]. exists u2.
    unfold parseUriAfterSchemeNoParam. rewrite (bind_ok _ _ _ _ _ _ E1), (bind_ok _ _ _ _ _ _ E2). reflexivity.
Qed.
Lemma exact_sipUri e : exact e parseSipUri (SipUriRead e).
Proof.
  refine (exact_iff _ _ _ _ _ (exact_bind e parseSipScheme parseUriAfterScheme _ _ (exact_sipScheme e) (exact_uriAfterScheme e))).
  intros t v k. split.
  - intros (t1 & sec & t2 & -> & H1 & H2). econstructor; eassumption.
  - intros [ts sec t' u' k' H1 H2]. exists ts, sec, t'. auto.
Qed.

(** ** Telephone URI *)
Lemma noSeps_eq t : removeVisual t = noSeps t.
Proof. unfold removeVisual, noSeps. apply filter_ext. intros x. now rewrite vis_rfc. Qed.
Lemma exact_telNumber e : exact e parseTelNumber (fun t v k => TelNumberRead t (fst v) (snd v) k).
Proof.
  split.
  - intros s v s' H. unfold parseTelNumber, onRest in H. destruct (rest s) as [|x r] eqn:R; [discriminate|].
    destruct (N.eqb_spec x 43) as [->|Nx]; apply bind_inv in H as (n0 & s1 & E & [= <- <-]); apply tel_inv in E as (run & ds & Er & Hn & Hv & Hd & Hst); rewrite R in *; exists run; (split; [exact Er|]); cbn [fst snd].
    + destruct Hn as [[-> ->]|(_ & _ & Y)]; [|exfalso; eapply Y; reflexivity]. rewrite (forallb_eq _ _ _ phone_rfc) in Hd. rewrite (stops_eq _ _ _ phone_rfc) in Hst. rewrite noSeps_eq.
      apply TNglobal; [exact Hd|now apply (exists_sep rfcDIGIT ds Hd digit_nosep)|exact Hst].
    + destruct Hn as [[-> _]|(-> & -> & _)]; [cbn in Er; congruence|]. rewrite (forallb_eq _ _ _ phonehex_rfc) in Hd. rewrite (stops_eq _ _ _ phonehex_rfc) in Hst. rewrite noSeps_eq.
      apply TNlocal; [exact Hd|now apply (exists_sep rfcHEXDIG ds Hd hex_nosep)|exact Hst].
  - intros HI t v k u H. destruct v as [g n]. cbn [fst snd] in H. inversion H as [ds k0 F Ex St|run k0 F Ex St]; subst.
    + unfold parseTelNumber. cbn [app]. rewrite onRest_eq. change (43 =? 43) with true. cbv iota. unfold bind, paTelNumber. rewrite inf_lt by assumption. cbn [negb rest]. change (43 =? 43) with true. cbv iota.
      rewrite (span_exact (inset TEL_PHONE_DIGIT) ds k); [|rewrite (forallb_eq _ _ _ phone_rfc); exact F|rewrite (stops_eq _ _ _ phone_rfc); exact St]. cbv zeta. rewrite inf_fits by assumption. cbn [negb].
      apply (exists_sep rfcDIGIT ds F digit_nosep) in Ex. fold (removeVisual ds). rewrite <- noSeps_eq. destruct (removeVisual ds) as [|y ys]; [congruence|]. rewrite inf_lt by assumption. cbn [negb]. eexists. reflexivity.
    + destruct t as [|x run]; [discriminate|]. assert (Nx : (x =? 43) = false) by (apply N.eqb_neq; intros ->; discriminate). unfold parseTelNumber. cbn [app]. rewrite onRest_eq. rewrite Nx. unfold bind, paTelNumber. rewrite inf_lt by assumption. cbn [negb rest].
      rewrite Nx. change (x :: run ++ k) with ((x :: run) ++ k).
      rewrite (span_exact (inset TEL_PHONE_DIGIT_HEX) (x :: run) k); [|rewrite (forallb_eq _ _ _ phonehex_rfc); exact F|rewrite (stops_eq _ _ _ phonehex_rfc); exact St]. cbv zeta. rewrite inf_fits by assumption. cbn [negb].
      apply (exists_sep rfcHEXDIG (x :: run) F hex_nosep) in Ex. fold (removeVisual (x :: run)). rewrite <- noSeps_eq. destruct (removeVisual (x :: run)) as [|y ys]; [congruence|]. rewrite inf_lt by assumption. cbn [negb]. eexists. reflexivity.
Qed.
Lemma isContext_eq p : equalNoCase (upName p) (s2b "phone-context") = isContext p.
Proof. unfold isContext. apply isNamed_eq. discriminate. Qed.
Lemma telNames_ok : okNames telKnownNames. Proof. apply okNames_check; vm_compute; reflexivity. Qed.
Definition lastContext (ps : list uparam) : option uparam := hd_error (rev (filter isContext ps)).
Lemma lastContext_snoc ps p : lastContext (ps ++ [p]) = if isContext p then Some p else lastContext ps.
Proof. unfold lastContext. rewrite filter_app, rev_app_distr. cbn [filter]. destruct (isContext p); reflexivity. Qed.
Definition TelInv (e : env) (ps : list uparam) (a : (option uparam * bool) * (known uparam * list uparam)) (u : N) : Prop :=
  Forall (fun p => isContext p = true -> upValue p <> None) ps /\ ContextOf (lastContext ps) (fst (fst a)) (snd (fst a)) /\
  SortInv e (fTelUriKnown e) telKnownNames upName (filter (fun p => negb (isContext p)) ps) (snd a) u.
Lemma TelInv_step e xs a p s1 a1 s2 : TelInv e xs a (used s1) -> telSet a p e s1 = Ok a1 s2 -> rest s2 = rest s1 /\ TelInv e (xs ++ [p]) a1 (used s2).
Proof.
  intros (H1 & H2 & H3) Es. unfold telSet in Es. rewrite isContext_eq in Es. unfold TelInv. rewrite lastContext_snoc, filter_app. cbn [filter].
  destruct (isContext p) eqn:Ec; cbn [negb].
  - destruct p as [n pv]. cbn [upName upValue] in Es. destruct pv as [[|x w]|]; try discriminate. rewrite app_nil_r.
    assert (F : Forall (fun p => isContext p = true -> upValue p <> None) (xs ++ [mkup n (Some (x :: w))])) by (apply Forall_app; split; [exact H1|constructor; [intros _; discriminate|constructor]]).
    destruct (N.eqb_spec x 43) as [->|Hx]; cbn [negb] in Es; injection Es as <- <-; (split; [reflexivity|]); (split; [exact F|]); (split; [|exact H3]); cbn [fst snd].
    + change (removeVisual (43 :: w)) with (43 :: removeVisual w). rewrite noSeps_eq. constructor.
    + now constructor.
  - apply bind_inv in Es as (b & s3 & Eb & [= <- <-]). unfold withEnv in Eb. destruct (SortInv_step _ _ _ _ _ _ _ _ _ _ telNames_ok H3 Eb) as [R3 Q3]. split; [exact R3|]. cbn [fst snd].
    split; [apply Forall_app; split; [exact H1|constructor; [intros Y; congruence|constructor]]|]. split; [exact H2|exact Q3].
Qed.
Lemma telParams_sound e s a' s' : parseUriParams SIP_PNAME SIP_PVALUE telSet ((None, false), (None, [])) e s = Ok a' s' ->
  exists t ps, rest s = t ++ rest s' /\ SepRead 59 ParamRead t ps (rest s') /\ TelInv e ps a' (used s').
Proof.
  intros E. destruct (uriParams_sound 1 16 telSet (TelInv e) e gd_telOne) with (a := (@None uparam, false, (@None (list (option uparam)), @nil uparam))) (s := s) (b := a') (s' := s') as (t & ps & H1 & H2 & H3); auto.
  - intros xs a u u' Hu (H1 & H2 & H3). split; [exact H1|]. split; [exact H2|]. eapply SortInv_mono; eassumption.
  - intros xs a p s1 a1 s2. apply TelInv_step.
  - split; [constructor|]. split; [constructor|]. left. unfold sorted. destruct (fTelUriKnown e); reflexivity.
  - exists t, ps. auto.
Qed.
Definition telStep (on : bool) (a : (option uparam * bool) * (known uparam * list uparam)) (p : uparam) : (option uparam * bool) * (known uparam * list uparam) :=
  if isContext p then
    match upValue p with
    | Some (x :: v) => if x =? 43 then ((Some (mkup (upName p) (Some (43 :: noSeps v))), false), snd a) else ((Some p, true), snd a)
    | _ => a
    end
  else (fst a, addStep on telKnownNames upName (snd a) p).
Lemma telStep_snd on ps : forall a, snd (fold_left (telStep on) ps a) = fold_left (addStep on telKnownNames upName) (filter (fun p => negb (isContext p)) ps) (snd a).
Proof.
  induction ps as [|p ps IH]; intros a; cbn [fold_left filter]; [reflexivity|]. rewrite IH. unfold telStep. destruct (isContext p); cbn [negb fold_left]; [|reflexivity].
  destruct (upValue p) as [[|x v]|]; [reflexivity| |reflexivity]. destruct (x =? 43); reflexivity.
Qed.
Definition okContext (p : uparam) : Prop := isContext p = true -> exists x v, upValue p = Some (x :: v).
Lemma telStep_ctx on ps : Forall okContext ps -> forall kn, ContextOf (lastContext ps) (fst (fst (fold_left (telStep on) ps ((None, false), kn)))) (snd (fst (fold_left (telStep on) ps ((None, false), kn)))).
Proof.
  intros F kn. induction ps as [|p ps IH] using rev_ind; [constructor|]. apply Forall_app in F as [F1 F2]. inversion F2 as [|p0 l Hp _]; subst. specialize (IH F1).
  rewrite fold_left_app. cbn [fold_left]. rewrite lastContext_snoc. unfold telStep at 1 3. destruct (isContext p) eqn:Ec; [|exact IH]. destruct (Hp Ec) as (x & v & Ev). destruct p as [n pv]. cbn [upValue upName] in *. subst pv.
  destruct (N.eqb_spec x 43) as [->|Hx]; cbn [fst snd]; constructor. exact Hx.
Qed.
Lemma ContextOf_fun o c1 d1 c2 d2 : ContextOf o c1 d1 -> ContextOf o c2 d2 -> c1 = c2 /\ d1 = d2.
Proof. intros H1 H2. destruct H1; inversion H2; subst; auto; congruence. Qed.
Lemma SepRead_Forall {A} c (One : bytes -> A -> bytes -> Prop) (F : A -> Prop) t ps k : (forall t p k, One t p k -> F p) -> SepRead c One t ps k -> Forall F ps.
Proof. intros H S. induction S as [t p k Ho _|t p Ho|t p t' ps k Ho _ IH]; constructor; eauto. Qed.
Lemma telParams_complete e t ps k ctx dom kn others u : infinite e -> SepRead 59 ParamRead t ps k -> Forall (fun p => isContext p = true -> upValue p <> None) ps -> ContextOf (lastContext ps) ctx dom ->
  Sorted e (fTelUriKnown e) upName telParamNames (filter (fun p => negb (isContext p)) ps) kn others ->
  exists u', parseUriParams SIP_PNAME SIP_PVALUE telSet ((None, false), (None, [])) e (mkst (t ++ k) u) = Ok ((ctx, dom), (kn, others)) (mkst k u').
Proof.
  intros HI HS F HC H2.
  assert (F' : Forall okContext ps).
  { assert (V : Forall (fun p => upValue p <> Some []) ps) by (eapply SepRead_Forall; [|exact HS]; intros t0 p0 k0 [t1 n k1 _ _ _|t1 n tv v k1 _ _ _ Hv]; cbn; congruence).
    rewrite Forall_forall in *. intros p Hp Hc. specialize (F p Hp Hc). specialize (V p Hp). cbv beta in F, V. destruct (upValue p) as [[|x v]|] eqn:Ev; [exfalso; exact (V eq_refl)|eauto|exfalso; exact (F eq_refl)]. }
  replace ((ctx, dom), (kn, others)) with (fold_left (telStep (fTelUriKnown e)) ps ((None, false), (None, []))).
  - apply (uriParams_complete 1 16 telSet (telStep (fTelUriKnown e)) okContext e gd_telOne HI); auto. intros a p r u0 Hp. unfold telSet, telStep. rewrite isContext_eq. destruct (isContext p) eqn:Ec.
    + destruct (Hp Ec) as (x & v & Ev). rewrite Ev. destruct (N.eqb_spec x 43) as [->|]; cbn [negb]; [|eexists; reflexivity]. change (removeVisual (43 :: v)) with (43 :: removeVisual v). rewrite noSeps_eq. eexists. reflexivity.
    + unfold bind at 1. unfold withEnv. destruct (rt_addParam (fTelUriKnown e) telKnownNames upName (snd a) p e r u0 HI) as [u' E']. rewrite E'. eexists. reflexivity.
  - pose proof (telStep_ctx (fTelUriKnown e) ps F' (None, [])) as Hc. destruct (ContextOf_fun _ _ _ _ _ Hc HC) as [E1 E2]. pose proof (telStep_snd (fTelUriKnown e) ps ((None, false), (None, []))) as E3. cbn [snd] in E3.
    rewrite (fold_sorted _ _ _ _ telNames_ok) in E3. pose proof (Sorted_inf _ _ _ _ _ _ _ HI H2) as E4. change telParamNames with telKnownNames in E4. rewrite <- E4 in E3. assert (Z : forall z : (option uparam * bool) * (known uparam * list uparam), fst (fst z) = ctx -> snd (fst z) = dom -> snd z = (kn, others) -> z = ((ctx, dom), (kn, others))) by (intros [[c d] ko]; cbn; intros -> -> ->; reflexivity).
    apply Z; assumption.
Qed.
Lemma exact_telAfterScheme e : exact e parseTelAfterScheme (TelRead e).
Proof.
  pose proof (exact_telNumber e) as Xn. split.
  - intros s v s' H. apply bind_inv in H as ([g n] & s1 & E & H). apply (ex_sound _ _ _ Xn) in E as (tn & En & Hn). cbn [fst snd] in *. unfold onRest in H.
    assert (B : forall x r1, rest s1 = x :: r1 /\ x <> 59 \/ rest s1 = [] -> v = mktel g false n None None [] -> s' = s1 -> exists t, rest s = t ++ rest s' /\ TelRead e t v (rest s')).
    { intros x r1 Hr -> ->. exists (tn ++ []). rewrite app_nil_r. split; [exact En|]. rewrite <- (app_nil_r tn). apply TlRead with (ps := []); [exact Hn|apply ORnone; destruct Hr as [[-> Hx]| ->]; [now apply notNext_ne|apply notNext_nil]|constructor|constructor|apply Sorted_nil]. }
    destruct (rest s1) as [|x r1] eqn:R1; [injection H as <- <-; rewrite R1; rewrite R1 in B; apply (B 0 []); auto|]. destruct (N.eqb_spec x 59) as [->|Hx]; [|injection H as <- <-; rewrite R1; rewrite R1 in B; apply (B x r1); auto].
    apply bind_inv in H as (x0 & s2 & E0 & H). injection E0 as _ <-. apply bind_inv in H as (a & s2 & E & [= <- <-]). apply telParams_sound in E as (t & ps & H1 & H2 & H3 & H4 & H5). cbn [rest] in H1. destruct a as [[ctx dom] [kn others]]. cbn [fst snd] in *.
    exists (tn ++ 59 :: t). split; [rewrite En, H1, <- app_assoc; reflexivity|]. apply TlRead with (ps := ps); auto.
    + cbn [app]. rewrite <- H1. exact Hn.
    + constructor. exact H2.
    + apply SortInv_Sorted in H5. exact H5.
  - intros HI t v k u [tn g n tp ps ctx dom kn others k' Hn Hp F Hc Hs]. clear t v k. rename k' into k. rewrite <- app_assoc. destruct (ex_complete _ _ _ Xn HI tn (g, n) _ u Hn) as [u1 E1].
    unfold parseTelAfterScheme. rewrite (bind_ok _ _ _ _ _ _ E1), onRest_eq. cbn [fst snd]. inversion Hp as [k0 Nk|t0 ps0 k0 Hsep]; subst.
    + cbn [app filter rev hd_error] in *. inversion Hc; subst. pose proof (Sorted_inf _ _ _ _ _ _ _ HI Hs) as Y. unfold sorted in Y. cbn [existsb filter] in Y. exists u1.
      assert (Z : (kn, others) = (None, [])) by (destruct (fTelUriKnown e); exact Y). injection Z as -> ->. destruct k as [|x k]; [reflexivity|]. destruct (N.eqb_spec x 59) as [->|]; [exfalso; eapply Nk; reflexivity|reflexivity].
    + cbn [app]. change (59 =? 59) with true. cbv iota. rewrite goto_bind. cbn [used]. destruct (telParams_complete e t0 ps k ctx dom kn others u1 HI Hsep F Hc Hs) as [u2 E2]. exists u2. rewrite (bind_ok _ _ _ _ _ _ E2). reflexivity.
Qed.
Lemma exact_telBare e : exact e parseTelAfterSchemeNoParam TelBareRead.
Proof.
  pose proof (exact_telNumber e) as Xn. split.
  - intros s v s' H. apply bind_inv in H as ([g n] & s1 & E & [= <- <-]). apply (ex_sound _ _ _ Xn) in E as (tn & En & Hn). exists tn. split; [exact En|]. now constructor.
  - intros HI t v k u [t' g n k' Hn]. destruct (ex_complete _ _ _ Xn HI t' (g, n) _ u Hn) as [u1 E1]. exists u1. unfold parseTelAfterSchemeNoParam. rewrite (bind_ok _ _ _ _ _ _ E1). reflexivity.
Qed.
Lemma exact_telScheme e : exact e parseTelScheme (fun t _ _ => TelScheme t).
Proof.
  split.
  - intros s v s' H. unfold parseTelScheme, onRest in H. destruct (rest s) as [|a [|b [|c [|d r1]]]]; try discriminate. destruct (lc a 116 && lc b 101 && lc c 108 && lc d 58)%bool eqn:E; [|discriminate].
    injection H as _ <-. exists [a; b; c; d]. split; [reflexivity|]. now apply scheme_iff.
  - intros _ t v k u (a & b & c & d & -> & H). assert (Q : TelScheme [a; b; c; d]) by (exists a, b, c, d; auto). apply scheme_iff in Q. exists u. unfold parseTelScheme. cbn [app]. rewrite onRest_eq, Q. destruct v. reflexivity.
Qed.
Lemma exact_telUri e : exact e parseTelUri (TelUriRead e).
Proof.
  refine (exact_iff _ _ _ _ _ (exact_bind e parseTelScheme (fun _ => parseTelAfterScheme) _ _ (exact_telScheme e) (fun _ => exact_telAfterScheme e))).
  intros t v k. split.
  - intros (t1 & a & t2 & -> & H1 & H2). econstructor; eassumption.
  - intros [ts t' u' k' H1 H2]. exists ts, tt, t'. auto.
Qed.
