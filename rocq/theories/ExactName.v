(** Header names in a block: the name parser accepts exactly [FieldNameRead]. *)
From Verif Require Import Base BaseLemmas Charset CharsetSpec CharsetProofs Num NumSpec Lws LwsSpec LwsProofs Str StrSpec StrProofs IndexTree IndexProofs MethodTree HeaderTree Lookup NameSpec NameProofs NameExact Monad Good Rt Seq Inv
  Host HostSpec HostProofs Uri UriSpec StartLine StartLineSpec StartLineProofs Headers HeadersSpec RawHeaders RawSpec RawProofs Msg MsgSpec GrammarSpec Exact ExactUri GrammarMsg ExactMsg ExactHead GrammarWhole.

(** ** What the lookup passes over *)
Lemma allPathForms : forallb (fun p : path => pathForm (fst (fst p)) && forallb (fun t => IsSipToken (NameProofs.testByte t)) (fst (fst p))) (pathsB headerTree []) = true.
Proof. vm_compute. reflexivity. Qed.
Definition skipText (p : bytes) : Prop := forallb IsSipToken p = true \/ exists a b, p = a ++ 13 :: b /\ In (map asciiLower a) crDashAfter /\ forallb IsSipToken b = true.
Lemma tokens_lower p : forallb IsSipToken (map asciiLower p) = forallb IsSipToken p.
Proof. induction p as [|x p IH]; [reflexivity|]. cbn [map forallb]. now rewrite asciiLower_token, IH. Qed.
Lemma skip_form r i mid : GetSipHeaderIndex r = Some (i, mid) -> exists p, r = p ++ mid /\ skipText p.
Proof.
  intros R. destruct (runTree_suffix _ _ _ _ header_inc R) as (c & k & res & p & H & E & M). exists p. split; [exact E|].
  pose proof allPathForms as F. rewrite forallb_forall in F. specialize (F _ H). cbn [fst] in F. apply andb_prop in F as [F1 F2].
  assert (F3 : forallb IsSipToken (map NameProofs.testByte c) = true) by (clear - F2; induction c as [|t c IH]; [reflexivity|]; cbn in *; apply andb_prop in F2 as [-> F2]; now apply IH).
  destruct (path_inv c p F1 M) as [Q|(a & b & -> & Ia & Q)].
  - left. now rewrite <- tokens_lower, Q.
  - right. exists a, b. split; [reflexivity|]. split; [exact Ia|]. rewrite <- Q, tokens_lower, forallb_app in F3. apply andb_prop in F3 as [_ F3]. cbn [forallb] in F3. now apply andb_prop in F3.
Qed.

(** ** The beginnings after which a CR is passed over *)
Inductive eout := EEat | ENext (n : bytes) | EUnk.
Fixpoint eatB (b : block) (n : bytes) {struct b} : eout :=
  match b with
  | Bnil => ENext n
  | Bcons s b' => match eatS s n with ENext n' => eatB b' n' | o => o end
  end
with eatS (s : stmt) (n : bytes) {struct s} : eout :=
  match s with
  | Inc k => if Nat.leb (List.length n) k then EEat else ENext (skipn k n)
  | Ret i => EUnk
  | IfEnd k i => if Nat.ltb k (List.length n) then ENext n else EUnk
  | IfTerm i => match n with [] => EUnk | x :: _ => if negb (IsSipToken x) then EUnk else ENext n end
  | IfNext t b => match n with [] => EUnk | x :: _ => if tmatch t x then eatB b n else ENext n end
  | IfAll ts b => if Nat.leb (List.length ts) (List.length n) then match matchAll ts n with Some true => eatB b n | Some false => ENext n | None => EUnk end else EUnk
  | Switch low cs => match n with [] => EUnk | x :: _ => eatC cs (if low then N.lor x 32 else x) n end
  end
with eatC (cs : cases) (v : N) (n : bytes) {struct cs} : eout :=
  match cs with
  | Cnil => ENext n
  | Case c b cs' => if v =? c then eatB b n else eatC cs' v n
  end.
Definition within (t : bytes) (x : iout) : Prop := match x with IRet _ r | INext r => suffix r t | IPanic => True end.
Definition eatOk (o : eout) (t : bytes) (x : iout) : Prop := match o with EEat => within t x | ENext n => x = INext (n ++ t) | EUnk => True end.
Lemma exec_within : (forall b r t, suffix r t -> within t (execB b r)) /\ (forall s r t, suffix r t -> within t (execS s r)) /\ (forall cs v r t, suffix r t -> within t (execC cs v r)).
Proof.
  apply tree_ind; cbn [execB execS execC]; try (intros; assumption).
  - intros s IHs b IHb r t Hs. specialize (IHs r t Hs). destruct (execS s r) as [i r'|r'|]; cbn in *; [exact IHs|now apply IHb|exact Logic.I].
  - intros k r t Hs. cbn. eapply suffix_trans; [|exact Hs]. exists (firstn k r). now rewrite firstn_skipn.
  - intros k i r t Hs. destruct (Nat.leb _ _); exact Hs.
  - intros i [|x r] t Hs; [exact Hs|]. destruct (negb _); exact Hs.
  - intros c b IHb [|x r] t Hs; [exact Hs|]. destruct (tmatch c x); [now apply IHb|exact Hs].
  - intros ts b IHb r t Hs. destruct (matchAll ts r) as [[]|]; [now apply IHb|exact Hs|exact Logic.I].
  - intros low cs IHc [|x r] t Hs; [exact Logic.I|]. now apply IHc.
  - intros c b IHb cs IHc v r t Hs. destruct (v =? c); [now apply IHb|now apply IHc].
Qed.
Lemma eat_sound t : (forall b n, eatOk (eatB b n) t (execB b (n ++ t))) /\ (forall s n, eatOk (eatS s n) t (execS s (n ++ t))) /\ (forall cs v n, eatOk (eatC cs v n) t (execC cs v (n ++ t))).
Proof.
  apply tree_ind; cbn [eatB eatS eatC execB execS execC].
  - reflexivity.
  - intros s IHs b IHb n. specialize (IHs n). destruct (eatS s n) as [|n'|]; cbn [eatOk] in *; [|rewrite IHs; apply IHb|exact Logic.I].
    destruct (execS s (n ++ t)) as [i r'|r'|]; [exact IHs|now apply (proj1 exec_within)|exact Logic.I].
  - intros k n. destruct (Nat.leb (List.length n) k) eqn:E; cbn [eatOk within].
    + apply Nat.leb_le in E. rewrite skipn_app, (skipn_all2 n E). cbn [app]. exists (firstn (k - List.length n) t). now rewrite firstn_skipn.
    + apply Nat.leb_gt in E. rewrite skipn_app. replace (k - List.length n)%nat with O by lia. reflexivity.
  - intros; exact Logic.I.
  - intros k i n. destruct (Nat.ltb k (List.length n)) eqn:E; [|exact Logic.I]. apply Nat.ltb_lt in E. cbn [eatOk].
    destruct (Nat.leb (List.length (n ++ t)) k) eqn:E2; [|reflexivity]. apply Nat.leb_le in E2. rewrite app_length in E2. lia.
  - intros i [|x n]; cbn [app]; [exact Logic.I|]. destruct (negb (IsSipToken x)); [exact Logic.I|reflexivity].
  - intros c b IHb [|x n]; [exact Logic.I|]. cbn [app]. destruct (tmatch c x); [apply IHb|reflexivity].
  - intros ts b IHb n. destruct (Nat.leb (List.length ts) (List.length n)) eqn:E; [|exact Logic.I]. apply Nat.leb_le in E.
    rewrite matchAll_app by exact E. destruct (matchAll ts n) as [[]|]; [apply IHb|reflexivity|exact Logic.I].
  - intros low cs IHc [|x n]; [exact Logic.I|]. cbn [app]. apply IHc.
  - reflexivity.
  - intros c b IHb cs IHc v n. destruct (v =? c); [apply IHb|apply IHc].
Qed.
Lemma eats : forallb (fun a => match eatB headerTree (a ++ [13]) with EEat => true | _ => false end) crDashAfter = true.
Proof. vm_compute. reflexivity. Qed.
Lemma cr_passed a t i mid : In (map asciiLower a) crDashAfter -> GetSipHeaderIndex (a ++ 13 :: t) = Some (i, mid) -> suffix mid t.
Proof.
  intros Ia R. pose proof eats as F. rewrite forallb_forall in F. specialize (F _ Ia). pose proof (proj1 (eat_sound (map asciiLower t)) headerTree (map asciiLower a ++ [13])) as X.
  destruct (eatB headerTree (map asciiLower a ++ [13])); try discriminate. cbn [eatOk] in X. rewrite <- app_assoc in X. cbn [app] in X. change (13 :: map asciiLower t) with (map asciiLower (13 :: t)) in X.
  rewrite <- map_app, (proj1 (exec_map asciiLower asciiLower_token) headerTree (a ++ 13 :: t) headerTests) in X.
  destruct (skip_form _ _ _ R) as (p & E & _).
  assert (L : (List.length mid <= List.length t)%nat).
  { unfold GetSipHeaderIndex, runTree in R. destruct (execB headerTree (a ++ 13 :: t)) as [j r2|r2|]; [| |discriminate]; injection R as _ ->; cbn [mapOut within] in X; destruct X as [y Y]; apply (f_equal (@List.length N)) in Y; rewrite app_length, !map_length in Y; lia. }
  clear - E L. assert (Q : (List.length (a ++ [13%N]) <= List.length p)%nat). { apply (f_equal (@List.length N)) in E. rewrite !app_length in E. rewrite app_length. cbn [List.length] in *. lia. }
  replace (a ++ 13 :: t) with ((a ++ [13]) ++ t) in E by (now rewrite <- app_assoc). apply (f_equal (skipn (List.length (a ++ [13])))) in E. rewrite skipn_app, skipn_all, Nat.sub_diag in E. cbn [skipn app] in E.
  rewrite skipn_app in E. replace (List.length (a ++ [13%N]) - List.length p)%nat with O in E by lia. exists (skipn (List.length (a ++ [13])) p). exact E.
Qed.

(** ** The parser *)
Lemma colon_start c k : Colon c k -> exists x r, c ++ k = x :: r /\ tokenOrCR x = false /\ In 58 (c ++ k).
Proof.
  intros (a & b & -> & Ha & _). rewrite <- app_assoc. cbn [app]. assert (I5 : In 58 (a ++ 58 :: b ++ k)) by (apply in_or_app; right; now left). destruct Ha as [|x a Hx Ha]; cbn [app] in *.
  - exists 58, (b ++ k). auto.
  - exists x, (a ++ 58 :: b ++ k). split; [reflexivity|]. split; [destruct Hx as [-> | ->]; reflexivity|exact I5].
Qed.
Lemma tok_cr p : forallb IsSipToken p = true -> forallb tokenOrCR p = true.
Proof. intros H. rewrite forallb_forall in *. intros x Hx. unfold tokenOrCR. now rewrite (H x Hx). Qed.
Lemma crAfter_token a : In (map asciiLower a) crDashAfter -> forallb IsSipToken a = true.
Proof. intros Ia. rewrite <- tokens_lower. assert (F : forallb (forallb IsSipToken) crDashAfter = true) by (vm_compute; reflexivity). rewrite forallb_forall in F. now apply F. Qed.
Lemma text_cr p : nameText p -> forallb tokenOrCR p = true.
Proof.
  intros [[_ H]|(a & b & -> & Ia & Hb)]; [apply tok_cr; now rewrite tokens_Is|]. rewrite forallb_app. cbn [forallb]. rewrite (tok_cr _ (crAfter_token _ Ia)), (tok_cr b) by (now rewrite tokens_Is). reflexivity.
Qed.
Lemma skip_cr p : skipText p -> forallb tokenOrCR p = true.
Proof.
  intros [H|(a & b & -> & Ia & Hb)]; [now apply tok_cr|]. rewrite forallb_app. cbn [forallb]. now rewrite (tok_cr _ (crAfter_token _ Ia)), (tok_cr _ Hb).
Qed.
Lemma inside p0 mid p x r : p0 ++ mid = p ++ x :: r -> forallb tokenOrCR p0 = true -> tokenOrCR x = false -> exists q, p = p0 ++ q /\ mid = q ++ x :: r.
Proof.
  revert p. induction p0 as [|y p0 IH]; intros p E H Hx; [exists p; auto|]. cbn in H. apply andb_prop in H as [Hy H]. destruct p as [|z p]; cbn [app] in E.
  - injection E as -> E. congruence.
  - injection E as <- E. destruct (IH p E H Hx) as (q & -> & ->). exists q. auto.
Qed.
Lemma cr_once a b p q : forallb IsSipToken b = true -> forallb IsSipToken a = true -> a ++ 13 :: b = p ++ 13 :: q -> p = a /\ q = b.
Proof.
  revert p. induction a as [|y a IH]; intros p Hb Ha E; destruct p as [|z p]; cbn [app] in E.
  - injection E as ->. auto.
  - exfalso. injection E as _ ->. rewrite forallb_app in Hb. apply andb_prop in Hb as [_ Hb]. cbn in Hb. discriminate.
  - exfalso. injection E as -> _. cbn in Ha. discriminate.
  - injection E as <- E. cbn in Ha. apply andb_prop in Ha as [_ Ha]. destruct (IH p Hb Ha E) as [-> ->]. auto.
Qed.
Lemma fieldName_sound e s v s' : parseHeaderName e s = Ok v s' -> exists t, rest s = t ++ rest s' /\ FieldNameRead t v (rest s').
Proof.
  unfold parseHeaderName, onRest. destruct (GetSipHeaderIndex (rest s)) as [[j mid]|] eqn:E; [|discriminate]. destruct (skip_form _ _ _ E) as (p & Ep & Sp). intros H. apply bind_inv in H as (n & s1 & E1 & H).
  apply bind_inv in H as (x0 & s2 & E2 & H). injection H as <- <-. apply (ex_sound _ _ _ (exact_colon e)) in E2 as (c & Ec & Hc). destruct (colon_start _ _ Hc) as (x & r & Ex & Hx & _).
  assert (Hn : nameEnds (c ++ rest s2)). { rewrite Ex. cbn. unfold tokenOrCR in Hx. now apply orb_false_iff in Hx. }
  destruct (N.eqb_spec j SIP_HDR_UNKNOWN) as [->|Hj].
  - apply bind_inv in E1 as (tok & s3 & E1 & E3). injection E3 as <- <-. apply fromPos_ok in E1 as (pre & q & Er & Em & -> & Hne & Hq & Hst); [|exists p; exact Ep]. assert (pre = p) by (rewrite Er in Ep; now apply app_inv_tail in Ep). subst pre.
    exists ((p ++ q) ++ c). rewrite Er, Em, Ec. split; [now rewrite !app_assoc|]. exists (p ++ q), c. split; [reflexivity|]. split; [|exact Hc]. cbn [fst snd]. apply NRother.
    + change (forallb IsSipToken q = true) in Hq. destruct Sp as [Sp|(a & b & -> & Ia & Sb)].
      * left. split; [exact Hne|]. now rewrite <- tokens_Is, forallb_app, Sp, Hq.
      * right. exists a, (b ++ q). rewrite <- app_assoc. split; [reflexivity|]. split; [exact Ia|]. now rewrite <- tokens_Is, forallb_app, Sb, Hq.
    + intros name i Hi Hs. assert (K : GetSipHeaderIndex (rest s) = Some (i, c ++ rest s2) /\ i <> SIP_HDR_UNKNOWN).
      { apply header_exact. exists name, (p ++ q). split; [exact Hi|]. split; [|split; [exact Hs|exact Hn]]. rewrite Er, Em, Ec, app_assoc. reflexivity. }
      destruct K as [K1 K2]. congruence.
  - rewrite goto_bind in E1. injection E1 as <- <-. cbn [rest] in Ec. exists (p ++ c). rewrite Ep, Ec, app_assoc. split; [reflexivity|]. exists p, c. split; [reflexivity|]. split; [|exact Hc]. cbn [fst snd].
    destruct (proj1 (header_exact (rest s) j mid) (conj E Hj)) as (name & p2 & In2 & E2 & Sp2 & _). rewrite Ep in E2. apply app_inv_tail in E2. subst p2. now apply (NRknown p name).
Qed.
Lemma fieldName_complete e t v k u : infinite e -> FieldNameRead t v k -> exists u', parseHeaderName e (mkst (t ++ k) u) = Ok v (mkst k u').
Proof.
  intros HI (p & c & -> & Np & Hc). rewrite <- app_assoc. destruct v as [n i]. cbn [fst snd] in Np. unfold parseHeaderName. rewrite onRest_eq. destruct (colon_start _ _ Hc) as (x & r & Ex & Hx & I5).
  assert (Hn : nameEnds (c ++ k)). { rewrite Ex. cbn. unfold tokenOrCR in Hx. now apply orb_false_iff in Hx. }
  destruct Np as [p name i Hi Hs|p Tp Un].
  - destruct (proj2 (header_exact (p ++ c ++ k) i (c ++ k))) as [E Hne]; [exists name, p; auto|]. rewrite E. rewrite (proj2 (N.eqb_neq i SIP_HDR_UNKNOWN) Hne). unfold bind at 1. rewrite goto_bind. cbn [used ret].
    destruct (ex_complete _ _ _ (exact_colon e) HI c tt k u Hc) as [u' E2]. exists u'. now rewrite (bind_ok _ _ _ _ _ _ E2).
  - destruct (GetSipHeaderIndex (p ++ c ++ k)) as [[i mid]|] eqn:E; [|exfalso; apply (header_safe (p ++ c ++ k)); [apply in_or_app; right; exact I5|exact E]].
    destruct (skip_form _ _ _ E) as (p0 & E0 & S0). assert (E0' := E0). rewrite Ex in E0. symmetry in E0. destruct (inside _ _ _ _ _ E0 (skip_cr _ S0) Hx) as (q & Ep & Em). rewrite <- Ex in Em.
    assert (Hq : forallb IsSipToken q = true).
    { destruct Tp as [[_ Tp]|(a & b & Ea & Ia & Tb)].
      - rewrite <- tokens_Is, Ep, forallb_app in Tp. now apply andb_prop in Tp.
      - rewrite Ea, <- app_assoc in E. cbn [app] in E. pose proof (cr_passed _ _ _ _ Ia E) as [y Y]. rewrite Em, (app_assoc y) in Y. apply app_inv_tail in Y. rewrite <- tokens_Is, Y, forallb_app in Tb. now apply andb_prop in Tb. }
    destruct (N.eqb_spec i SIP_HDR_UNKNOWN) as [->|Hi].
    + subst mid. rewrite Ep, <- app_assoc. assert (Hne : p0 ++ q <> []) by (rewrite <- Ep; destruct Tp as [[Tp _]|(a & b & -> & _)]; [exact Tp|destruct a; discriminate]).
      destruct (rt_fromPos e SIP_TOKEN p0 q (c ++ k) u HI Hq Hne) as [u1 E1]; [rewrite Ex; cbn; change (inset SIP_TOKEN x) with (IsSipToken x); unfold tokenOrCR in Hx; apply orb_false_iff in Hx as [-> _]; reflexivity|].
      rewrite (bind_ok _ _ _ _ _ (mkst (c ++ k) u1) (bind_ok _ _ _ _ _ _ E1)). cbv beta. destruct (ex_complete _ _ _ (exact_colon e) HI c tt k u1 Hc) as [u' E2]. exists u'. rewrite (bind_ok _ _ _ _ _ _ E2). reflexivity.
    + exfalso. destruct (proj1 (header_exact _ _ _) (conj E Hi)) as (name & p2 & In2 & E2 & Sp2 & Ends). rewrite E0' in E2. apply app_inv_tail in E2. subst p2.
      assert (q = []) by (destruct q as [|y q]; [reflexivity|]; subst mid; cbn in Ends; cbn in Hq; rewrite Ends in Hq; discriminate). subst q. rewrite app_nil_r in Ep. subst p0. exact (Un _ _ In2 Sp2).
Qed.
Lemma exact_fieldName e : exact e parseHeaderName FieldNameRead.
Proof. split; [exact (fieldName_sound e)|]. intros HI t v k u. now apply fieldName_complete. Qed.
