From Verif Require Import Base Charset CharsetSpec CharsetProofs BaseLemmas Num NumSpec NumProofs Lws LwsSpec LwsProofs Str StrSpec StrProofs Monad Good Rt Seq Host HostSpec.

(** An [agrees] fact on all of [N]: both sides are false above 255. *)
Lemma oneOf_lt s b : oneOf s b = true -> forallb (fun x => x <? 256) (s2b s) = true -> b < 256.
Proof.
  unfold oneOf. intros H F. apply existsb_exists in H as (x & Hx & E). rewrite forallb_forall in F. apply N.eqb_eq in E. subst. apply F in Hx. lia.
Qed.
Lemma hostname_rfc b : inset HOSTNAME b = rfcHostname b.
Proof.
  destruct (N.ltb_spec b 256) as [H|H]; [apply charsets_exact, H|].
  destruct (inset HOSTNAME b) eqn:E; [apply inset_byte in E; lia|]. symmetry. apply not_true_is_false. intros T. unfold rfcHostname, rfcAlphanum, rfcALPHA, rfcLOWER, rfcUPPER, rfcDIGIT, rng in T.
  apply orb_prop in T as [T|T]; [lia|]. apply oneOf_lt in T; [lia|reflexivity].
Qed.
Lemma forallb_hostname n : forallb (inset HOSTNAME) n = forallb rfcHostname n.
Proof. induction n as [|x n IH]; cbn; [reflexivity|]. now rewrite hostname_rfc, IH. Qed.
Lemma digit_hostname x : isDec x = true -> rfcHostname x = true.
Proof. unfold isDec, rfcHostname, rfcAlphanum, rfcDIGIT, rng. intros H. rewrite H. now rewrite orb_true_r. Qed.
Lemma hostEnds_stops k : hostEnds k -> stops (inset HOSTNAME) k = true.
Proof. destruct k as [|x k]; cbn; [reflexivity|]. rewrite hostname_rfc. intros [-> _]. reflexivity. Qed.
Lemma digits_hostname ds : forallb isDec ds = true -> forallb rfcHostname ds = true.
Proof. rewrite !forallb_forall. intros H x Hx. apply digit_hostname, H, Hx. Qed.

(** ** parseIpv4 *)
Lemma octet_spec r v r' : octet r = Some (v, r') <-> exists ds, r = ds ++ r' /\ quadPart ds v /\ stops isDec r' = true.
Proof.
  unfold octet, quadPart. split.
  - destruct (ParseUInt r) as [[[w n] q]|] eqn:E; [|discriminate]. destruct (N.ltb_spec 255 w); [discriminate|]. intros [= <- <-].
    apply ParseUInt_spec in E. destruct E as (ds & -> & Hne & Hd & Hs & Hw & _). exists ds. split; [reflexivity|]. unfold two64 in Hw. repeat split; auto; try lia.
    destruct q as [|x q]; [reflexivity|]. cbn. rewrite (Hs x q eq_refl). reflexivity.
  - intros (ds & -> & (Hne & Hd & Hv & Hle) & Hs). assert (E : ParseUInt (ds ++ r') = Some (v, len ds, r')).
    { apply ParseUInt_spec. exists ds. repeat split; auto. intros x t ->. cbn in Hs. now apply negb_true_iff in Hs. }
    rewrite E. destruct (N.ltb_spec 255 v); [lia|reflexivity].
Qed.
Lemma dotOctet_spec r v r' : dotOctet r = Some (v, r') <-> exists ds, r = 46 :: ds ++ r' /\ quadPart ds v /\ stops isDec r' = true.
Proof.
  unfold dotOctet. destruct r as [|x r]; [split; [discriminate|intros (ds & [=] & _)]|]. destruct (N.eqb_spec x 46) as [->|N46].
  - rewrite octet_spec. split; intros (ds & E & H); exists ds; (split; [congruence|exact H]).
  - split; [discriminate|intros (ds & [= E _] & _)]; congruence.
Qed.
Lemma stops_isDec_host k : stops rfcHostname k = true -> stops isDec k = true.
Proof. apply stops_weaken, digit_hostname. Qed.
Lemma stops_host k : stops rfcHostname k = stops (inset HOSTNAME) k.
Proof. destruct k as [|x k]; [reflexivity|]. cbn. now rewrite hostname_rfc. Qed.
Lemma parseIpv4_spec r a b c d r' : parseIpv4 r = Some (a, b, c, d, r') <->
  exists t, r = t ++ r' /\ DottedQuad t a b c d /\ stops rfcHostname r' = true.
Proof.
  unfold parseIpv4. split.
  - destruct (octet r) as [[a1 r1]|] eqn:E1; [|discriminate]. destruct (dotOctet r1) as [[a2 r2]|] eqn:E2; [|discriminate].
    destruct (dotOctet r2) as [[a3 r3]|] eqn:E3; [|discriminate]. destruct (dotOctet r3) as [[a4 r4]|] eqn:E4; [|discriminate]. intros H.
    assert (X : stops rfcHostname r4 = true /\ (a1, a2, a3, a4, r4) = (a, b, c, d, r')).
    { rewrite stops_host. destruct r4 as [|x r4]; [injection H; intros; subst; auto|]. cbn. unfold IsHostname in H.
      destruct (inset HOSTNAME x); [discriminate|]. injection H; intros; subst; auto. }
    destruct X as [X [= -> -> -> -> ->]].
    apply octet_spec in E1 as (da & -> & Qa & _). apply dotOctet_spec in E2 as (db & -> & Qb & _).
    apply dotOctet_spec in E3 as (dc & -> & Qc & _). apply dotOctet_spec in E4 as (dd & -> & Qd & _).
    exists (da ++ 46 :: db ++ 46 :: dc ++ 46 :: dd). split; [|split; [exists da, db, dc, dd; auto|exact X]].
    repeat (rewrite <- ?app_assoc; cbn [app]). reflexivity.
  - intros (t & -> & (da & db & dc & dd & -> & Qa & Qb & Qc & Qd) & Hs). repeat (rewrite <- ?app_assoc; cbn [app]).
    rewrite (proj2 (octet_spec (da ++ 46 :: db ++ 46 :: dc ++ 46 :: dd ++ r') a (46 :: db ++ 46 :: dc ++ 46 :: dd ++ r'))) by (exists da; auto).
    rewrite (proj2 (dotOctet_spec (46 :: db ++ 46 :: dc ++ 46 :: dd ++ r') b (46 :: dc ++ 46 :: dd ++ r'))) by (exists db; auto).
    rewrite (proj2 (dotOctet_spec (46 :: dc ++ 46 :: dd ++ r') c (46 :: dd ++ r'))) by (exists dc; auto).
    rewrite (proj2 (dotOctet_spec (46 :: dd ++ r') d r')) by (exists dd; auto using stops_isDec_host).
    rewrite stops_host in Hs. destruct r' as [|x r']; [reflexivity|]. cbn in Hs. unfold IsHostname. apply negb_true_iff in Hs. rewrite Hs. reflexivity.
Qed.
Lemma quad_hostname t a b c d : DottedQuad t a b c d -> forallb rfcHostname t = true.
Proof.
  intros (da & db & dc & dd & -> & (_ & Ha & _) & (_ & Hb & _) & (_ & Hc & _) & (_ & Hd & _)).
  repeat (rewrite ?forallb_app; cbn [forallb]). rewrite !digits_hostname by assumption. reflexivity.
Qed.
Lemma run_unique (f : N -> bool) a b p q : forallb f a = true -> forallb f b = true -> stops f p = true -> stops f q = true ->
  a ++ p = b ++ q -> a = b /\ p = q.
Proof. intros Ha Hb Hp Hq E. pose proof (span_exact f a p Ha Hp) as S1. rewrite E, (span_exact f b q Hb Hq) in S1. split; congruence. Qed.

(** ** Well-behavedness *)
Lemma quad_suffix r a b c d r' : parseIpv4 r = Some (a, b, c, d, r') -> suffix r' r.
Proof. intros H. apply parseIpv4_spec in H as (t & -> & _). exists t. reflexivity. Qed.
Lemma goodAt_parseHost e s : goodAt 1 16 parseHost e s.
Proof.
  apply goodAt_onRest. destruct (rest s) as [|x r1] eqn:R; [apply goodAt_pfail|].
  assert (Hn : goodAt 1 16 parseHostname e s).
  { apply (goodAt_bind 1 16 3); [apply goodAt_paCString; lia|lia|]. intros. apply goodAt_ret. }
  destruct (x =? 91).
  - apply goodAt_goto_bind; [rewrite R; auto with suf|]. apply goodAt_onRest. cbn [rest].
    destruct (span (fun x => negb (x =? 93)) r1) as [txt r2] eqn:Sp. apply span_app in Sp. subst r1.
    apply goodAt_goto_bind; [eexists; reflexivity|]. destruct r2 as [|y r2]; [apply goodAt_pfail|].
    apply goodAt_withEnv; [reflexivity|]. destruct (ipParse e txt); [|apply goodAt_pfail].
    apply (goodAt_bind 1 16 16); [apply goodAt_allocStruct; lia|lia|]. intros a s' m E. unfold allocStruct in E. destruct (leMem _ _); [|discriminate].
    injection E as _ <-. apply goodAt_goto_bind; [cbn; auto with suf|]. apply goodAt_ret.
  - destruct (IsAlpha x); [exact Hn|]. destruct (parseIpv4 (x :: r1)) as [[[[[a b] c] d] r2]|] eqn:E; [|exact Hn].
    apply goodAt_goto_bind; [rewrite R; eapply quad_suffix, E|]. apply (goodAt_bind 1 16 4); [apply goodAt_allocStruct; lia|lia|].
    intros. apply goodAt_ret.
Qed.
Lemma goodAt_parseHostPort e s : goodAt 1 16 parseHostPort e s.
Proof.
  apply (goodAt_bind 1 16 16); [apply goodAt_parseHost|lia|]. intros h s' _ _. apply goodAt_onRest. destruct (rest s') as [|x r1] eqn:R; [apply goodAt_ret|].
  destruct (x =? 58); [|apply goodAt_ret]. apply goodAt_goto_bind; [rewrite R; auto with suf|]. apply goodAt_bind0; [apply goodAt_pUInt|].
  intros n s2 _ _. destruct (65535 <? n); [apply goodAt_pfail|apply goodAt_ret].
Qed.

(** ** Round trip *)
Lemma byte_quadPart a : a < 256 -> quadPart (WriteByteAsString a) a.
Proof.
  intros H. destruct (WriteByteAsString_spec a H) as ((Hne & Hd & _) & Hv). repeat split; auto; try lia.
Qed.
Lemma ipv6_not93 t : forallb ipv6Char t = true -> ~ In 93 t.
Proof. rewrite forallb_forall. intros H X. apply H in X. discriminate X. Qed.
Lemma span_not93 t k : ~ In 93 t -> span (fun x => negb (x =? 93)) (t ++ 93 :: k) = (t, 93 :: k).
Proof.
  intros H. apply span_exact; [|reflexivity]. apply forallb_forall. intros x Hx. destruct (N.eqb_spec x 93) as [->|]; [contradiction|reflexivity].
Qed.
Lemma alpha_not_isDec x : IsAlpha x = true -> isDec x = false.
Proof.
  intros H. apply negb_true_iff. revert x H. apply inset_sweep. vm_compute. reflexivity.
Qed.
Lemma quad_head t a b c d : DottedQuad t a b c d -> exists x t', t = x :: t' /\ isDec x = true.
Proof.
  intros (da & db & dc & dd & -> & (Hne & Hd & _) & _). destruct da as [|x da]; [congruence|]. exists x. eexists. split; [reflexivity|]. cbn in Hd. now apply andb_prop in Hd as [-> _].
Qed.
Lemma rt_host e h : infinite e -> wfHost e h -> reads e parseHost (encHost e h) h (fun k => stops (inset HOSTNAME) k = true).
Proof.
  intros I W k u Hk. unfold parseHost. rewrite onRest_eq. destruct h as [|a b c d|ip|n]; cbn [wfHost encHost] in *; [contradiction| | |].
  - destruct W as (Ha & Hb & Hc & Hd).
    assert (Q : DottedQuad (WriteByteAsString a ++ [46] ++ WriteByteAsString b ++ [46] ++ WriteByteAsString c ++ [46] ++ WriteByteAsString d) a b c d).
    { exists (WriteByteAsString a), (WriteByteAsString b), (WriteByteAsString c), (WriteByteAsString d). split; [reflexivity|]. auto using byte_quadPart. }
    destruct (quad_head _ _ _ _ _ Q) as (x & t' & Et & Hx). rewrite Et in *. cbn [app].
    assert (E : parseIpv4 (x :: t' ++ k) = Some (a, b, c, d, k)).
    { apply parseIpv4_spec. exists (x :: t'). split; [reflexivity|]. split; [exact Q|]. rewrite stops_host. exact Hk. }
    destruct (N.eqb_spec x 91) as [->|_]; [discriminate|]. destruct (IsAlpha x) eqn:A; [apply alpha_not_isDec in A; congruence|].
    rewrite E, goto_bind, (bind_ok _ _ _ _ _ _ (rt_alloc _ _ _ _ I)). eexists. reflexivity.
  - destruct W as [W1 W2]. apply ipv6_not93 in W2. cbn [app]. change (91 =? 91) with true. cbv iota. rewrite goto_bind. unfold parseIpv6. cbn [used]. rewrite onRest_eq.
    rewrite <- app_assoc. cbn [app]. rewrite span_not93 by assumption. rewrite goto_bind. unfold withEnv. rewrite W1. rewrite (bind_ok _ _ _ _ _ _ (rt_alloc _ _ _ _ I)), goto_bind.
    eexists. reflexivity.
  - destruct W as (Hne & Hn & Hq). assert (X : parseHostname e (mkst (n ++ k) u) = Ok (HName n) (mkst k (u + 2 + len n))).
    { unfold parseHostname. rewrite (bind_ok _ _ _ _ _ _ (rt_cstring e HOSTNAME n k u I ltac:(rewrite forallb_hostname; exact Hn) Hne Hk)). reflexivity. }
    destruct n as [|x n]; [congruence|]. cbn [app] in *. destruct (N.eqb_spec x 91) as [->|_]; [discriminate Hn|].
    destruct (IsAlpha x); [eexists; exact X|]. destruct (parseIpv4 (x :: n ++ k)) as [[[[[a b] c] d] r2]|] eqn:E; [|eexists; exact X].
    exfalso. apply Hq. exists a, b, c, d. apply parseIpv4_spec in E as (t & Et & Q & St).
    destruct (run_unique rfcHostname (x :: n) t k r2) as [-> _]; auto; [eapply quad_hostname, Q|rewrite stops_host; exact Hk].
Qed.
Lemma rt_hostport e h : infinite e -> wfHostPort e h -> reads e parseHostPort (encHostPort e h) h hostEnds.
Proof.
  intros I [W Wp] k u Hk. destruct h as [h p]. cbn [hpHost hpPort] in *. unfold parseHostPort, encHostPort. cbn [hpHost hpPort]. rewrite <- app_assoc.
  set (t := match p with Some p0 => 58 :: encUInt p0 | None => [] end ++ k).
  assert (St : stops (inset HOSTNAME) t = true). { unfold t. destruct p; [reflexivity|]. apply hostEnds_stops, Hk. }
  destruct (rt_host e h I W t u St) as [u1 E]. rewrite (bind_ok _ _ _ _ _ _ E), onRest_eq. unfold t. destruct p as [p|]; cbn [app].
  - change (58 =? 58) with true. cbv iota. rewrite goto_bind. cbn [used]. rewrite (bind_ok _ _ _ _ _ _ (rt_uint e p k u1 ltac:(unfold two64; lia) ltac:(eapply stops_weaken, hostEnds_stops, Hk; intros x Hx; rewrite hostname_rfc; apply digit_hostname; rewrite <- IsDigit_isDec; exact Hx))).
    destruct (N.ltb_spec 65535 p); [lia|]. eexists. reflexivity.
  - destruct k as [|x k]; [eexists; reflexivity|]. destruct Hk as [_ Hk]. destruct (N.eqb_spec x 58); [contradiction|]. eexists. reflexivity.
Qed.
