(** Properties C20 - C23: host and port, SIP URI. *)
From Verif Require Import Base Charset CharsetSpec BaseLemmas Num NumSpec NumProofs Str StrSpec Monad Good Rt Room Inv Host HostSpec HostProofs Uri UriSpec UriGood UriProofs UriSound Nine NineParse.

(** The net package used in the concrete cases. *)
Definition exNet (m : option N) : env := textNet (fun t => forallb ipv6Char t && negb (match t with [] => true | _ => false end)) m.
Lemma exNet_good m : netGood (exNet m).
Proof.
  intros t ip H. cbn in H. destruct (forallb ipv6Char t && _)%bool eqn:E; [|discriminate]. injection H as <-. unfold netOK. cbn. rewrite E. split; [reflexivity|].
  apply andb_true_iff in E. apply E.
Qed.

(** ** C20 *)
(** For every host-port value and everything that may follow it, in every arena with enough room. *)
Theorem C20_hostport_round_trip : forall e h k u,
  wfHostPort e h -> hostEnds k -> roomFor e (u + 16 + len (encHostPort e h ++ k)) ->
  exists u', parseHostPort e (mkst (encHostPort e h ++ k) u) = Ok h (mkst k u').
Proof.
  intros e h k u W F R. destruct (rt_hostport (withMem None e) h eq_refl W k u F) as [u' E]. exists u'.
  rewrite (room_eq _ _ _ _ _ (goodAt_parseHostPort e _)); [exact E|]. cbn [used rest]. now rewrite N.mul_1_l.
Qed.
Print Assumptions C20_hostport_round_trip.
Theorem C20_host_round_trip : forall e h k u,
  wfHost e h -> hostEnds k -> roomFor e (u + 16 + len (encHost e h ++ k)) ->
  exists u', parseHost e (mkst (encHost e h ++ k) u) = Ok h (mkst k u').
Proof.
  intros e h k u W F R. destruct (rt_host (withMem None e) h eq_refl W k u (hostEnds_stops _ F)) as [u' E]. exists u'.
  rewrite (room_eq _ _ _ _ _ (goodAt_parseHost e _)); [exact E|]. cbn [used rest]. now rewrite N.mul_1_l.
Qed.
Print Assumptions C20_host_round_trip.
(** Every accepted host is a value the round trip speaks about (given that net prints what it parsed to a text it parses back). *)
Theorem C20_accepted_is_wellformed : forall e s h s', netGood e -> parseHostPort e s = Ok h s' -> wfHostPort e h.
Proof. exact hostport_out. Qed.
Print Assumptions C20_accepted_is_wellformed.
Example C20_case : let e := exNet (Some 100) in
  wfHostPort e (mkhp (HIpv4 10 0 255 1) (Some 65535)) /\ wfHostPort e (mkhp (HIpv6 (s2b "fe80::1")) (Some 0)) /\ hostEnds (s2b ";lr") /\
  parseHostPort e (mkst (s2b "10.0.255.1:65535;lr") 8) = Ok (mkhp (HIpv4 10 0 255 1) (Some 65535)) (mkst (s2b ";lr") 12) /\
  parseHostPort e (mkst (s2b "[fe80::1]:0;lr") 8) = Ok (mkhp (HIpv6 (s2b "fe80::1")) (Some 0)) (mkst (s2b ";lr") 24) /\
  parseHostPort e (mkst (s2b "a-b.c;lr") 8) = Ok (mkhp (HName (s2b "a-b.c")) None) (mkst (s2b ";lr") 15).
Proof. cbv zeta. repeat split; try (vm_compute; reflexivity); cbn; discriminate. Qed.

(** ** C21 *)
(** An accepted port is the written number modulo 2^64 ... *)
Theorem C21_port_sound : forall e s h p s', parseHostPort e s = Ok (mkhp h (Some p)) s' ->
  exists a ds, rest s = a ++ 58 :: ds ++ rest s' /\ ds <> [] /\ forallb isDec ds = true /\ stops isDec (rest s') = true /\
    p = decVal ds mod 18446744073709551616 /\ p <= 65535.
Proof.
  intros e s h p s' H. pose proof (good_any _ _ _ _ _ (goodAt_parseHost e s) (memend e)) as G. rewrite withMem_self in G. unfold parseHostPort in H. apply bind_inv in H as (h0 & s1 & E & H). rewrite E in G. destruct G as [[a Ea] _].
  unfold onRest in H. destruct (rest s1) as [|x r1] eqn:R1; [discriminate|]. destruct (N.eqb_spec x 58) as [->|_]; [|discriminate].
  apply bind_inv in H as (? & s2 & E2 & H). injection E2 as _ <-. apply bind_inv in H as (n & s3 & E3 & H). apply uint_inv in E3 as (ds & Eds & D1 & D2 & D3 & Ev). cbn [rest] in Eds.
  destruct (N.ltb_spec 65535 n); [discriminate|]. injection H as _ <- <-. exists a, ds. rewrite Ea, Eds. repeat (split; [solve [auto]|]). auto.
Qed.
Print Assumptions C21_port_sound.
(** ... and conversely: a host followed by ":" and digits is accepted with the number modulo 2^64 if that is at most 65535, and rejected otherwise. *)
Theorem C21_port_exact : forall e h ds k u, wfHost e h -> ds <> [] -> forallb isDec ds = true -> stops isDec k = true ->
  roomFor e (u + 16 + len (encHost e h ++ 58 :: ds ++ k)) ->
  if decVal ds mod 18446744073709551616 <=? 65535
  then exists u', parseHostPort e (mkst (encHost e h ++ 58 :: ds ++ k) u) = Ok (mkhp h (Some (decVal ds mod 18446744073709551616))) (mkst k u')
  else exists s', parseHostPort e (mkst (encHost e h ++ 58 :: ds ++ k) u) = Fail s'.
Proof.
  intros e h ds k u W D1 D2 D3 R. rewrite (room_eq _ _ _ _ _ (goodAt_parseHostPort e _)) by (cbn [used rest]; now rewrite N.mul_1_l).
  destruct (rt_host (withMem None e) h eq_refl W (58 :: ds ++ k) u) as [u1 E1]; [reflexivity|].
  assert (E : pUInt (withMem None e) (mkst (ds ++ k) u1) = Ok (decVal ds mod 18446744073709551616) (mkst k u1)).
  { unfold pUInt. rewrite onRest_eq. replace (ParseUInt (ds ++ k)) with (Some (decVal ds mod two64, len ds, k)); [reflexivity|]. symmetry. apply ParseUInt_spec. exists ds.
    repeat (split; [first [reflexivity|assumption]|]). split; [|split; reflexivity]. intros d t ->. cbn in D3. now apply negb_true_iff in D3. }
  assert (Q : parseHostPort (withMem None e) (mkst (encHost e h ++ 58 :: ds ++ k) u) =
              if 65535 <? decVal ds mod 18446744073709551616 then Fail (mkst k u1) else Ok (mkhp h (Some (decVal ds mod 18446744073709551616))) (mkst k u1)).
  { unfold parseHostPort. rewrite (bind_ok _ _ _ _ _ _ E1), onRest_eq. cbn [rest]. change (58 =? 58) with true. cbv iota. rewrite goto_bind. cbn [used].
    rewrite (bind_ok _ _ _ _ _ _ E). destruct (65535 <? decVal ds mod 18446744073709551616); reflexivity. }
  rewrite Q, N.ltb_antisym. destruct (decVal ds mod 18446744073709551616 <=? 65535); cbn [negb]; eauto.
Qed.
Print Assumptions C21_port_exact.
(** So every number between 65536 and 2^64-1 is rejected. *)
Theorem C21_port_rejected : forall e h ds k u, wfHost e h -> ds <> [] -> forallb isDec ds = true -> stops isDec k = true ->
  65535 < decVal ds < 18446744073709551616 -> roomFor e (u + 16 + len (encHost e h ++ 58 :: ds ++ k)) ->
  exists s', parseHostPort e (mkst (encHost e h ++ 58 :: ds ++ k) u) = Fail s'.
Proof.
  intros e h ds k u W D1 D2 D3 D4 R. pose proof (C21_port_exact e h ds k u W D1 D2 D3 R) as X. rewrite N.mod_small in X by lia. destruct (N.leb_spec (decVal ds) 65535); [lia|exact X].
Qed.
Print Assumptions C21_port_rejected.
(** Beyond 2^64 the check is circumvented. *)
Theorem C21_port_refuted : exists e r h s', parseHostPort e (mkst r 8) = Ok (mkhp h (Some 5)) s' /\ r = s2b "h:18446744073709551621" /\ decVal (s2b "18446744073709551621") > 65535.
Proof. exists (exNet (Some 100)). eexists. eexists. eexists. split; [|split; [reflexivity|]]; vm_compute; reflexivity. Qed.
Print Assumptions C21_port_refuted.
(** A host is taken for an IPv4 address exactly when it is a dotted quad of numbers that are, modulo 2^64, at most 255, and nothing that continues a host name follows. *)
Lemma ipv4_sound : forall e s a b c d s', parseHost e s = Ok (HIpv4 a b c d) s' ->
  exists t, rest s = t ++ rest s' /\ DottedQuad t a b c d /\ stops rfcHostname (rest s') = true.
Proof.
  intros e s a b c d s' H. unfold parseHost, onRest in H. destruct (rest s) as [|x r1] eqn:R; [discriminate|]. destruct (x =? 91).
  - apply bind_inv in H as (? & s1 & E & H). injection E as _ <-. unfold parseIpv6, onRest in H. cbn [rest used] in H. destruct (span _ r1) as [txt r2].
    apply bind_inv in H as (? & s1 & E & H). destruct r2 as [|y r2]; [discriminate|]. unfold withEnv in H. destruct (ipParse e txt) as [ip|] eqn:Ei; [|discriminate].
    apply bind_inv in H as (? & s2 & _ & H). apply bind_inv in H as (? & s3 & _ & H). discriminate.
  - destruct (IsAlpha x) eqn:A; [apply hostname_name in H as [n X]; discriminate|]. destruct (parseIpv4 (x :: r1)) as [[[[[a' b'] c'] d'] q]|] eqn:E4; [|apply hostname_name in H as [n X]; discriminate].
    apply bind_inv in H as (? & s1 & E & H). injection E as _ <-. apply bind_inv in H as (? & s2 & Ea & H). apply alloc_inv in Ea as [Er _]. injection H as -> -> -> -> <-. rewrite Er. cbn [rest].
    apply parseIpv4_spec in E4. destruct E4 as (t & Et & Q & St). exists t. auto.
Qed.
Theorem C21_ipv4_exact : forall e s a b c d s', roomFor e (used s + 4) ->
  parseHost e s = Ok (HIpv4 a b c d) s' <->
  (exists t, rest s = t ++ rest s' /\ DottedQuad t a b c d /\ stops rfcHostname (rest s') = true) /\ used s' = used s + 4.
Proof.
  intros e s a b c d s' R. split.
  - intros H. split; [exact (ipv4_sound _ _ _ _ _ _ _ H)|]. unfold parseHost, onRest in H. destruct (rest s) as [|x r1] eqn:Er; [discriminate|]. destruct (x =? 91).
    + apply bind_inv in H as (? & s1 & E & H). injection E as _ <-. unfold parseIpv6, onRest in H. cbn [rest used] in H. destruct (span _ r1) as [txt r2].
      apply bind_inv in H as (? & s1 & E & H). destruct r2 as [|y r2]; [discriminate|]. unfold withEnv in H. destruct (ipParse e txt) as [ip|] eqn:Ei; [|discriminate].
      apply bind_inv in H as (? & s2 & _ & H). apply bind_inv in H as (? & s3 & _ & H). discriminate.
    + destruct (IsAlpha x) eqn:A; [apply hostname_name in H as [n X]; discriminate|]. destruct (parseIpv4 (x :: r1)) as [[[[[a' b'] c'] d'] q]|] eqn:E4; [|apply hostname_name in H as [n X]; discriminate].
      apply bind_inv in H as (? & s1 & E & H). injection E as _ <-. apply bind_inv in H as (? & s2 & Ea & H). apply alloc_inv in Ea as [_ Eu]. injection H as _ _ _ _ <-. exact Eu.
  - intros [(t & Et & Q & St) Hu]. destruct s as [r u]. cbn [rest used] in *.
    assert (P4 : parseIpv4 r = Some (a, b, c, d, rest s')) by (apply parseIpv4_spec; exists t; auto).
    destruct Q as (da & db & dc & dd & Eq & (N1 & A2 & _) & _). destruct da as [|x da]; [congruence|]. rewrite Et, Eq in *. cbn [app] in *.
    unfold parseHost. rewrite onRest_eq. cbn [forallb] in A2. apply andb_prop in A2 as [Ax _].
    assert (X1 : (x =? 91) = false) by (apply N.eqb_neq; intros ->; discriminate). assert (X2 : IsAlpha x = false).
    { unfold isDec in Ax. apply andb_prop in Ax as [L1 L2]. apply N.leb_le in L1, L2. 
      pose proof (sweep (fun x => implb ((48 <=? x) && (x <=? 57)) (negb (IsAlpha x))) ltac:(vm_compute; reflexivity) x ltac:(lia)) as S. cbv beta in S.
      rewrite (proj2 (N.leb_le _ _) L1), (proj2 (N.leb_le _ _) L2) in S. cbn in S. now apply negb_true_iff in S. }
    rewrite X1, X2, P4, goto_bind. cbn [used]. unfold bind, allocStruct. cbn [used rest]. unfold roomFor in R. unfold leMem. destruct s' as [r' u']. cbn [rest used] in *. subst u'.
    destruct (memend e) as [m|]; [|reflexivity]. destruct (N.leb_spec (u + 4) m); [reflexivity|lia].
Qed.
Print Assumptions C21_ipv4_exact.
(** So a component between 256 and 2^64-1 is never taken for an address. *)
Theorem C21_ipv4_in_range : forall e s a b c d s', parseHost e s = Ok (HIpv4 a b c d) s' ->
  exists da db dc dd, rest s = (da ++ 46 :: db ++ 46 :: dc ++ 46 :: dd) ++ rest s' /\ Forall (fun x => x <> [] /\ forallb isDec x = true) [da; db; dc; dd] /\
    (Forall (fun x => decVal x < 18446744073709551616) [da; db; dc; dd] -> [decVal da; decVal db; decVal dc; decVal dd] = [a; b; c; d] /\ Forall (fun v => v <= 255) [a; b; c; d]).
Proof.
  intros e s a b c d s' H. apply ipv4_sound in H as (t & E & (da & db & dc & dd & -> & (A1 & A2 & A3 & A4) & (B1 & B2 & B3 & B4) & (X1 & X2 & X3 & X4) & (D1 & D2 & D3 & D4)) & _).
  exists da, db, dc, dd. split; [exact E|]. split; [repeat constructor; assumption|]. intros F. repeat match goal with H : Forall _ (_ :: _) |- _ => inversion H; subst; clear H end.
  rewrite !N.mod_small in * by assumption. split; [reflexivity|]. repeat constructor; assumption.
Qed.
Print Assumptions C21_ipv4_in_range.
Theorem C21_ipv4_refuted : exists e r s', parseHost e (mkst r 8) = Ok (HIpv4 1 2 3 4) s' /\ r = s2b "1.2.3.18446744073709551620".
Proof. exists (exNet (Some 100)). eexists. eexists. split; [|reflexivity]; vm_compute; reflexivity. Qed.
Print Assumptions C21_ipv4_refuted.
Example C21_case : let e := exNet (Some 100) in
  parseHostPort e (mkst (s2b "h:65536") 8) = Fail (mkst [] 11) /\ parseHost e (mkst (s2b "1.2.3.256") 8) = Ok (HName (s2b "1.2.3.256")) (mkst [] 19) /\
  parseHost e (mkst (s2b "1.2.3.25>") 8) = Ok (HIpv4 1 2 3 25) (mkst [62] 12).
Proof. repeat split; vm_compute; reflexivity. Qed.

(** ** C22 *)
Theorem C22_uri_round_trip : forall e x k u,
  eUriNoEscape e = false -> wfSipUri e x -> uriFollow x k -> roomFor e (u + 57 + 9 * len (encSipUri e x ++ k)) ->
  exists u', parseSipUri e (mkst (encSipUri e x ++ k) u) = Ok x (mkst k u').
Proof.
  intros e x k u He W F R. destruct (rt_sipUri (withMem None e) x k u eq_refl He W F) as [u' E]. exists u'.
  rewrite (nine_room _ _ _ e _ (n_sipUri) ltac:(lia)); [rewrite encSipUri_mem in E; exact E|]. exact R.
Qed.
Print Assumptions C22_uri_round_trip.
Definition exUri : sipuri := mkuri true (Some (s2b "al ice@%")) (Some []) (mkhp (HIpv4 10 0 0 1) (Some 5061))
  (Some [None; Some (mkup (s2b "transport") (Some (s2b "t;c=p"))); Some (mkup (s2b "lr") None); None; None; None])
  [mkup (s2b "x y") (Some [0; 255])] [mkup (s2b "sub&ject") (Some (s2b "a?=b")); mkup (s2b "to") (Some [])].
Lemma exUri_wf m : wfSipUri (exNet m) exUri.
Proof.
  split; [split; [discriminate|abytes]|]. split; [constructor|]. split; [split; [cbn; lia|cbn; lia]|]. split.
  - split; [|split; [reflexivity|split; [vm_compute; discriminate|]]].
    + intros _ p n [<-|[]] Hn Q. revert Q. cbn in Hn. intuition (subst; vm_compute in Q; discriminate).
    + repeat constructor; try discriminate; abytes.
  - split; repeat constructor; try discriminate; try abytes. + eexists. split; [reflexivity|abytes]. + exists []. split; [reflexivity|abytes].
Qed.
Example C22_case : let e := exNet (Some 3000) in wfSipUri e exUri /\ uriFollow exUri (s2b ">;tag") /\ eUriNoEscape e = false /\ roomFor e (8 + 57 + 9 * len (encSipUri e exUri ++ s2b ">;tag")) /\
  encSipUri e exUri = s2b "sips:al%20ice%40%25:@10.0.0.1:5061;transport=t%3Bc%3Dp;lr;x%20y=%00%FF?sub%26ject=a?%3Db&to=".
Proof.
  cbv zeta. split; [apply exUri_wf|]. split; [|split; [reflexivity|split; [vm_compute; discriminate|vm_compute; reflexivity]]].
  split; [vm_compute; auto|]. split; [discriminate|]. intros X; discriminate X.
Qed.
(** Without escaping on output the round trip fails. *)
Theorem C22_no_escape_refuted : exists e x, eUriNoEscape e = true /\ wfSipUri (withMem None e) x /\ uriFollow x [] /\
  (exists y u', parseSipUri e (mkst (encSipUri e x) 8) = Ok y (mkst [] u') /\ y <> x).
Proof.
  exists (mkenv (Some 1000) false false false false false false true false false false true true false (fun _ => true) (fun _ => None) (fun _ => [])).
  exists (mkuri false (Some (s2b "a:b")) None (mkhp (HIpv4 1 2 3 4) None) None [] []). split; [reflexivity|]. split.
  { split; [split; [discriminate|abytes]|]. split; [exact I|]. split; [split; [cbn; lia|exact I]|]. split; [split; [discriminate|exact I]|split; constructor]. }
  split; [split; [exact I|]; split; [discriminate|intros _ hs h X; destruct hs; discriminate]|]. eexists. eexists. split; [vm_compute; reflexivity|discriminate].
Qed.
Print Assumptions C22_no_escape_refuted.

(** ** C23 *)
(** The same URI up to the letter case of recognised parameter names (which the encoder writes in the table's spelling). *)
Definition sameParam (p q : uparam) : Prop := sameNoCase (upName p) (upName q) /\ upValue p = upValue q.
Definition sameTable (a b : known uparam) : Prop :=
  match a, b with
  | None, None => True
  | Some s, Some t => Forall2 (fun x y => match x, y with None, None => True | Some p, Some q => sameParam p q | _, _ => False end) s t
  | _, _ => False
  end.
Definition sameUri (x y : sipuri) : Prop :=
  uSecure x = uSecure y /\ uUser x = uUser y /\ uPass x = uPass y /\ uHost x = uHost y /\ sameTable (uKnown x) (uKnown y) /\ uParams x = uParams y /\ uHeaders x = uHeaders y.
Lemma canonTable_same ns tbl : Forall2 (fun n o => match o with Some p => sameNoCase (upName p) n /\ wfParam p | None => True end) ns tbl -> sameTable (Some tbl) (Some (canonTable ns tbl)).
Proof.
  unfold sameTable, canonTable. induction 1 as [|n o ns tbl H F IH]; [constructor|]. cbn [combine map fst snd]. constructor; [|exact IH]. destruct o as [p|]; [|exact I]. split; [apply H|reflexivity].
Qed.
Lemma canonUri_same e x : outSipUri e x -> sameUri x (canonUri x) /\ (fSipUriKnown e = false -> canonUri x = x).
Proof.
  intros (_ & _ & _ & (_ & _ & O) & _). cbn [fst snd] in O. split.
  - repeat split. cbn [uKnown canonUri]. destruct (uKnown x) as [tbl|]; [|exact I]. apply canonTable_same, O.
  - intros Off. destruct x as [a b c d t f g]. unfold canonUri. cbn in *. destruct t; [|reflexivity]. destruct O as [On _]. congruence.
Qed.
(** Re-encoding an accepted URI and parsing again gives the same URI, and encoding that gives the same text: a fixed point after one step. *)
Theorem C23_stable : forall e0 s x s' e k u,
  parseSipUri e0 s = Ok x s' -> netGood e0 -> e = withMem (memend e) e0 -> eUriNoEscape e = false ->
  (forall h, In h (uHeaders x) -> upValue h <> None) ->
  uriFollow x k -> roomFor e (u + 57 + 9 * len (encSipUri e x ++ k)) ->
  exists y u', parseSipUri e (mkst (encSipUri e x ++ k) u) = Ok y (mkst k u') /\ sameUri x y /\ (fSipUriKnown e = false -> y = x) /\ encSipUri e y = encSipUri e x.
Proof.
  intros e0 s x s' e k u H NG Ee He Hh F R. apply sipUri_out in H; [|exact NG].
  assert (O : outSipUri e x) by (rewrite Ee; exact H). destruct (canonUri_same _ _ O) as [C1 C2].
  assert (F' : uriFollow (canonUri x) k) by exact F.
  destruct (C22_uri_round_trip e (canonUri x) k u He (canonUri_wf _ _ O Hh) F') as [u' E]; [rewrite encSipUri_canon; exact R|].
  rewrite encSipUri_canon in E. exists (canonUri x), u'. split; [exact E|]. split; [exact C1|]. split; [exact C2|apply encSipUri_canon].
Qed.
Print Assumptions C23_stable.
Example C23_case : let e := exNet (Some 4000) in
  exists x, parseSipUri e (mkst (s2b "SIP:%61b@h.;LR;X=%41;TTL=5?a=%62&c=,x") 8) = Ok x (mkst (s2b ",x") 87) /\
    (forall h, In h (uHeaders x) -> upValue h <> None) /\ uriFollow x (s2b ",x") /\
    encSipUri e x = s2b "sip:ab@h.;lr;ttl=5;X=A?a=b&c=".
Proof.
  cbv zeta. eexists. split; [vm_compute; reflexivity|]. split; [intros h [<-|[<-|[]]]; discriminate|]. split; [|vm_compute; reflexivity].
  split; [vm_compute; auto|]. split; [discriminate|intros X; discriminate X].
Qed.
(** The condition on headers fails only when the input ends right behind the "=" of the last header. *)
Definition headerCut (r0 r : bytes) (a : list uparam) : Prop := suffix r r0 /\ ((forall h, In h a -> upValue h <> None) \/ (r = [] /\ exists t, r0 = t ++ [61])).
Lemma headerOne_cut a r0 e s a' s' : rest s <> [] -> headerCut r0 (rest s) a -> uriHeaderOne a e s = Ok a' s' -> headerCut r0 (rest s') a'.
Proof.
  intros Hne [Su C] E. destruct C as [C|[C _]]; [|congruence]. unfold uriHeaderOne in E. apply bind_inv in E as (? & s1 & E1 & E). apply alloc_inv in E1 as [E1 _]. apply bind_inv in E as (h & s2 & E2 & E).
  injection E as <- <-. rewrite <- E1 in Su. assert (S2 : suffix (rest s2) (rest s1)).
  { pose proof (good_any _ _ _ _ _ (gd_uriHeader 1 e s1 ltac:(lia)) (memend e)) as G. rewrite withMem_self, E2 in G. exact (proj1 G). }
  split; [eapply suffix_trans; eassumption|]. unfold parseUriHeader in E2. apply bind_inv in E2 as (n & s3 & E3 & E4).
  assert (S3 : suffix (rest s3) (rest s1)).
  { pose proof (good_any _ _ _ _ _ (goodAt_paEscapable 1 6 SIP_HNAME e s1 ltac:(lia) ltac:(lia)) (memend e)) as G. rewrite withMem_self, E3 in G. exact (proj1 G). }
  unfold onRest in E4. destruct (rest s3) as [|c r1] eqn:R3; [discriminate|]. destruct (N.eqb_spec c 61) as [->|_]; [|discriminate]. rewrite goto_bind in E4. destruct r1 as [|y r1].
  - injection E4 as <- <-. right. cbn [rest]. split; [reflexivity|]. destruct (suffix_trans _ _ _ S3 Su) as [t ->]. exists t. reflexivity.
  - left. apply bind_inv in E4 as (v & s4 & _ & E4). injection E4 as <- _. intros h I. apply in_app_or in I as [I|[<-|[]]]; [exact (C h I)|discriminate].
Qed.
Theorem C23_cut_off : forall e s x s', parseSipUri e s = Ok x s' -> (exists h, In h (uHeaders x) /\ upValue h = None) ->
  rest s' = [] /\ exists t, rest s = t ++ [61].
Proof.
  intros e s x s' H (h & I & Hv). unfold parseSipUri in H. apply bind_inv in H as (b & s1 & E1 & H).
  assert (S1 : suffix (rest s1) (rest s)) by (pose proof (good_any _ _ _ _ _ (gd_sipScheme 1 e s) (memend e)) as G; rewrite withMem_self, E1 in G; exact (proj1 G)).
  unfold parseUriAfterScheme in H. apply bind_inv in H as (up & s2 & E2 & H).
  assert (S2 : suffix (rest s2) (rest s1)) by (pose proof (good_any _ _ _ _ _ (gd_userinfo 1 e s1 ltac:(lia)) (memend e)) as G; rewrite withMem_self, E2 in G; exact (proj1 G)).
  apply bind_inv in H as (hp & s3 & E3 & H).
  assert (S3 : suffix (rest s3) (rest s2)) by (pose proof (good_any _ _ _ _ _ (goodAt_parseHostPort e s2) (memend e)) as G; rewrite withMem_self, E3 in G; exact (proj1 G)).
  unfold onRest in H at 1. destruct (rest s3) as [|c r1] eqn:R3; [injection H as <- _; destruct I|]. apply bind_inv in H as (kp & s4 & E4 & H).
  assert (S4 : suffix (rest s4) (rest s3)).
  { rewrite R3. destruct (c =? 59); [|injection E4 as _ <-; rewrite R3; exists []; reflexivity]. rewrite goto_bind in E4.
    pose proof (good_any _ _ _ _ _ (gd_sipUriParams 25 (None, []) e (mkst r1 (used s3)) ltac:(lia)) (memend e)) as G. rewrite withMem_self, E4 in G. destruct (proj1 G) as [q Eq]. cbn [rest] in Eq. exists (c :: q). now rewrite Eq. }
  unfold onRest in H. destruct (rest s4) as [|y r3] eqn:R4; [injection H as <- _; destruct I|]. destruct (N.eqb_spec y 63) as [->|]; [|injection H as <- _; destruct I].
  rewrite goto_bind in H. apply bind_inv in H as (hs & s5 & E5 & H). injection H as <- <-. cbn [uHeaders] in I.
  assert (Su : suffix r3 (rest s)). { try rewrite R3 in S4; eapply suffix_trans; [|exact S1]. eapply suffix_trans; [|exact S2]. eapply suffix_trans; [|exact S3]. eapply suffix_trans; [|exact S4]. exists [63]. reflexivity. }
  unfold parseUriHeaders in E5. rewrite onRest_eq in E5. destruct r3 as [|z r3]; [discriminate|].
  assert (L : forall f a st b st', headerCut (rest s) (rest st) a -> iterP f (fun a => onRest (fun r => match r with [] => ret (inr a) | _ => bind (uriHeaderOne a) (contIf 38) end)) a e st = Ok b st' -> headerCut (rest s) (rest st') b).
  { clear. induction f as [|f IH]; intros a st b st' C E; [discriminate|]. cbn [iterP] in E. apply bind_inv in E as (q & s1 & E1 & E2). unfold onRest in E1 at 1. destruct (rest st) as [|z0 r0] eqn:R.
    - injection E1 as <- <-. injection E2 as <- <-. now rewrite R.
    - apply bind_inv in E1 as (a1 & s2 & E1 & E3). apply (headerOne_cut a (rest s)) in E1; [|rewrite R; discriminate|now rewrite R]. unfold contIf, onRest in E3. destruct (rest s2) as [|y r] eqn:R2.
      + injection E3 as <- <-. injection E2 as <- <-. now rewrite R2.
      + destruct (y =? 38); [|injection E3 as <- <-; injection E2 as <- <-; now rewrite R2]. rewrite goto_bind in E3. injection E3 as <- <-. apply IH in E2; [exact E2|]. cbn [rest].
        destruct E1 as [Su [C1|[C1 _]]]; [|discriminate]. split; [eapply suffix_trans; [|exact Su]; exists [y]; reflexivity|left; exact C1]. }
  apply L in E5; [|split; [exact Su|left; intros ? []]]. destruct E5 as [_ [C|C]]; [exfalso; exact (C h I Hv)|exact C].
Qed.
Print Assumptions C23_cut_off.
(** The condition on headers is needed: a URI ending in "=" is accepted, and its encoding is not. *)
Theorem C23_stable_refuted : exists e r x, parseSipUri e (mkst r 8) = Ok x (mkst [] 20) /\ r = s2b "sip:h?a=" /\ encSipUri e x = s2b "sip:h?a" /\ exists s', parseSipUri e (mkst (encSipUri e x) 8) = Fail s'.
Proof. exists (exNet (Some 1000)), (s2b "sip:h?a="). eexists. split; [vm_compute; reflexivity|]. split; [reflexivity|]. split; [vm_compute; reflexivity|]. eexists. vm_compute. reflexivity. Qed.
Print Assumptions C23_stable_refuted.
