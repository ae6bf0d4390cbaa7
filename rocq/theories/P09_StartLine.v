(** Property C30: request and status lines. *)
From Verif Require Import Base Charset CharsetSpec BaseLemmas Num NumSpec NumProofs Lws LwsSpec Str StrSpec StrProofs Monad Good Rt Seq Room Inv MethodTree NameSpec Host HostSpec Uri UriSpec UriProofs Tel TelSpec
  GenParam GenParamSpec Addr AddrSpec StartLine StartLineSpec StartLineProofs Nine NineParse P05_Uri.

Theorem C30_start_line_round_trip : forall e l k u,
  eUriNoEscape e = false -> wfStartLine e l -> roomFor e (u + 57 + 9 * len (encStartLine e l ++ k)) ->
  exists u', parseStartLine e (mkst (encStartLine e l ++ k) u) = Ok l (mkst k u').
Proof.
  intros e l k u He W R. destruct (rt_startLine (withMem None e) l k u eq_refl He) as [u' E]; [destruct l; exact W|]. rewrite encStartLine_mem in E. exists u'.
  rewrite (nine_room _ _ _ e _ (n_startLine) ltac:(lia)); [exact E|exact R].
Qed.
Print Assumptions C30_start_line_round_trip.
Definition exReq : startline := SRequest (MOther (s2b "PREFIX")) (mkaddr false None (ASip exUri)) (VOther (s2b "12.04")).
Definition exStat : startline := SStatus V20 486 (s2b "Busy%" ++ [13; 10; 9; 255]).
Example C30_case : let e := exNet (Some 4000) in wfStartLine e exReq /\ wfStartLine e exStat /\ wfStartLine e (SRequest (MKnown SIP_METHOD_NOTIFY) (mkaddr false None (ASip exUri)) V20) /\
  roomFor e (8 + 57 + 9 * len (encStartLine e exReq)) /\
  encStartLine e exStat = s2b "SIP/2.0 486 Busy%25%0D%0A%09%FF" ++ CRLF /\
  encStartLine e exReq = s2b "PREFIX " ++ encSipUri e exUri ++ s2b " SIP/12.04" ++ CRLF /\ parseStartLine e (mkst (s2b "SIP/2.0 486 a b" ++ CRLF) 8) = Ok (SStatus V20 486 (s2b "a b")) (mkst [] 13).
Proof.
  cbv zeta. split; [|split; [|split]].
  - split; [|split; [|exists exUri; split; [reflexivity|apply exUri_wf]]].
    + split; [split; [discriminate|reflexivity]|]. intros i H. vm_compute in H. intuition discriminate.
    + split; [discriminate|]. exists (s2b "12"), (s2b "04"). repeat split; discriminate.
  - split; [exact I|]. split; [reflexivity|]. split; [abytes|discriminate].
  - split; [exists (s2b "NOTIFY"); vm_compute; tauto|]. split; [exact I|]. exists exUri. split; [reflexivity|apply exUri_wf].
  - split; [vm_compute; discriminate|]. split; [vm_compute; reflexivity|]. split; vm_compute; reflexivity.
Qed.
(** Outside this domain the property is false. A request to a telephone URI loses it and can then not be parsed. *)
Theorem C30_tel_request_refuted : exists e l s' s'', parseStartLine e (mkst (s2b "INVITE tel:+1234 SIP/2.0" ++ CRLF) 8) = Ok l s' /\
  encStartLine e l = s2b "INVITE  SIP/2.0" ++ CRLF /\ parseStartLine e (mkst (encStartLine e l) 8) = Fail s''.
Proof. exists (exNet (Some 1000)). eexists. eexists. eexists. split; [vm_compute; reflexivity|]. split; vm_compute; reflexivity. Qed.
Print Assumptions C30_tel_request_refuted.
(** A status code is read modulo 65536. *)
Theorem C30_status_code_refuted : exists e l s', parseStartLine e (mkst (s2b "SIP/2.0 65736 OK" ++ CRLF) 8) = Ok l s' /\ encStartLine e l = s2b "SIP/2.0 200 OK" ++ CRLF.
Proof. exists (exNet (Some 1000)). eexists. eexists. split; vm_compute; reflexivity. Qed.
Print Assumptions C30_status_code_refuted.

(** ** C03 for the status code *)
Lemma forallb_dec b : forallb (inset DIGIT) b = forallb isDec b.
Proof. induction b as [|x b IH]; [reflexivity|]. cbn [forallb]. rewrite IH. f_equal. apply IsDigit_isDec. Qed.
Lemma fromPosD_inv e mid s tok s' : suffix mid (rest s) -> paCStringFromPos mid DIGIT e s = Ok tok s' -> exists q, mid = q ++ rest s' /\ forallb isDec q = true.
Proof.
  intros [pre Er] H. unfold paCStringFromPos in H. destruct (_ && _)%bool; [discriminate|]. destruct (negb _); [discriminate|].
  destruct (span (inset DIGIT) mid) as [q r] eqn:Sp. destruct (negb _); [discriminate|]. destruct (_ ++ q) as [|x t] eqn:Ep; [discriminate|]. destruct (negb _); [discriminate|]. injection H as <- <-.
  exists q. cbn [Base.rest]. split; [exact (span_app _ _ _ _ Sp)|]. rewrite <- forallb_dec. exact (span_all _ _ _ _ Sp).
Qed.
Lemma dec_no32 q : forallb isDec q = true -> ~ In 32 q.
Proof. intros H I. rewrite forallb_forall in H. specialize (H _ I). discriminate. Qed.
Lemma versionAfter_no32 e s v s' : parseVersionAfter e s = Ok v s' -> exists q, rest s = q ++ rest s' /\ ~ In 32 q.
Proof.
  assert (D : versionDigits (rest s) e s = Ok v s' -> exists q, rest s = q ++ rest s' /\ ~ In 32 q).
  { unfold versionDigits. destruct (span (inset DIGIT) (rest s)) as [ma r1] eqn:Sp. pose proof (span_app _ _ _ _ Sp) as E0. pose proof (span_all _ _ _ _ Sp) as Ha. destruct ma as [|a ma]; [discriminate|].
    destruct r1 as [|x mid]; [discriminate|]. destruct (negb (x =? 46)) eqn:Ex; [discriminate|]. intros E. apply bind_inv in E as (t & s1 & E1 & E2).
    apply negb_false_iff, N.eqb_eq in Ex as ->. apply fromPosD_inv in E1 as (q & Eq & Hq); [|exists ((a :: ma) ++ [46]); rewrite <- app_assoc; exact E0].
    unfold onRest in E2. destruct (Nat.leb _ _); [discriminate|]. injection E2 as <- <-. exists ((a :: ma) ++ 46 :: q). rewrite E0, Eq, <- app_assoc. split; [reflexivity|].
    intros I. apply in_app_or in I as [I|[I|I]]; [|discriminate|exact (dec_no32 _ Hq I)]. apply (dec_no32 (a :: ma)); [|exact I]. rewrite <- forallb_dec. exact Ha. }
  unfold parseVersionAfter, onRest. destruct s as [r u]. cbn [rest] in *. destruct r as [|a r]; [discriminate|].
  destruct (N.eqb_spec a 50); [|exact D]. destruct r as [|b r]; [discriminate|]. destruct (N.eqb_spec b 46); [|exact D]. destruct r as [|c r]; [discriminate|].
  destruct (N.eqb_spec c 48); [|exact D]. subst. 
  assert (G : (goto r ;;; ret V20) e (mkst (50 :: 46 :: 48 :: r) u) = Ok v s' -> exists q, 50 :: 46 :: 48 :: r = q ++ rest s' /\ ~ In 32 q).
  { rewrite goto_bind. intros [= <- <-]. exists [50; 46; 48]. split; [reflexivity|]. cbn. intuition discriminate. }
  destruct r as [|d r]; [exact G|]. destruct (negb (IsDigit d)); [exact G|exact D].
Qed.
Lemma mod16 n : n mod 18446744073709551616 mod 65536 = n mod 65536.
Proof.
  change 18446744073709551616 with (65536 * 281474976710656). rewrite N.mod_mul_r by discriminate; rewrite (N.mul_comm _ (_ mod _)), N.mod_add by discriminate; now rewrite N.mod_mod by discriminate.
Qed.
(** The status code is the number between the first space of the line and the next one, modulo 2^16. *)
Theorem C03_status_code : forall e s v c t s', parseStartLine e s = Ok (SStatus v c t) s' ->
  exists pre k k', rest s = pre ++ 32 :: k /\ ~ In 32 pre /\ numberAt 65536 k c (32 :: k').
Proof.
  intros e s v c t s' E. unfold parseStartLine, onRest in E. destruct (versionStart (rest s)) as [r4|] eqn:V.
  - assert (exists p4, rest s = p4 ++ r4 /\ ~ In 32 p4) as (p4 & E4 & N4).
    { revert V. unfold versionStart. destruct (rest s) as [|a [|b [|c0 [|d [|x [|y [|z q]]]]]]]; try discriminate. destruct (lc a 115 && lc b 105 && lc c0 112 && (d =? 47))%bool eqn:L; [|discriminate]. intros [= <-].
      apply andb_prop in L as [L L4]. apply andb_prop in L as [L L3]. apply andb_prop in L as [L1 L2]. exists [a; b; c0; d]. split; [reflexivity|].
      intros [->|[->|[->|[->|[]]]]]; discriminate. }
    rewrite goto_bind in E. unfold parseStatusLine in E. apply bind_inv in E as (v0 & s1 & E1 & E2). apply bind_inv in E2 as ([] & s2 & E3 & E2). apply bind_inv in E2 as (c0 & s3 & E5 & E2).
    apply bind_inv in E2 as ([] & s4 & E6 & E2). apply bind_inv in E2 as (t0 & s5 & _ & E2). apply bind_inv in E2 as ([] & s6 & _ & E2). injection E2 as <- <- <- _.
    apply versionAfter_no32 in E1 as (q & Eq & Nq). cbn [rest] in Eq.
    assert (X : forall z z', expect 32 e z = Ok tt z' -> rest z = 32 :: rest z').
    { intros z z'. unfold expect, onRest. destruct (rest z) as [|x r1]; [discriminate|]. destruct (N.eqb_spec x 32) as [->|]; [|discriminate]. intros [= <-]. reflexivity. }
    apply X in E3. apply X in E6. exists (p4 ++ q), (rest s2), (rest s4). split; [rewrite E4, Eq, E3, <- app_assoc; reflexivity|]. split; [intros I; apply in_app_or in I as [I|I]; auto|].
    unfold pUIntW in E5. apply bind_inv in E5 as (n0 & s7 & E7 & E8). injection E8 as <- <-. apply uint_inv in E7 as (ds & H1 & H2 & H3 & H4 & ->). rewrite E6 in *. exists ds.
    split; [exact H1|]. split; [exact H2|]. split; [exact H3|]. split; [intros d0 t1 [= <- _]; reflexivity|]. apply mod16.
  - unfold parseRequestLine in E. apply bind_inv in E as (m & s1 & _ & E2). apply bind_inv in E2 as ([] & s2 & _ & E2). apply bind_inv in E2 as (a & s3 & _ & E2).
    apply bind_inv in E2 as ([] & s4 & _ & E2). apply bind_inv in E2 as (v0 & s5 & _ & E2). apply bind_inv in E2 as ([] & s6 & _ & E2). discriminate.
Qed.
Print Assumptions C03_status_code.
Example C03_status_case : exists s', parseStartLine (exNet (Some 1000)) (mkst (s2b "SIP/2.0 65736 OK" ++ CRLF) 8) = Ok (SStatus V20 200 (s2b "OK")) s'.
Proof. eexists. vm_compute. reflexivity. Qed.
