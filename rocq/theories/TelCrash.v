(** The exact set of telephone URIs on which the parser crashes. *)
From Verif Require Import Base Charset CharsetSpec CharsetProofs BaseLemmas Num NumSpec NumProofs Lws LwsSpec LwsProofs Str StrSpec StrProofs Monad Good Rt Seq GoodAuto Inv
  Host HostSpec HostProofs Uri UriSpec UriGood UriProofs UriSound Tel TelSpec TelProofs NameProofs.

Lemma inf_roomy e n : infinite e -> roomy e n.
Proof. unfold infinite, roomy. now intros ->. Qed.
Lemma esc_ok cs e run y tok u : infinite e -> Decodes (inset cs) run tok -> endsRun (inset cs) y -> tok <> [] -> paEscapable cs e (mkst (run ++ y) u) = Ok tok (mkst y (u + 2 + len tok)).
Proof. intros HI D En Ne. apply paEscapable_ok; [now apply inf_roomy|]. exists run. cbn [rest used]. auto. Qed.
Lemma esc_inv cs e r u tok s' : infinite e -> paEscapable cs e (mkst r u) = Ok tok s' -> exists run, r = run ++ rest s' /\ Decodes (inset cs) run tok /\ endsRun (inset cs) (rest s') /\ tok <> [].
Proof. intros HI E. apply paEscapable_ok in E; [|now apply inf_roomy]. destruct E as (run & H1 & H2 & H3 & H4 & _). exists run. auto. Qed.
Lemma ends59 cs q : inset cs 59 = false -> endsRun (inset cs) (59 :: q).
Proof. intros H. split; [exact H|discriminate]. Qed.
Lemma param_ok e p q u : infinite e -> ParamText p -> exists n v u', parseUriParam SIP_PNAME SIP_PVALUE e (mkst (p ++ 59 :: q) u) = Ok (mkup n v) (mkst (59 :: q) u') /\
  (v = None -> exists run, p = run /\ Decodes (inset SIP_PNAME) run n /\ n <> []).
Proof.
  intros HI T. destruct T as [run n D Ne|run n vrun v D Ne Dv Nv]; unfold parseUriParam.
  - rewrite (bind_ok _ _ _ _ _ _ (esc_ok SIP_PNAME e run (59 :: q) n u HI D (ends59 SIP_PNAME _ eq_refl) Ne)), onRest_eq. change (59 =? 61) with false. eexists. eexists. eexists. split; [reflexivity|]. intros _. exists run. auto.
  - rewrite <- app_assoc. cbn [app]. rewrite (bind_ok _ _ _ _ _ _ (esc_ok SIP_PNAME e run (61 :: vrun ++ 59 :: q) n u HI D ltac:(split; [reflexivity|discriminate]) Ne)), onRest_eq. change (61 =? 61) with true. cbv iota.
    rewrite goto_bind. cbn [used]. rewrite (bind_ok _ _ _ _ _ _ (esc_ok SIP_PVALUE e vrun (59 :: q) v _ HI Dv (ends59 SIP_PVALUE _ eq_refl) Nv)). eexists. eexists. eexists. split; [reflexivity|]. discriminate.
Qed.
Lemma param_text e r u p s' : infinite e -> parseUriParam SIP_PNAME SIP_PVALUE e (mkst r u) = Ok p s' -> exists t, r = t ++ rest s' /\ ParamText t /\
  (upValue p = None -> Decodes (inset SIP_PNAME) t (upName p) /\ upName p <> [] /\ endsRun (inset SIP_PNAME) (rest s') /\ forall q, rest s' <> 61 :: q).
Proof.
  intros HI E. unfold parseUriParam in E. apply bind_inv in E as (n & s1 & E1 & E). apply esc_inv in E1 as (run & -> & D & En & Ne); [|exact HI]. unfold onRest in E.
  destruct (rest s1) as [|c r1] eqn:R.
  - injection E as <- <-. exists run. rewrite R. split; [reflexivity|]. split; [econstructor; eassumption|]. intros _. repeat split; auto. discriminate.
  - destruct (N.eqb_spec c 61) as [->|Nc].
    + rewrite goto_bind in E. apply bind_inv in E as (v & s3 & E2 & E). injection E as <- <-. apply esc_inv in E2 as (vrun & -> & Dv & _ & Nv); [|exact HI]. exists (run ++ 61 :: vrun). rewrite <- app_assoc. split; [reflexivity|].
      split; [econstructor; eassumption|discriminate].
    + injection E as <- <-. exists run. rewrite R. split; [reflexivity|]. split; [econstructor; eassumption|]. intros _. repeat split; auto; try apply En. congruence.
Qed.
Definition isPanic {A} (o : res A) : Prop := match o with Panic => True | _ => False end.
Lemma telLoop_crash e : infinite e -> forall n r u a, (List.length r <= n)%nat ->
  isPanic (sepLoop 59 (uriParamOne SIP_PNAME SIP_PVALUE telSet) a e (mkst r u)) <-> BareContextParams r.
Proof.
  intros HI. induction n as [n IH] using lt_wf_ind. intros r u a Hn. rewrite (sepLoop_unfold 1 16) by (intros; apply gd_telOne). destruct r as [|x r].
  - cbn. split; [intros []|]. intros H. inversion H as [run m k D Hs Ek Nk E|p q P _ E].
    + apply app_eq_nil in E as [-> ->]. inversion D; subst. vm_compute in Hs. discriminate.
    + destruct p; discriminate.
  - remember (x :: r) as r0 eqn:Er0. assert (X : uriParamOne SIP_PNAME SIP_PVALUE telSet a e (mkst r0 u) = bind (parseUriParam SIP_PNAME SIP_PVALUE) (telSet a) e (mkst r0 (u + 6))).
    { unfold uriParamOne. rewrite (bind_ok _ _ _ _ _ _ (rt_alloc e 6 r0 u HI)). reflexivity. }
    replace (match r0 with [] => Ok a (mkst [] u) | _ :: _ => match uriParamOne SIP_PNAME SIP_PVALUE telSet a e (mkst r0 u) with
       | Ok a' s' => match rest s' with | x0 :: r1 => if x0 =? 59 then sepLoop 59 (uriParamOne SIP_PNAME SIP_PVALUE telSet) a' e (mkst r1 (used s')) else Ok a' s' | [] => Ok a' s' end
       | o => o end end) with (match uriParamOne SIP_PNAME SIP_PVALUE telSet a e (mkst r0 u) with
       | Ok a' s' => match rest s' with | x0 :: r1 => if x0 =? 59 then sepLoop 59 (uriParamOne SIP_PNAME SIP_PVALUE telSet) a' e (mkst r1 (used s')) else Ok a' s' | [] => Ok a' s' end
       | o => o end) by (subst r0; reflexivity).
    rewrite X. clear X. unfold bind. pose proof (calm_param e r0 (u + 6) HI) as Cp. destruct (parseUriParam SIP_PNAME SIP_PVALUE e (mkst r0 (u + 6))) as [p s1|s1| |] eqn:Ep; [| |contradiction|contradiction].
    + pose proof (param_text e r0 (u + 6) p s1 HI Ep) as (t & Et & Tx & Bare).
      assert (St : match telSet a p e s1 with Ok a' s2 => rest s2 = rest s1 /\ ~ (upValue p = None /\ sameNoCase (upName p) (s2b "phone-context")) | Panic => upValue p = None /\ sameNoCase (upName p) (s2b "phone-context") | _ => False end).
      { unfold telSet. destruct (equalNoCase (upName p) (s2b "phone-context")) eqn:En.
        - pose proof (uriParam_nonempty_value _ _ _ _ _ _ Ep) as Nv. apply equalNoCase_spec in En; [|discriminate].
          destruct (upValue p) as [[|y v]|] eqn:V; [exfalso; exact (Nv eq_refl)| |cbn; auto]. destruct (negb (y =? 43)); cbn; (split; [reflexivity|]); intros [Q _]; discriminate.
        - unfold bind, withEnv. destruct s1 as [r1 u1]. pose proof (rt_addParam (fTelUriKnown e) telKnownNames upName (snd a) p e r1 u1 HI) as [u' Ea]. rewrite Ea. cbn. split; [reflexivity|].
          intros [_ Q]. apply (equalNoCase_spec _ (s2b "phone-context")) in Q; [congruence|discriminate]. }
      destruct (telSet a p e s1) as [a' s2|s2| |]; [|destruct St| |destruct St].
      * destruct St as [Rs Nb]. rewrite Rs.
        assert (Here : forall run m k, r0 = run ++ k -> Decodes (inset SIP_PNAME) run m -> sameNoCase m (s2b "phone-context") -> endsRun (inset SIP_PNAME) k -> (forall t, k <> 61 :: t) -> False).
        { intros run m k E D Hs Ek Nk. assert (Nm : m <> []) by (intros ->; vm_compute in Hs; discriminate). assert (Pk : parseUriParam SIP_PNAME SIP_PVALUE e (mkst r0 (u + 6)) = Ok (mkup m None) (mkst k (u + 6 + 2 + len m))).
          { unfold parseUriParam. rewrite E, (bind_ok _ _ _ _ _ _ (esc_ok SIP_PNAME e run k m (u + 6) HI D Ek Nm)), onRest_eq. destruct k as [|c k]; [reflexivity|]. destruct (N.eqb_spec c 61) as [->|]; [exfalso; eapply Nk; reflexivity|reflexivity]. }
          rewrite Ep in Pk. injection Pk as -> ->. apply Nb. auto. }
        assert (Later : forall p0 q, r0 = p0 ++ 59 :: q -> ParamText p0 -> rest s1 = 59 :: q).
        { intros p0 q E P0. destruct (param_ok e p0 q (u + 6) HI P0) as (m & v & u' & Q & _). rewrite <- E, Ep in Q. injection Q as -> ->. reflexivity. }
        destruct (rest s1) as [|y r1] eqn:R1.
        { cbn. split; [intros []|]. intros H. inversion H as [run m k D Hs Ek Nk E|p0 q P0 B0 E]; symmetry in E; [exact (Here run m k E D Hs Ek Nk)|specialize (Later p0 q E P0); discriminate]. }
        destruct (N.eqb_spec y 59) as [->|Ny].
        { assert (L : (List.length r1 < n)%nat) by (apply (f_equal (@List.length N)) in Et; rewrite app_length in Et; cbn [List.length] in Et; lia).
          rewrite (IH (List.length r1) L r1 (used s2) a' (le_n _)). split.
          - intros H. rewrite Et. now constructor.
          - intros H. inversion H as [run m k D Hs Ek Nk E|p0 q P0 B0 E]; symmetry in E; [exfalso; exact (Here run m k E D Hs Ek Nk)|]. specialize (Later p0 q E P0). injection Later as ->. exact B0. }
        cbn. split; [intros []|]. intros H. inversion H as [run m k D Hs Ek Nk E|p0 q P0 B0 E]; symmetry in E; [exact (Here run m k E D Hs Ek Nk)|specialize (Later p0 q E P0); congruence].
      * destruct St as [V Hs]. cbn. split; [intros _|trivial]. destruct (Bare V) as (D & Ne & En & Nq). rewrite Et. econstructor; eassumption.
    + cbn. split; [intros []|]. intros H. inversion H as [run m k D Hs Ek Nk E|p0 q P0 B0 E]; symmetry in E.
      * assert (Nm : m <> []) by (intros ->; vm_compute in Hs; discriminate). unfold parseUriParam in Ep. rewrite E, (bind_ok _ _ _ _ _ _ (esc_ok SIP_PNAME e run k m (u + 6) HI D Ek Nm)), onRest_eq in Ep.
        destruct k as [|c k]; [discriminate|]. destruct (N.eqb_spec c 61) as [->|]; [exfalso; eapply Nk; reflexivity|discriminate].
      * destruct (param_ok e p0 q (u + 6) HI P0) as (m & v & u' & Q & _). rewrite <- E, Ep in Q. discriminate.
Qed.
Lemma exists_sep (f : N -> bool) run : forallb (fun b => f b || rfcVisualSep b)%bool run = true -> (forall b, f b = true -> rfcVisualSep b = false) ->
  removeVisual run <> [] <-> existsb f run = true.
Proof.
  intros F Hf. rewrite removeVisual_rfc. induction run as [|x run IH]; [cbn; split; [congruence|discriminate]|]. cbn [forallb] in F. apply andb_prop in F as [Fx F]. cbn [filter existsb].
  destruct (rfcVisualSep x) eqn:V; cbn [negb].
  - rewrite orb_true_r in Fx. destruct (f x) eqn:Fxx; [rewrite (Hf x Fxx) in V; discriminate|]. cbn [orb]. exact (IH F).
  - rewrite orb_false_r in Fx. rewrite Fx. cbn. split; [reflexivity|discriminate].
Qed.
Lemma digit_nosep b : rfcDIGIT b = true -> rfcVisualSep b = false.
Proof.
  intros H. assert (L : b < 256) by (unfold rfcDIGIT, rng in H; lia). pose proof (sweep (fun b => implb (rfcDIGIT b) (negb (rfcVisualSep b))) ltac:(vm_compute; reflexivity) b L) as S. cbv beta in S. rewrite H in S. now apply negb_true_iff in S.
Qed.
Lemma hex_nosep b : rfcHEXDIG b = true -> rfcVisualSep b = false.
Proof.
  intros H. assert (L : b < 256) by (unfold rfcHEXDIG, rfcLHex, rfcUHex, rfcDIGIT, rfcLHexAlpha, rfcUHexAlpha, rng in H; lia). pose proof (sweep (fun b => implb (rfcHEXDIG b) (negb (rfcVisualSep b))) ltac:(vm_compute; reflexivity) b L) as S.
  cbv beta in S. rewrite H in S. now apply negb_true_iff in S.
Qed.
Lemma number_ok e run q u : infinite e -> NumberText run -> exists gn u', parseTelNumber e (mkst (run ++ 59 :: q) u) = Ok gn (mkst (59 :: q) u').
Proof.
  intros HI [(ds & -> & F & Ex)|[F Ex]].
  - unfold parseTelNumber. cbn [app]. rewrite onRest_eq. change (43 =? 43) with true. cbv iota. unfold bind, paTelNumber. rewrite inf_lt by assumption. cbn [negb rest]. change (43 =? 43) with true. cbv iota.
    rewrite (span_exact (inset TEL_PHONE_DIGIT) ds (59 :: q)); [|rewrite (forallb_eq _ _ _ phone_rfc); exact F|reflexivity]. cbv zeta. rewrite inf_fits by assumption. cbn [negb].
    apply (exists_sep rfcDIGIT ds F digit_nosep) in Ex. fold (removeVisual ds). destruct (removeVisual ds) as [|y ys]; [congruence|]. rewrite inf_lt by assumption. cbn [negb]. eexists. eexists. reflexivity.
  - unfold parseTelNumber. destruct run as [|x run]; [discriminate|]. cbn [app]. rewrite onRest_eq. assert (Nx : (x =? 43) = false).
    { apply N.eqb_neq. intros ->. discriminate. }
    rewrite Nx. unfold bind, paTelNumber. rewrite inf_lt by assumption. cbn [negb rest]. rewrite Nx. change (x :: run ++ 59 :: q) with ((x :: run) ++ 59 :: q).
    rewrite (span_exact (inset TEL_PHONE_DIGIT_HEX) (x :: run) (59 :: q)); [|rewrite (forallb_eq _ _ _ phonehex_rfc); exact F|reflexivity]. cbv zeta. rewrite inf_fits by assumption. cbn [negb].
    apply (exists_sep rfcHEXDIG (x :: run) F hex_nosep) in Ex. fold (removeVisual (x :: run)). destruct (removeVisual (x :: run)) as [|y ys]; [congruence|]. rewrite inf_lt by assumption. cbn [negb]. eexists. eexists. reflexivity.
Qed.
Lemma number_text e r u gn s' : parseTelNumber e (mkst r u) = Ok gn s' -> exists run, r = run ++ rest s' /\ NumberText run.
Proof.
  unfold parseTelNumber. rewrite onRest_eq. destruct r as [|x r]; [discriminate|]. destruct (N.eqb_spec x 43) as [->|Nx]; intros H; apply bind_inv in H as (n0 & s1 & E & [= <- <-]); apply tel_inv in E as (run & ds & Er & Hn & Hv & Hd & _); cbn [rest] in *; exists run; (split; [exact Er|]).
  - destruct Hn as [[-> _]|(_ & _ & Y)]; [|exfalso; eapply Y; reflexivity]. left. exists ds. rewrite (forallb_eq _ _ _ phone_rfc) in Hd. split; [reflexivity|]. split; [exact Hd|]. now apply (exists_sep rfcDIGIT ds Hd digit_nosep).
  - destruct Hn as [[-> _]|(-> & _ & _)]; [cbn in Er; congruence|]. right. rewrite (forallb_eq _ _ _ phonehex_rfc) in Hd. split; [exact Hd|]. now apply (exists_sep rfcHEXDIG ds Hd hex_nosep).
Qed.
Lemma scheme_iff a b c d : (lc a 116 && lc b 101 && lc c 108 && lc d 58)%bool = true <-> TelScheme [a; b; c; d].
Proof.
  assert (B : forall x v, v < 256 -> lc x v = true -> x < 256).
  { intros x v Hv H. unfold lc in H. apply N.eqb_eq in H. destruct (N.ltb_spec x 256); [assumption|]. pose proof (NameProofs.lor32_big x H0). lia. }
  assert (L1 : forall x v, In v [116; 101; 108] -> lc x v = true <-> asciiLower x = v).
  { intros x v Iv. split.
    - intros H. assert (Lx : x < 256) by (apply (B x v); [destruct Iv as [<-|[<-|[<-|[]]]]; reflexivity|exact H]).
      pose proof (sweep (fun x => forallb (fun v => implb (lc x v) (asciiLower x =? v)) [116; 101; 108]) ltac:(vm_compute; reflexivity) x Lx) as S. cbv beta in S. rewrite forallb_forall in S. specialize (S v Iv). rewrite H in S. now apply N.eqb_eq in S.
    - intros H. assert (Lx : x < 256). { unfold asciiLower in H. destruct ((65 <=? x) && (x <=? 90))%bool eqn:Q; [apply andb_prop in Q as [_ Q]; apply N.leb_le in Q; lia|]. subst v. destruct Iv as [<-|[<-|[<-|[]]]]; reflexivity. }
      pose proof (sweep (fun x => forallb (fun v => implb (asciiLower x =? v) (lc x v)) [116; 101; 108]) ltac:(vm_compute; reflexivity) x Lx) as S. cbv beta in S. rewrite forallb_forall in S. specialize (S v Iv). rewrite H, N.eqb_refl in S. exact S. }
  assert (L2 : lc d 58 = true <-> d = 58 \/ d = 26).
  { split; [|intros [->| ->]; reflexivity]. intros H. pose proof (sweep (fun x => implb (lc x 58) ((x =? 58) || (x =? 26))) ltac:(vm_compute; reflexivity) d (B d 58 eq_refl H)) as S. cbv beta in S. rewrite H in S. cbn [implb] in S.
    apply orb_prop in S as [S|S]; apply N.eqb_eq in S; auto. }
  rewrite !andb_true_iff, (L1 a 116), (L1 b 101), (L1 c 108), L2 by (vm_compute; tauto). unfold TelScheme. split.
  - intros [[[Ha Hb] Hc] Hd]. exists a, b, c, d. split; [reflexivity|]. split; [unfold sameNoCase; cbn [map]; rewrite Ha, Hb, Hc; reflexivity|exact Hd].
  - intros (a' & b' & c' & d' & [= <- <- <- <-] & S & Hd). unfold sameNoCase in S. cbn [map] in S. change (map asciiLower (s2b "tel")) with [116; 101; 108] in S. injection S as Sa Sb Sc. auto.
Qed.
Lemma telUri_crash_iff e r u : infinite e -> isPanic (parseTelUri e (mkst r u)) <-> TelCrash r.
Proof.
  intros HI. unfold parseTelUri, parseTelScheme, bind at 1. rewrite onRest_eq. 
  assert (No : forall r0, (exists o, o = @Fail teluri (mkst r0 u)) -> (List.length r0 < 4)%nat -> ~ TelCrash r0).
  { intros r0 _ L (h & run & q & -> & (a & b & c & d & -> & _) & _). cbn in L. lia. }
  destruct r as [|a [|b [|c [|d r]]]]; try (cbn; split; [intros []|]; intros H; eapply No; [eexists; reflexivity| |exact H]; cbn; lia).
  destruct (lc a 116 && lc b 101 && lc c 108 && lc d 58)%bool eqn:Sc.
  2:{ cbn. split; [intros []|]. intros (h & run & q & E & S & _). pose proof S as (a' & b' & c' & d' & -> & _). cbn [app] in E. injection E as -> -> -> -> _. apply scheme_iff in S. congruence. }
  unfold goto at 1. cbn [used]. unfold parseTelAfterScheme, bind at 1.
  assert (Base : forall run q, r = run ++ 59 :: q -> NumberText run -> exists gn u', parseTelNumber e (mkst r u) = Ok gn (mkst (59 :: q) u')) by (intros run q ->; now apply number_ok).
  assert (Split : TelCrash (a :: b :: c :: d :: r) <-> exists run q, r = run ++ 59 :: q /\ NumberText run /\ BareContextParams q).
  { split.
    - intros (h & run & q & E & (a' & b' & c' & d' & -> & _) & Hn & Hb). cbn [app] in E. injection E as _ _ _ _ ->. exists run, q. auto.
    - intros (run & q & -> & Hn & Hb). exists [a; b; c; d], run, q. split; [reflexivity|]. split; [now apply scheme_iff|]. auto. }
  rewrite Split.
  assert (T : match parseTelNumber e (mkst r u) with Ok _ _ | Fail _ => True | _ => False end).
  { unfold parseTelNumber, onRest. cbn [rest]. destruct r as [|x r]; [exact I|]. unfold bind.
    destruct (x =? 43); [pose proof (inf_tel TEL_PHONE_DIGIT e (mkst (x :: r) u) HI) as T; destruct (paTelNumber TEL_PHONE_DIGIT e (mkst (x :: r) u)); auto|
      pose proof (inf_tel TEL_PHONE_DIGIT_HEX e (mkst (x :: r) u) HI) as T; destruct (paTelNumber TEL_PHONE_DIGIT_HEX e (mkst (x :: r) u)); auto]. }
  destruct (parseTelNumber e (mkst r u)) as [gn s1|s1| |] eqn:En; [| |contradiction|contradiction].
  - pose proof (number_text _ _ _ _ _ En) as (run & Er & Hn). unfold onRest. destruct (rest s1) as [|y r1] eqn:R1.
    + cbn. split; [intros []|]. intros (run' & q & E' & N' & B'). destruct (Base run' q E' N') as (gn' & u' & Q). injection Q as _ ->. discriminate.
    + destruct (N.eqb_spec y 59) as [->|Ny].
      * rewrite goto_bind. unfold bind, parseUriParams, onRest. cbn [rest used].
        assert (Q : forall run' q, r = run' ++ 59 :: q -> NumberText run' -> q = r1).
        { intros run' q E' N'. destruct (Base run' q E' N') as (gn' & u' & X). injection X as _ ->. cbn [rest] in R1. congruence. }
        assert (Z : (exists run q, r = run ++ 59 :: q /\ NumberText run /\ BareContextParams q) <-> BareContextParams r1).
        { split; [intros (run' & q & E' & N' & B'); now rewrite <- (Q run' q E' N')|]. intros B'. exists run, r1. auto. }
        rewrite Z. destruct r1 as [|z r1].
        { cbn. split; [intros []|]. intros H. inversion H as [run0 m k D Hs Ek Nk E|p q P _ E]; [|destruct p; discriminate]. apply app_eq_nil in E as [-> ->]. inversion D; subst. vm_compute in Hs. discriminate. }
        rewrite <- (telLoop_crash e HI _ (z :: r1) (used s1) ((None, false), (None, [])) (le_n _)). destruct (sepLoop 59 _ _ e (mkst (z :: r1) (used s1))); cbn; tauto.
      * cbn. split; [intros []|]. intros (run' & q & E' & N' & B'). destruct (Base run' q E' N') as (gn' & u' & Q). injection Q as _ ->. cbn [rest] in R1. congruence.
  - cbn. split; [intros []|]. intros (run' & q & E' & N' & B'). destruct (Base run' q E' N') as (gn' & u' & Q). discriminate.
Qed.

Lemma memSelf e : withMem (memend e) e = e.
Proof. now destruct e. Qed.
Lemma telOne_noloop e a s : infinite e -> uriParamOne SIP_PNAME SIP_PVALUE telSet a e s <> Loop.
Proof.
  intros HI. destruct s as [r u]. unfold uriParamOne. rewrite (bind_ok _ _ _ _ _ _ (rt_alloc e 6 r u HI)). unfold bind. pose proof (calm_param e r (u + 6) HI) as Cp.
  destruct (parseUriParam SIP_PNAME SIP_PVALUE e (mkst r (u + 6))) as [p s1|s1| |]; [|discriminate|contradiction|contradiction]. unfold telSet. destruct (equalNoCase (upName p) (s2b "phone-context")).
  - destruct (upValue p) as [[|y v]|]; try discriminate. destruct (negb (y =? 43)); discriminate.
  - unfold bind, withEnv. destruct s1 as [r1 u1]. pose proof (rt_addParam (fTelUriKnown e) telKnownNames upName (snd a) p e r1 u1 HI) as [u' Ea]. rewrite Ea. discriminate.
Qed.
Lemma telLoop_noloop e : infinite e -> forall n r u a, (List.length r <= n)%nat -> sepLoop 59 (uriParamOne SIP_PNAME SIP_PVALUE telSet) a e (mkst r u) <> Loop.
Proof.
  intros HI. induction n as [n IH] using lt_wf_ind. intros r u a Hn. rewrite (sepLoop_unfold 1 16) by (intros; apply gd_telOne). destruct r as [|x r]; [discriminate|].
  pose proof (telOne_noloop e a (mkst (x :: r) u) HI) as NL. pose proof (good_any _ _ _ _ _ (gd_telOne a e (mkst (x :: r) u)) (memend e)) as G. rewrite memSelf in G.
  destruct (uriParamOne SIP_PNAME SIP_PVALUE telSet a e (mkst (x :: r) u)) as [a' s'|s'| |]; try discriminate; [|congruence].
  destruct (rest s') as [|y r1] eqn:R; [discriminate|]. destruct (y =? 59); [|discriminate]. destruct G as [Su _]. apply suffix_len in Su. cbn [rest] in Su.
  apply (IH (List.length r1)); [|lia]. rewrite !len_cons in Su. unfold len in Su. cbn [List.length] in Hn. lia.
Qed.
Lemma telUri_noloop e r u : infinite e -> parseTelUri e (mkst r u) <> Loop.
Proof.
  intros HI. unfold parseTelUri, parseTelScheme, bind at 1. rewrite onRest_eq. destruct r as [|a [|b [|c [|d r]]]]; try discriminate. destruct (lc a 116 && lc b 101 && lc c 108 && lc d 58)%bool; [|discriminate].
  unfold goto at 1. cbn [used]. unfold parseTelAfterScheme, bind at 1.
  assert (T : match parseTelNumber e (mkst r u) with Ok _ _ | Fail _ => True | _ => False end).
  { unfold parseTelNumber, onRest. cbn [rest]. destruct r as [|x r]; [exact I|]. unfold bind.
    destruct (x =? 43); [pose proof (inf_tel TEL_PHONE_DIGIT e (mkst (x :: r) u) HI) as T; destruct (paTelNumber TEL_PHONE_DIGIT e (mkst (x :: r) u)); auto|
      pose proof (inf_tel TEL_PHONE_DIGIT_HEX e (mkst (x :: r) u) HI) as T; destruct (paTelNumber TEL_PHONE_DIGIT_HEX e (mkst (x :: r) u)); auto]. }
  destruct (parseTelNumber e (mkst r u)) as [gn s1|s1| |]; try discriminate; [|contradiction]. unfold onRest. destruct (rest s1) as [|y r1]; [discriminate|]. destruct (y =? 59); [|discriminate].
  rewrite goto_bind. unfold bind, parseUriParams, onRest. cbn [rest used]. destruct r1 as [|z r1]; [discriminate|].
  pose proof (telLoop_noloop e HI _ (z :: r1) (used s1) ((None, false), (None, [])) (le_n _)) as NL. destruct (sepLoop 59 _ _ e (mkst (z :: r1) (used s1))); try discriminate. congruence.
Qed.
