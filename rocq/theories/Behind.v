(** How far the grammars look ahead: behind a line end that is followed by a CR nothing matters. *)
From Verif Require Import Base BaseLemmas Charset CharsetSpec NumSpec LwsSpec StrSpec QuotedSpec NameSpec Monad Host HostSpec Uri UriSpec Tel TelSpec GenParam GenParamSpec Addr AddrSpec
  StartLine StartLineSpec Headers HeadersSpec RawHeaders RawSpec Msg MsgSpec GrammarSpec GrammarMsg GrammarWhole.

(** Two texts that agree up to a line feed that is followed by a CR. *)
Definition far (k k' : bytes) : Prop := exists w b b', k = w ++ 10 :: 13 :: b /\ k' = w ++ 10 :: 13 :: b'.
Lemma far_app t k k' : far k k' -> far (t ++ k) (t ++ k').
Proof. intros (w & b & b' & -> & ->). exists (t ++ w), b, b'. now rewrite <- !app_assoc. Qed.
Lemma far_cons x k k' : far k k' -> far (x :: k) (x :: k'). Proof. apply (far_app [x]). Qed.
Lemma far_sym k k' : far k k' -> far k' k. Proof. intros (w & b & b' & -> & ->). now exists w, b', b. Qed.
Lemma far_some k k' : far k k' -> exists x r r', k = x :: r /\ k' = x :: r'.
Proof. intros (w & b & b' & -> & ->). destruct w as [|x w]; cbn [app]; eauto. Qed.
Lemma far_nil k' : ~ far [] k'. Proof. intros (w & b & b' & E & _). destruct w; discriminate. Qed.
#[export] Hint Resolve far_app far_cons far_sym : far.
(** A grammar that looks no farther. *)
Definition near {A} (R : bytes -> A -> bytes -> Prop) : Prop := forall t v k k', far k k' -> R t v k -> R t v k'.

Lemma far_stops f k k' : far k k' -> stops f k = true -> stops f k' = true.
Proof. intros F. destruct (far_some _ _ F) as (x & r & r' & -> & ->). auto. Qed.
Lemma far_next c k k' : far k k' -> notNext c k -> notNext c k'.
Proof. intros F. destruct (far_some _ _ F) as (x & r & r' & -> & ->). intros H k0 [= -> ->]. exact (H r eq_refl). Qed.
Lemma far_run cls k k' : far k k' -> endsRun cls k -> endsRun cls k'.
Proof. intros F. destruct (far_some _ _ F) as (x & r & r' & -> & ->). auto. Qed.
Lemma far_wsp k k' : far k k' -> ~ startsWsp k -> ~ startsWsp k'.
Proof. intros F. destruct (far_some _ _ F) as (x & r & r' & -> & ->). intros H (y & t & [= -> ->] & W). apply H. exists y, r. auto. Qed.
Lemma far_crlf k k' : far k k' -> ~ startsCRLF k -> ~ startsCRLF k'.
Proof.
  intros (w & b & b' & -> & ->) H (t & E). apply H. destruct w as [|x [|y w]]; cbn [app] in *; injection E as E1 E2; [discriminate|subst; eexists; reflexivity|subst; eexists; reflexivity].
Qed.
Lemma far_ne k k' : far k k' -> k' <> []. Proof. intros F ->. exact (far_nil _ (far_sym _ _ F)). Qed.
Lemma far_noAt k k' : far k k' -> noAt k -> noAt k'.
Proof.
  intros (w & b & b' & -> & ->) (p & q & E & Hp & Hq). destruct (app_eq_app _ _ _ _ E) as (l & [(E1 & E2)|(E1 & E2)]).
  - subst w. destruct l as [|x l].
    + cbn [app] in E2. exists p, (10 :: 13 :: b'). split; [now rewrite app_nil_r|]. split; [exact Hp|]. right. exists 10, (13 :: b'). split; [reflexivity|]. right. reflexivity.
    + exists p, (x :: l ++ 10 :: 13 :: b'). split; [now rewrite <- app_assoc|]. split; [exact Hp|]. right. exists x, (l ++ 10 :: 13 :: b'). split; [reflexivity|]. subst q. destruct Hq as [Hq|(y & t & [= <- _] & Hy)]; [discriminate|exact Hy].
  - subst p. apply Forall_app in Hp as [Hw Hl]. exists w, (10 :: 13 :: b'). split; [reflexivity|]. split; [exact Hw|]. right. exists 10, (13 :: b'). split; [reflexivity|]. right. reflexivity.
Qed.
Lemma far_eol w r k' : Forall wsp w -> ~ startsWsp r -> far (w ++ 13 :: 10 :: r) k' -> exists r', k' = w ++ 13 :: 10 :: r' /\ ~ startsWsp r'.
Proof.
  intros Hw Hr (v & b & b' & E & ->). assert (N10 : forall l q, w = l ++ 10 :: q -> False).
  { intros l q ->. rewrite Forall_forall in Hw. destruct (Hw 10) as [H|H]; [apply in_or_app; right; left; reflexivity|discriminate..]. }
  destruct (app_eq_app _ _ _ _ E) as (l & [(E1 & E2)|(E1 & E2)]).
  - exfalso. destruct l as [|x l]; [cbn in E2; discriminate|]. cbn in E2. injection E2 as <- E2. exact (N10 _ _ E1).
  - destruct l as [|x [|y l]]; cbn [app] in E2; [discriminate|injection E2 as E2 E3..]; subst v.
    + subst x r. exists (13 :: b'). split; [now rewrite <- app_assoc|]. intros (y & t & [= <- _] & [W|W]); discriminate.
    + subst x y. exists (l ++ 10 :: 13 :: b'). split; [now rewrite <- app_assoc|]. subst r. apply (far_wsp (l ++ 10 :: 13 :: b)); [|exact Hr]. exists l, b, b'. auto.
Qed.
Lemma far_skip t k k' : far k k' -> Skip t k -> Skip t k'.
Proof.
  intros F H. unfold Skip in *. remember (t ++ k) as r0 eqn:Er. destruct H as [w r Hw H1 H2|w1 w2 r H1 Hn H2 H3|w r Hw Hr].
  - apply app_inv_tail in Er. subst w. apply SWS_plain; [exact Hw|eapply far_wsp; eauto|eapply far_crlf; eauto].
  - assert (Q : t = w1 ++ 13 :: 10 :: w2) by (apply (app_inv_tail r); rewrite <- Er, <- app_assoc; reflexivity). subst t. rewrite <- app_assoc. cbn [app]. apply SWS_fold; [exact H1|exact Hn|exact H2|]. eapply far_wsp; eauto.
  - assert (Q : t = []) by (apply (app_inv_tail (w ++ 13 :: 10 :: r)); cbn [app]; now rewrite <- Er). subst t. cbn [app]. destruct (far_eol _ _ _ Hw Hr F) as (r' & -> & Hr'). now apply SWS_eol.
Qed.
Lemma far_blanks t k k' : far k k' -> Blanks t k -> Blanks t k'.
Proof. intros F HH; destruct HH as [w k0 H1 H2 H3|w1 w2 k0 H1 H2 H3 H4]; [apply BlPlain|apply BlFold]; try assumption; try (eapply far_wsp; eassumption); eapply far_crlf; eassumption. Qed.
Lemma far_mark c t k k' : far k k' -> Mark c t k -> Mark c t k'.
Proof. intros F (a & b & -> & H1 & H2). exists a, b. split; [reflexivity|]. split; [|eapply far_skip; eauto]. eapply far_skip; [|exact H1]. auto with far. Qed.
Lemma far_colon t k k' : far k k' -> Colon t k -> Colon t k'.
Proof. intros F (a & b & -> & H1 & H2). exists a, b. split; [reflexivity|]. split; [exact H1|]. eapply far_skip; eauto. Qed.
(** White space stands in the common part. *)
Lemma wsp_in w x : Forall wsp w -> In x w -> wsp x. Proof. rewrite Forall_forall. auto. Qed.
Lemma far_split w k k' : Skip w k -> far (w ++ k) k' -> exists k1, k' = w ++ k1 /\ far k k1.
Proof.
  intros H (v & b & b' & E & ->).
  assert (D : (exists l, v = w ++ l /\ k = l ++ 10 :: 13 :: b) \/ exists l, w = v ++ 10 :: l /\ 13 :: b = l ++ k).
  { destruct (app_eq_app _ _ _ _ E) as (l & [(E1 & E2)|(E1 & E2)]); [|left; eauto]. destruct l as [|x l]; [left; exists []; rewrite app_nil_r in *; auto|]. cbn in E2. injection E2 as <- E2. right. eauto. }
  destruct D as [(l & -> & ->)|(l & -> & El)].
  { exists (l ++ 10 :: 13 :: b'). split; [now rewrite <- app_assoc|]. exists l, b, b'. auto. }
  exfalso. unfold Skip in H. remember ((v ++ 10 :: l) ++ k) as r0 eqn:Er. destruct H as [w r Hw H1 H2|w1 w2 r H1 Hn H2 H3|w r Hw Hr].
  - apply app_inv_tail in Er. subst w. destruct (wsp_in _ 10 Hw); [apply in_or_app; right; left; reflexivity|discriminate..].
  - assert (Q : v ++ 10 :: l = w1 ++ 13 :: 10 :: w2) by (apply (app_inv_tail r); rewrite <- Er, <- app_assoc; reflexivity). destruct (app_eq_app _ _ _ _ Q) as (m & [(E1 & E2)|(E1 & E2)]).
    + destruct m as [|x [|y m]]; cbn [app] in E2; [discriminate|..].
      * injection E2 as _ E2. subst l. destruct w2 as [|x2 w2]; [congruence|]. cbn in El. injection El as <- _. inversion H2 as [|? ? Hx _]. destruct Hx; discriminate.
      * injection E2 as _ _ E2. destruct (wsp_in _ 10 H2); [rewrite E2; apply in_or_app; right; left; reflexivity|discriminate..].
    + destruct m as [|x m]; [discriminate|]. cbn in E2. injection E2 as <- E2. destruct (wsp_in _ 10 H1); [rewrite E1; apply in_or_app; right; left; reflexivity|discriminate..].
  - apply (f_equal (@List.length N)) in Er. rewrite !app_length in Er. cbn in Er. lia.
Qed.
Lemma far_comma k k' : far k k' -> commaNext k -> commaNext k'.
Proof.
  intros F (w & r & -> & Hs). destruct (far_split _ _ _ Hs F) as (k1 & -> & F1). destruct (far_some _ _ F1) as (x & q & r' & [= <- <-] & ->). exists w, r'. split; [reflexivity|]. eapply far_skip; eassumption.
Qed.

(** ** The grammars *)
Ltac close := match goal with
  | H : stops _ ?k = true |- stops _ ?k' = true => eapply far_stops; [|exact H]
  | H : notNext _ ?k |- notNext _ ?k' => eapply far_next; [|exact H]
  | H : endsRun _ ?k |- endsRun _ ?k' => eapply far_run; [|exact H]
  end; auto 9 with far.
Lemma near_number t n k k' : far k k' -> NumberRead t n k -> NumberRead t n k'.
Proof. intros F (H1 & H2 & H3 & H4). repeat split; try assumption. close. Qed.
Lemma near_esc cls t v k k' : far k k' -> EscRead cls t v k -> EscRead cls t v k'.
Proof. intros F (H1 & H2). split; [exact H1|close]. Qed.
Lemma near_runs cls t v k k' : far k k' -> RunRead cls t v k -> RunRead cls t v k'.
Proof. intros F (H1 & H2 & H3 & H4). repeat split; try assumption. close. Qed.
Lemma near_token t v k k' : far k k' -> TokenRead t v k -> TokenRead t v k'. Proof. apply near_runs. Qed.
Lemma near_word w t n k k' : far k k' -> WordRead w t n k -> WordRead w t n k'.
Proof. intros F (H1 & H2 & H3 & H4). repeat split; try assumption. close. Qed.
Lemma near_host e : near (HostRead e).
Proof. intros t v k k' F HH; destruct HH as [t0 ip k0 H1 H2|t0 a b c d k0 H1 H2|n k0 H1 H2]; [apply HR6|apply HR4|apply HRname]; try assumption; close. Qed.
Ltac go := repeat match goal with
  | |- far _ _ => solve [auto 12 with far]
  | _ => assumption
  | _ => eassumption
  end.
Lemma near_hostport e : near (HostPortRead e).
Proof. intros t v k k' F HH; destruct HH as [t0 h k0 H1 H2|t0 h ds p k0 H1 H2 H3]; [apply HPhost|apply HPport]; try assumption; try close; [eapply near_host; [|exact H1]|eapply near_host; [|exact H1]|eapply near_number; [|exact H2]]; auto 9 with far. Qed.
Lemma near_sep {A} c (One : bytes -> A -> bytes -> Prop) : near One -> near (SepRead c One).
Proof.
  intros N t v k k' F H. revert k' F. induction H as [t p k H1 H2|t p H1|t p t' ps k H1 H2 IH]; intros k' F.
  - apply SepOne; [eapply N; eassumption|close].
  - destruct (far_nil _ F).
  - apply SepMore; [eapply N; [|exact H1]; auto 9 with far|now apply IH].
Qed.
Lemma near_param : near ParamRead.
Proof. intros t v k k' F HH; destruct HH as [t0 n k0 H1 H2 H3|t0 n tv x k0 H1 H2 H3 H4]; [apply PRbare|apply PRval]; try assumption; try close; eapply near_esc; try eassumption; auto 9 with far. Qed.
Lemma near_header : near HeaderRead.
Proof.
  intros t v k k' F H. destruct H as [t0 n tv x k0 H1 H2 H3 H4|t0 n H1 H2]; [apply HRval|destruct (far_nil _ F)]; try assumption; try (eapply near_esc; try eassumption; auto 9 with far).
  intros E. apply app_eq_nil in E as [_ E]. exact (far_ne _ _ F E).
Qed.
Lemma near_opt {A} c (R : bytes -> list A -> bytes -> Prop) : near R -> near (OptRead c R).
Proof. intros N t v k k' F HH; destruct HH as [k0 H|t0 ps k0 H]; [apply ORnone; close|apply ORsome; eapply N; eassumption]. Qed.
Lemma near_user t u p k k' : far k k' -> UserRead t u p k -> UserRead t u p k'.
Proof. intros F HH; destruct HH as [k0 H|t0 u0 k0 H1 H2|t0 u0 tp p0 k0 H1 H2 H3]; [apply URnone; eapply far_noAt; eassumption|now apply URuser|now apply URpass]. Qed.
Lemma near_uri e sec : near (UriRead e sec).
Proof.
  intros t v k k' F HH; destruct HH as [tu user pass th h tp ps ths hs kn others k0 H1 H2 H3 H4 H5]. apply (UrRead e sec tu user pass th h tp ps ths hs kn others k').
  - eapply near_user; [|exact H1]. auto 9 with far.
  - eapply near_hostport; [|exact H2]. auto 9 with far.
  - eapply (near_opt _ _ (near_sep _ _ near_param)); [|exact H3]. auto with far.
  - eapply (near_opt _ _ (near_sep _ _ near_header)); [|exact H4]. exact F.
  - exact H5.
Qed.
Lemma near_bare e sec : near (UriBareRead e sec).
Proof. intros t v k k' F HH; destruct HH as [tu user pass th h k0 H1 H2]. apply UrBare; [eapply near_user; [|exact H1]; auto with far|eapply near_hostport; eassumption]. Qed.
Lemma near_telNumber t g n k k' : far k k' -> TelNumberRead t g n k -> TelNumberRead t g n k'.
Proof. intros F HH; destruct HH as [t0 k0 H1 H2 H3|t0 k0 H1 H2 H3]; [apply TNglobal|apply TNlocal]; try assumption; close. Qed.
Lemma near_tel e : near (TelRead e).
Proof.
  intros t v k k' F HH; destruct HH as [tn g n tp ps ctx dom kn others k0 H1 H2 H3 H4 H5]. apply (TlRead e tn g n tp ps ctx dom kn others k'); try assumption.
  - eapply near_telNumber; [|exact H1]. auto with far.
  - eapply (near_opt _ _ (near_sep _ _ near_param)); [|exact H2]. exact F.
Qed.
Lemma near_telBare : near TelBareRead.
Proof. intros t v k k' F HH; destruct HH as [t0 g n k0 H]. apply TlBare. eapply near_telNumber; eassumption. Qed.
Lemma near_quoted : near QuotedRead.
Proof. intros t v k k' F HH; destruct HH as [a src x k0 H1 H2]. apply QuRead; [|exact H2]. eapply far_skip; [|exact H1]. auto 9 with far. Qed.
Lemma near_genValue : near GenValueRead.
Proof. intros t v k k' F HH; destruct HH as [t0 x k0 H|t0 x k0 H|x k0 H]; [apply GVtoken; eapply near_token; eassumption|apply GVquoted; eapply near_quoted; eassumption|now apply GVbracket]. Qed.
Lemma near_genParam : near GenParamRead.
Proof.
  intros t v k k' F HH; destruct HH as [t0 n w k0 H1 H2 H3 H4|t0 n m tv x k0 H1 H2 H3].
  - apply GPbare; [eapply near_token; [|exact H1]; auto with far|eapply far_skip; eassumption|close|]. intros E. destruct (far_ne _ _ F E).
  - apply GPvalue; [eapply near_token; [|exact H1]; auto with far|eapply far_mark; [|exact H2]; auto with far|eapply near_genValue; eassumption].
Qed.
Lemma near_genList : near GenListRead.
Proof.
  intros t v k k' F H. revert k' F. induction H as [k H|m t p ts ps k H1 H2 H3 IH]; intros k' F.
  - apply GLnil. right. destruct H as [->|(w & k1 & -> & Hs & Hn & H59)]; [destruct (far_nil _ F)|]. destruct (far_split _ _ _ Hs F) as (k2 & -> & F2). exists w, k2.
    split; [reflexivity|]. split; [eapply far_skip; eassumption|]. split; [eapply far_ne; eassumption|close].
  - apply GLcons; [eapply far_mark; [|exact H1]; auto 9 with far|eapply near_genParam; [|exact H2]; auto 9 with far|now apply IH].
Qed.
Lemma near_genParams e on names t kn ps k k' : far k k' -> GenParamsRead e on names t kn ps k -> GenParamsRead e on names t kn ps k'.
Proof. intros F H. destruct H as [t ps kn others k H1 H2]. apply (GPSRead e on names t ps kn others); [eapply near_genList; eassumption|exact H2]. Qed.
Lemma near_params e h t kn ps k k' : far k k' -> ParamsRead e h t kn ps k -> ParamsRead e h t kn ps k'. Proof. apply near_genParams. Qed.
Lemma near_auri e params : near (AUriRead e params).
Proof.
  intros t v k k' F H. destruct H as [ts sec t u k H1 H2|ts t u k H1 H2]; [apply (AUsip e params ts sec); [exact H1|]|apply AUtel; [exact H1|]]; destruct params; [eapply near_uri|eapply near_bare|eapply near_tel|eapply near_telBare]; eassumption.
Qed.
Lemma near_tokens t k k' : far k k' -> TokensRead t k -> TokensRead t k'.
Proof.
  intros F H. revert k' F. induction H as [k H|t w ts k H1 H2 H3 IH]; intros k' F; [apply TkNil; close|]. apply TkCons; [eapply near_token; [|exact H1]|eapply far_blanks; [|exact H2]|now apply IH]; auto with far.
Qed.
Lemma near_display : near DisplayRead.
Proof. intros t v k k' F H. destruct H as [t k H1 H2|t v k H]; [apply DRtokens; [exact H1|eapply near_tokens; eassumption]|apply DRquoted; eapply near_quoted; eassumption]. Qed.
Lemma near_nameAddr e : near (NameAddrRead e).
Proof.
  intros t v k k' F H. destruct H as [a tu u b k H1 H2 H3|a td n c tu u b k H1 H2 H3 H4 H5].
  - apply NAnone; [eapply far_skip; [|exact H1]|eapply near_auri; [|exact H2]|eapply far_skip; eassumption]; auto 9 with far.
  - apply NAname; [eapply far_skip; [|exact H1]|eapply near_display; [|exact H2]|eapply far_skip; [|exact H3]|eapply near_auri; [|exact H4]|eapply far_skip; eassumption]; auto 12 with far.
Qed.
Lemma near_addr e params : near (AddrRead e params).
Proof. intros t v k k' F H. destruct H as [t u k H|t a k H]; [apply ARbare; eapply near_auri|apply ARname; eapply near_nameAddr]; eassumption. Qed.
Lemma near_method : near MethodRead.
Proof.
  intros t v k k' F H. destruct H as [name i k H1 H2|t k H1 H2 H3]; [apply MRknown; [exact H1|close]|]. apply MRother; [eapply near_token; eassumption|exact H2|]. intros E. destruct (far_ne _ _ F E).
Qed.
Lemma near_version : near VersionRead.
Proof. intros t v k k' F H. destruct H as [k H|a b k H1 H2 H3 H4 H5 H6]; [apply VR20; close|]. apply VRother; try assumption. close. Qed.
Lemma near_proto : near ProtoRead.
Proof.
  intros t v k k' F H. destruct H as [t m k H1 H2|tn n m tv v m' k H1 H2 H3 H4 H5]; [apply PR20; [exact H1|eapply far_mark; eassumption]|].
  apply PRother; [eapply near_token; [|exact H1]|eapply far_mark; [|exact H2]|eapply near_token; [|exact H3]|eapply far_mark; eassumption|]; auto 9 with far.
  (* "SIP/2.0" and the byte behind it stand in the common part *)
  intros t x r E Hs. assert (F' : far (tn ++ m ++ tv ++ m' ++ k) (tn ++ m ++ tv ++ m' ++ k')) by auto 9 with far. destruct F' as (w & b & b' & E1 & E2). rewrite E2 in E.
  assert (N10 : ~ In 10 t). { intros Hi. unfold sameNoCase in Hs. apply (in_map asciiLower) in Hi. rewrite Hs in Hi. vm_compute in Hi. repeat (destruct Hi as [Hi|Hi]; [discriminate|]). exact Hi. }
  destruct (app_eq_app _ _ _ _ E) as (l & [(Q1 & Q2)|(Q1 & Q2)]).
  - destruct l as [|y l]; [|].
    + cbn in Q2. injection Q2 as -> ->. rewrite app_nil_r in Q1. subst w. exact (H5 t 10 (13 :: b) E1 Hs).
    + cbn in Q2. injection Q2 as <- ->. subst w. apply (H5 t x (l ++ 10 :: 13 :: b)); [|exact Hs]. rewrite E1, <- app_assoc. reflexivity.
  - destruct l as [|y l]; [cbn in Q2; injection Q2 as <- <-; rewrite app_nil_r in Q1; subst t; exact (H5 w 10 (13 :: b) E1 Hs)|]. exfalso. cbn in Q2. injection Q2 as <- _. apply N10. rewrite Q1. apply in_or_app. right. now left.
Qed.
Lemma near_value e h : near (ValueRead e h).
Proof.
  intros t v k k' F H. destruct H as [h ta a tp kn ps k H1 H2 H3|h ta a tp kn ps k H1 H2 H3|ta a k H1|a b k H1 H2|s ta a tp kn ps k H1 H2 H3 H4|t1 p tt tr w th h tp kn ps k H1 H2 H3 H4 H5|t n w tm m k H1 H2 H3
    |t r w t2 c w2 tm m k H1 H2 H3 H4 H5|h t n k H1 H2|t n k H1|t m s t2 n tp kn ps k H1 H2 H3 H4|t d tp kn ps k H1 H2|t w k H1 H2|t w t2 w2 k H1 H2].
  - apply VRaddr; [exact H1|eapply near_addr; [|exact H2]; auto with far|eapply near_params; eassumption].
  - apply VRroute; [exact H1|eapply near_nameAddr; [|exact H2]; auto with far|eapply near_params; eassumption].
  - apply VRpai. eapply near_addr; eassumption.
  - apply VRstar; [eapply far_skip; [|exact H1]|eapply far_skip; [|exact H2]]; auto 9 with far.
  - apply VRcontact; [eapply far_skip; [|exact H1]|eapply far_next; [|exact H2]|eapply near_addr; [|exact H3]|eapply near_params; eassumption]; auto 9 with far.
  - apply VRvia; [eapply near_proto; [|exact H1]|eapply near_token; [|exact H2]|eapply far_blanks; [|exact H3]|eapply near_hostport; [|exact H4]|eapply near_params; eassumption]; auto 9 with far.
  - apply VRcseq; [eapply near_word; [|exact H1]|eapply far_blanks; [|exact H2]|eapply near_method; eassumption]; auto 9 with far.
  - apply VRrack; [eapply near_word; [|exact H1]|eapply far_blanks; [|exact H2]|eapply near_word; [|exact H3]|eapply far_blanks; [|exact H4]|eapply near_method; eassumption]; auto 9 with far.
  - apply VRnum; [exact H1|eapply near_word; eassumption].
  - apply VRhops. eapply near_word; eassumption.
  - apply VRtype; [eapply near_token; [|exact H1]|eapply far_mark; [|exact H2]|eapply near_token; [|exact H3]|eapply near_params; eassumption]; auto 9 with far.
  - apply VRdisp; [eapply near_token; [|exact H1]; auto with far|eapply near_params; eassumption].
  - apply VRcall; [eapply near_runs; eassumption|close].
  - apply VRcall2; [eapply near_runs; [|exact H1]; auto with far|eapply near_runs; eassumption].
Qed.
(** ** Fields. Here it is enough that a CR follows, since the field ends with a line feed. *)
Definition farLine (k k' : bytes) : Prop := far (10 :: k) (10 :: k').
Lemma line_cons k k' : farLine k k' -> far (13 :: 10 :: k) (13 :: 10 :: k'). Proof. apply far_cons. Qed.
Lemma line_some k k' : farLine k k' -> exists x r r', k = x :: r /\ k' = x :: r'.
Proof. intros (w & b & b' & E & E'). destruct w as [|y [|z w]]; cbn [app] in *; injection E; injection E'; intros; subst; eauto. Qed.
Lemma line_wsp k k' : farLine k k' -> ~ startsWsp k -> ~ startsWsp k'.
Proof. intros F. destruct (line_some _ _ F) as (x & r & r' & -> & ->). intros H (y & t & [= -> ->] & W). apply H. exists y, r. auto. Qed.
Lemma far_line k k' : far k k' -> farLine k k'. Proof. apply far_cons. Qed.
Lemma near_fieldName : near FieldNameRead.
Proof. intros t v k k' F (p & c & -> & H1 & H2). exists p, c. split; [reflexivity|]. split; [exact H1|]. eapply far_colon; eassumption. Qed.
Lemma near_text t v k k' : farLine k k' -> TextRead t v k -> TextRead t v k'.
Proof. intros F (line & -> & H1 & H2 & H3). exists line. repeat split; try assumption. eapply line_wsp; eassumption. Qed.
Lemma values_end e h t vs k : ValuesRead e h t vs k -> k = [] \/ exists t0, t = t0 ++ [13; 10].
Proof. intros H. induction H as [t v H|t v k H1 H2|t v m ts vs k H1 H2 H3 [->|(t0 & ->)]]; [auto|right; eauto|auto|right]. exists (t ++ m ++ t0). now rewrite <- !app_assoc. Qed.
Lemma line_end t k k' : farLine k k' -> far ((t ++ [13; 10]) ++ k) ((t ++ [13; 10]) ++ k').
Proof. intros F. rewrite <- !app_assoc. apply far_app, line_cons, F. Qed.
Lemma near_values e h t vs k k' : farLine k k' -> ValuesRead e h t vs k -> ValuesRead e h t vs k'.
Proof.
  intros F H. revert k' F. induction H as [t v H|t v k H1 H2|t v m ts vs k H1 H2 H3 IH]; intros k' F.
  - destruct (line_some _ _ F) as (x & r & r' & [=] & _).
  - apply VSline; [eapply near_value; [apply line_cons, F|exact H1]|]. intros C. apply H2. eapply far_comma; [|exact C]. apply far_sym, line_cons, F.
  - assert (G : far (ts ++ k) (ts ++ k')). { destruct (values_end _ _ _ _ _ H3) as [->|(t0 & ->)]; [destruct (line_some _ _ F) as (x & r & r' & [=] & _)|now apply line_end]. }
    apply VSmore; [eapply near_value; [|exact H1]; auto with far|eapply far_mark; eassumption|now apply IH].
Qed.
Lemma near_field e o t f k k' : farLine k k' -> FieldRead e o t f k -> FieldRead e o t f k'.
Proof.
  intros F H. destruct H as [tn n i h t v k H1 H2 H3|tn n i h t vs k H1 H2 H3|tn n i t v k H1 H2 H3].
  - apply (FRone e o tn n i h); [eapply near_fieldName; [|exact H1]; apply far_app, line_cons, F|exact H2|eapply near_value; [apply line_cons, F|exact H3]].
  - assert (G : far (t ++ k) (t ++ k')). { destruct (values_end _ _ _ _ _ H3) as [->|(t0 & ->)]; [destruct (line_some _ _ F) as (x & r & r' & [=] & _)|now apply line_end]. }
    apply (FRmany e o tn n i h); [eapply near_fieldName; eassumption|exact H2|eapply near_values; eassumption].
  - apply FRraw; [eapply near_fieldName; [|exact H1]|exact H2|eapply near_text; eassumption]. destruct H3 as (line & -> & _). rewrite <- !app_assoc. apply far_app. exact F.
Qed.
Lemma near_startLine e t v k k' : farLine k k' -> StartLineRead e t v k -> StartLineRead e t v k'.
Proof.
  intros F H. unfold farLine in F. destruct H as [tm m tu u ts tv v k H1 H2 H3 H4|ts tv v tc c tr r k H1 H2 H3 H4].
  - apply SLrequest; [eapply near_method; [|exact H1]|eapply near_auri; [|exact H2]|exact H3|eapply near_version; [|exact H4]]; auto 12 with far.
  - apply SLstatus; [exact H1|eapply near_version; [|exact H2]|eapply near_word; [|exact H3]|eapply near_esc; [|exact H4]]; auto 12 with far.
Qed.
(** A block of fields with the empty line behind it. *)
Inductive ClosedRead (e : env) (o : owner) : bytes -> list field -> bytes -> Prop :=
| CLline k : ClosedRead e o [13; 10] [] k
| CLcons t f ts fs k : FieldRead e o t f (ts ++ k) -> ClosedRead e o ts fs k -> ClosedRead e o (t ++ ts) (f :: fs) k.
Lemma closed_fields e o t fs k : ClosedRead e o t fs k -> FieldsRead e o t fs k.
Proof. intros H. induction H; [apply FSline|now apply FScons]. Qed.
Lemma field_end e o t f k : FieldRead e o t f k -> k = [] \/ exists t0, t = t0 ++ [10].
Proof.
  intros H. destruct H as [tn n i h t v k H1 H2 H3|tn n i h t vs k H1 H2 H3|tn n i t v k H1 H2 (line & -> & _)].
  - right. exists (tn ++ t ++ [13]). now rewrite <- !app_assoc.
  - destruct (values_end _ _ _ _ _ H3) as [->|(t0 & ->)]; [auto|right]. exists (tn ++ t0 ++ [13]). now rewrite <- !app_assoc.
  - right. exists (tn ++ line). now rewrite <- !app_assoc.
Qed.
Lemma closed_ne e o t fs k : ClosedRead e o t fs k -> t <> [].
Proof. intros H. induction H as [k|t f ts fs k H1 H2 IH]; [discriminate|]. intros E. apply app_eq_nil in E as [_ E]. auto. Qed.
Lemma closed_line e o t fs k k' : ClosedRead e o t fs k -> farLine (t ++ k) (t ++ k').
Proof.
  intros H. induction H as [k|t f ts fs k H1 H2 IH]; [exists [], (10 :: k), (10 :: k'); auto|]. destruct (field_end _ _ _ _ _ H1) as [E|(t0 & ->)].
  - apply app_eq_nil in E as [E _]. destruct (closed_ne _ _ _ _ _ H2 E).
  - rewrite <- !app_assoc. apply far_cons, far_app. exact IH.
Qed.
Lemma near_closed e o t fs k k' : ClosedRead e o t fs k -> ClosedRead e o t fs k'.
Proof. intros H. induction H as [k|t f ts fs k H1 H2 IH]; [apply CLline|]. apply CLcons; [|exact IH]. eapply near_field; [|exact H1]. eapply closed_line; exact H2. Qed.
