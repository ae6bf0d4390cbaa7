(** Parsers accept exactly the grammars of GrammarSpec: every answer of a parser is one of the grammar (in any arena), and what the grammar allows is
    answered when memory does not run out. *)
From Verif Require Import Base BaseLemmas Charset CharsetSpec CharsetProofs Num NumSpec NumProofs Lws LwsSpec LwsProofs Str StrSpec StrProofs QuotedSpec Monad Good Rt Seq GoodAuto Inv
  Host HostSpec HostProofs Uri UriSpec UriGood UriProofs UriSound Tel TelSpec TelProofs TelSound TelCrash GenParam GenParamSpec GenParamProofs Addr AddrSpec AddrProofs GrammarSpec.

Record exact {A} (e : env) (p : P A) (R : bytes -> A -> bytes -> Prop) : Prop := mkexact {
  ex_sound : forall s v s', p e s = Ok v s' -> exists t, rest s = t ++ rest s' /\ R t v (rest s');
  ex_complete : infinite e -> forall t v k u, R t v k -> exists u', p e (mkst (t ++ k) u) = Ok v (mkst k u') }.
Lemma exact_iff {A} e (p : P A) R R' : (forall t v k, R t v k <-> R' t v k) -> exact e p R -> exact e p R'.
Proof.
  intros H [S C]. split.
  - intros s v s' E. apply S in E as (t & Er & Hr). exists t. split; [exact Er|]. now apply H.
  - intros HI t v k u Hr. apply C; [exact HI|]. now apply H.
Qed.
Lemma exact_bind {A B} e (p : P A) (q : A -> P B) R1 R2 : exact e p R1 -> (forall a, exact e (q a) (R2 a)) ->
  exact e (bind p q) (fun t v k => exists t1 a t2, t = t1 ++ t2 /\ R1 t1 a (t2 ++ k) /\ R2 a t2 v k).
Proof.
  intros [S1 C1] H2. split.
  - intros s v s' E. apply bind_inv in E as (a & s1 & E1 & E2). apply S1 in E1 as (t1 & Er1 & H1). apply (ex_sound _ _ _ (H2 a)) in E2 as (t2 & Er2 & H3).
    exists (t1 ++ t2). rewrite Er1, Er2, app_assoc. split; [reflexivity|]. exists t1, a, t2. rewrite <- Er2. auto.
  - intros HI t v k u (t1 & a & t2 & -> & H1 & H3). destruct (C1 HI _ _ _ u H1) as [u1 E1]. destruct (ex_complete _ _ _ (H2 a) HI _ _ _ u1 H3) as [u2 E2].
    exists u2. rewrite <- app_assoc, (bind_ok _ _ _ _ _ _ E1). exact E2.
Qed.
Lemma exact_ret {A} e (a : A) : exact e (ret a) (fun t v k => t = [] /\ v = a).
Proof. split; [intros s v s' [= <- <-]; exists []; auto|]. intros _ t v k u [-> ->]. exists u. reflexivity. Qed.
Lemma exact_alloc e n : exact e (allocStruct n) (fun t v k => t = []).
Proof.
  split.
  - intros s v s' E. apply alloc_inv in E as [E _]. exists []. rewrite E. auto.
  - intros HI t v k u ->. destruct v. exists (u + n). now apply rt_alloc.
Qed.
(** An exact parser on its own input: the form used in the theorems. *)
Lemma exact_ok {A} e (p : P A) R : exact e p R -> infinite e -> forall r u v k, (exists u', p e (mkst r u) = Ok v (mkst k u')) <-> exists t, r = t ++ k /\ R t v k.
Proof.
  intros [S C] HI r u v k. split.
  - intros [u' E]. apply S in E as (t & Er & H). exists t. auto.
  - intros (t & -> & H). now apply C.
Qed.

(** ** Strings *)
Lemma Decodes_ext (f g : N -> bool) t v : (forall x, f x = g x) -> Decodes f t v -> Decodes g t v.
Proof. intros E D. induction D; constructor; auto; now rewrite <- E. Qed.
Lemma endsRun_ext (f g : N -> bool) k : (forall x, f x = g x) -> endsRun f k -> endsRun g k.
Proof. intros E. destruct k as [|x k]; [auto|]. cbn. now rewrite E. Qed.
Lemma EscRead_ext (f g : N -> bool) t v k : (forall x, f x = g x) -> EscRead f t v k <-> EscRead g t v k.
Proof. intros E. unfold EscRead. split; intros [H1 H2]; split; eauto using Decodes_ext, endsRun_ext. Qed.
Lemma escLoop_any cs e : forall n r u tok r', (List.length r <= n)%nat -> escLoop cs e u r = EStop tok r' -> forall u', escLoop cs (withMem None e) u' r = EStop tok r'.
Proof.
  induction n as [|n IH]; intros r u tok r' Hn H u'.
  - destruct r; [|cbn in Hn; lia]. exact H.
  - destruct r as [|v r1]; [exact H|]. cbn [escLoop] in *. cbn [List.length] in Hn. destruct (inset cs v).
    + destruct (ltMem e u); [|discriminate]. change (ltMem (withMem None e) u') with true. cbv iota. destruct (escLoop cs e (u + 1) r1) as [t q|q| |] eqn:E; try discriminate.
      rewrite (IH r1 _ _ _ ltac:(lia) E). exact H.
    + destruct (v =? 37); [|exact H]. destruct r1 as [|v1 [|v2 r2]]; try exact H. destruct (negb (IsHex v1) || negb (IsHex v2))%bool; [exact H|].
      destruct (ltMem e u); [|discriminate]. change (ltMem (withMem None e) u') with true. cbv iota. destruct (escLoop cs e (u + 1) r2) as [t q|q| |] eqn:E; try discriminate.
      cbn [List.length] in Hn. rewrite (IH r2 _ _ _ ltac:(lia) E). exact H.
Qed.
Lemma exact_escapable cs cls e : (forall x, inset cs x = cls x) -> exact e (paEscapable cs) (fun t v k => EscRead cls t v k /\ v <> []).
Proof.
  intros HC. split.
  - intros s v s' E. unfold paEscapable in E. destruct (negb _); [discriminate|]. destruct (escLoop cs e (used s + 2) (rest s)) as [tok r|r| |] eqn:El; try discriminate.
    destruct tok as [|x tok]; [discriminate|]. destruct (negb _); [discriminate|]. injection E as <- <-. cbn [rest].
    apply (escLoop_any cs e _ _ _ _ _ (le_n _)) with (u' := used s + 2) in El. apply escLoop_EStop in El; [|exact I]. destruct El as (run & Er & D & En).
    exists run. split; [exact Er|]. split; [|discriminate]. apply (EscRead_ext _ _ _ _ _ HC). split; assumption.
  - intros HI t v k u [H Hv]. apply (EscRead_ext _ _ _ _ _ HC) in H as [D En]. exists (u + 2 + len v). now apply esc_ok.
Qed.
Lemma exact_escapableEmpty cs cls e : (forall x, inset cs x = cls x) -> exact e (paEscapableEmpty cs) (EscRead cls).
Proof.
  intros HC. split.
  - intros s v s' E. unfold paEscapableEmpty in E. destruct (negb _); [discriminate|]. destruct (escLoop cs e (used s + 2) (rest s)) as [tok r|r| |] eqn:El; try discriminate.
    destruct (negb _); [discriminate|]. injection E as <- <-. cbn [rest].
    apply (escLoop_any cs e _ _ _ _ _ (le_n _)) with (u' := used s + 2) in El. apply escLoop_EStop in El; [|exact I]. destruct El as (run & Er & D & En).
    exists run. split; [exact Er|]. apply (EscRead_ext _ _ _ _ _ HC). split; assumption.
  - intros HI t v k u H. apply (EscRead_ext _ _ _ _ _ HC) in H as [D En]. exists (u + 2 + len v). apply paEscapableEmpty_ok; [now apply inf_roomy|]. exists t. cbn [rest used]. auto.
Qed.
Lemma exact_cstring cs cls e : (forall x, inset cs x = cls x) -> exact e (paCString cs) (RunRead cls).
Proof.
  intros HC. assert (HF : forall l, forallb (inset cs) l = forallb cls l) by (intros l; apply forallb_eq, HC). split.
  - intros s v s' E. apply cstring_inv in E as (Hne & F & Er & St). exists v. split; [exact Er|]. split; [exact Hne|]. split; [reflexivity|]. rewrite <- HF. split; [exact F|].
    rewrite <- (stops_eq _ _ _ HC). exact St.
  - intros HI t v k u (Hne & -> & F & St). exists (u + 2 + len t). apply rt_cstring; [exact HI|now rewrite HF|exact Hne|now rewrite (stops_eq _ _ _ HC)].
Qed.
Lemma dec_rfc x : isDec x = rfcDIGIT x. Proof. reflexivity. Qed.
Lemma exact_uint e : exact e pUInt NumberRead.
Proof.
  split.
  - intros s v s' E. apply uint_inv in E as (ds & Er & Hne & F & St & Hv). exists ds. split; [exact Er|]. split; [exact Hne|]. split; [exact F|]. split; [exact St|exact Hv].
  - intros _ t v k u (Hne & F & St & ->). exists u. unfold pUInt. rewrite onRest_eq.
    destruct (ParseUInt (t ++ k)) as [[[w n] r]|] eqn:E.
    + apply ParseUInt_spec in E as (ds & Er & Hne' & Hd & Hs & Hv & _).
      assert (Q : t = ds /\ k = r).
      { apply (run_unique isDec); [exact F|exact Hd|exact St| |exact Er]. destruct r as [|x r]; [reflexivity|]. cbn. now rewrite (Hs x r eq_refl). }
      destruct Q as [-> ->]. rewrite Hv. reflexivity.
    + apply ParseUInt_none in E. destruct t as [|x t]; [congruence|]. cbn [forallb] in F. apply andb_prop in F as [F _]. destruct E as [E|(d & q & E & Hd)]; [discriminate|].
      injection E as <- _. change (isDec x = true) in F. congruence.
Qed.

(** ** Host and port *)
Lemma exact_host e : exact e parseHost (HostRead e).
Proof.
  split.
  - intros s h s' H. unfold parseHost, onRest in H. destruct (rest s) as [|x r1] eqn:R; [discriminate|]. destruct (N.eqb_spec x 91) as [->|Hx].
    + apply bind_inv in H as (x0 & s1 & E & H). injection E as _ <-. unfold parseIpv6, onRest in H. cbn [rest used] in H.
      destruct (span (fun x => negb (x =? 93)) r1) as [txt r2] eqn:Es. apply bind_inv in H as (x1 & s1 & E & H). injection E as _ <-. destruct r2 as [|y r2]; [discriminate|].
      unfold withEnv in H. destruct (ipParse e txt) as [ip|] eqn:Ei; [|discriminate]. apply bind_inv in H as (x2 & s1 & _ & H). apply bind_inv in H as (x3 & s2 & E & H). injection E as _ <-. injection H as <- <-. cbn [rest].
      pose proof (span_app _ _ _ _ Es) as Ea. pose proof (span_stops _ _ _ _ Es) as Est. cbn in Est. apply negb_true_iff, negb_false_iff, N.eqb_eq in Est. subst y.
      exists (91 :: txt ++ [93]). split; [rewrite Ea; cbn; rewrite <- app_assoc; reflexivity|]. constructor; [|exact Ei].
      apply span_all in Es. rewrite forallb_forall in Es. intros I93. apply Es in I93. discriminate.
    + assert (Name : (forall a b c d q, parseIpv4 (x :: r1) = Some (a, b, c, d, q) -> IsAlpha x = true) -> parseHostname e s = Ok h s' -> exists t, x :: r1 = t ++ rest s' /\ HostRead e t h (rest s')).
      { intros Hq Hh. destruct (hostname_name _ _ _ _ Hh) as [n ->]. apply hostname_inv in Hh as (Hne & Hn & Er & St). rewrite R in Er. exists n. split; [exact Er|]. constructor; [|exact St].
        split; [exact Hne|]. split; [exact Hn|].
        intros (a & b & c & d & Q). assert (E : parseIpv4 (x :: r1) = Some (a, b, c, d, rest s')) by (apply parseIpv4_spec; exists n; auto).
        apply Hq in E. apply quad_head in Q as (y & t' & -> & Hy). injection Er as <- _. apply alpha_not_isDec in E. congruence. }
      destruct (IsAlpha x) eqn:A; [apply Name; [reflexivity|exact H]|]. destruct (parseIpv4 (x :: r1)) as [[[[[a b] c] d] q]|] eqn:E4.
      * apply bind_inv in H as (x0 & s1 & E & H). injection E as _ <-. apply bind_inv in H as (x1 & s2 & E & H). apply alloc_inv in E as [E _]. injection H as <- <-. rewrite E. cbn [rest].
        apply parseIpv4_spec in E4 as (t & Et & Q & St). exists t. split; [exact Et|]. constructor; assumption.
      * apply Name; [discriminate|exact H].
  - intros HI t h k u H. destruct H as [t ip k N93 Ei|t a b c d k Q St|n k W St].
    + exists (u + 16). unfold parseHost. cbn [app]. rewrite onRest_eq. change (91 =? 91) with true. cbv iota. rewrite goto_bind. unfold parseIpv6. rewrite onRest_eq. rewrite <- app_assoc. cbn [app].
      rewrite (span_not93 t k N93). rewrite goto_bind. cbn [used]. unfold withEnv. rewrite Ei. rewrite (bind_ok _ _ _ _ _ _ (rt_alloc e 16 _ _ HI)). reflexivity.
    + destruct (quad_head _ _ _ _ _ Q) as (x & t' & Et & Hx). assert (E4 : parseIpv4 (t ++ k) = Some (a, b, c, d, k)) by (apply parseIpv4_spec; exists t; auto).
      exists (u + 4). unfold parseHost. rewrite onRest_eq. rewrite E4. rewrite Et. cbn [app]. assert (Nx : (x =? 91) = false) by (apply N.eqb_neq; intros ->; discriminate). rewrite Nx.
      assert (NA : IsAlpha x = false) by (destruct (IsAlpha x) eqn:A; [apply alpha_not_isDec in A; congruence|reflexivity]). rewrite NA. rewrite goto_bind. rewrite (bind_ok _ _ _ _ _ _ (rt_alloc e 4 _ _ HI)). reflexivity.
    + destruct W as (Hne & Hn & NQ). assert (Nm : parseHostname e (mkst (n ++ k) u) = Ok (HName n) (mkst k (u + 2 + len n))).
      { unfold parseHostname. rewrite (bind_ok _ _ _ _ _ _ (rt_cstring e HOSTNAME n k u HI ltac:(rewrite forallb_hostname; exact Hn) Hne ltac:(rewrite <- stops_host; exact St))). reflexivity. }
      exists (u + 2 + len n). unfold parseHost. rewrite onRest_eq. destruct n as [|x n]; [congruence|]. cbn [app] in *. assert (Nx : (x =? 91) = false).
      { apply N.eqb_neq. intros ->. cbn [forallb] in Hn. apply andb_prop in Hn as [Hn _]. discriminate. }
      rewrite Nx. destruct (IsAlpha x) eqn:A; [exact Nm|]. destruct (parseIpv4 (x :: n ++ k)) as [[[[[a b] c] d] q]|] eqn:E4; [|exact Nm]. exfalso.
      apply parseIpv4_spec in E4 as (t & Et & Q & St'). pose proof (quad_hostname _ _ _ _ _ Q) as Hq. destruct (run_unique rfcHostname (x :: n) t k q Hn Hq St St' Et) as [<- _].
      apply NQ. eauto.
Qed.
Lemma exact_hostPort e : exact e parseHostPort (HostPortRead e).
Proof.
  split.
  - intros s h s' H. apply bind_inv in H as (h0 & s1 & E & H). apply (ex_sound _ _ _ (exact_host e)) in E as (t & Er & Hh). unfold onRest in H. destruct (rest s1) as [|x r1] eqn:R1.
    + injection H as <- <-. rewrite R1. exists t. split; [exact Er|]. constructor; [exact Hh|]. intros k' Hk. discriminate.
    + destruct (N.eqb_spec x 58) as [->|Hx].
      * apply bind_inv in H as (x0 & s2 & E & H). injection E as _ <-. apply bind_inv in H as (n & s3 & E & H). apply (ex_sound _ _ _ (exact_uint e)) in E as (ds & Ed & Hd). cbn [rest] in Ed.
        destruct (N.ltb_spec 65535 n); [discriminate|]. injection H as <- <-. exists (t ++ 58 :: ds). split; [rewrite Er, Ed, <- app_assoc; reflexivity|].
        constructor; [rewrite <- Ed; exact Hh|exact Hd|lia].
      * injection H as <- <-. rewrite R1. exists t. split; [exact Er|]. constructor; [exact Hh|]. intros k' [= X _]. congruence.
  - intros HI t h k u H. destruct H as [t h k Hh Nk|t h ds p k Hh Hd Hp].
    + destruct (ex_complete _ _ _ (exact_host e) HI _ _ _ u Hh) as [u1 E]. exists u1. unfold parseHostPort. rewrite (bind_ok _ _ _ _ _ _ E). rewrite onRest_eq. destruct k as [|x k]; [reflexivity|].
      destruct (N.eqb_spec x 58) as [->|]; [exfalso; apply (Nk k); reflexivity|reflexivity].
    + destruct (ex_complete _ _ _ (exact_host e) HI _ _ _ u Hh) as [u1 E]. destruct (ex_complete _ _ _ (exact_uint e) HI _ _ _ u1 Hd) as [u2 E2]. exists u2.
      rewrite <- app_assoc. cbn [app]. unfold parseHostPort. rewrite (bind_ok _ _ _ _ _ _ E). rewrite onRest_eq. change (58 =? 58) with true. cbv iota. rewrite goto_bind. cbn [used].
      rewrite (bind_ok _ _ _ _ _ _ E2). destruct (N.ltb_spec 65535 p); [lia|reflexivity].
Qed.

(** ** Separated lists *)
Lemma sepLoop_sound {A X} K C c (One : bytes -> X -> bytes -> Prop) (one : A -> P A) (Q : list X -> A -> N -> Prop) e : (forall a e s, goodAt K C (one a) e s) ->
  (forall xs a s a' s', Q xs a (used s) -> one a e s = Ok a' s' -> exists t p, rest s = t ++ rest s' /\ t <> [] /\ One t p (rest s') /\ Q (xs ++ [p]) a' (used s')) ->
  forall n xs a r u b s', (List.length r <= n)%nat -> r <> [] -> Q xs a u -> sepLoop c one a e (mkst r u) = Ok b s' ->
  exists t ps, r = t ++ rest s' /\ SepRead c One t ps (rest s') /\ Q (xs ++ ps) b (used s').
Proof.
  intros G H. induction n as [|n IH]; intros xs a r u b s' Hn Hr Hq E; [destruct r; [congruence|cbn in Hn; lia]|].
  rewrite (sepLoop_unfold K C c one a e r u G) in E. destruct r as [|z r]; [congruence|]. destruct (one a e (mkst (z :: r) u)) as [a' s1|s1| |] eqn:E1; try discriminate.
  destruct (H xs a (mkst (z :: r) u) a' s1 Hq E1) as (t & p & Er & Ht & Ho & Hq'). cbn [rest] in Er. destruct (rest s1) as [|x r1] eqn:R1.
  - injection E as <- <-. rewrite R1. exists t, [p]. split; [exact Er|]. split; [|exact Hq']. constructor; [exact Ho|]. intros k' Hk. discriminate.
  - destruct (N.eqb_spec x c) as [->|Hx].
    + destruct r1 as [|y r1].
      * rewrite (sepLoop_unfold K C c one a' e [] _ G) in E. injection E as <- <-. cbn [rest used]. exists (t ++ [c]), [p]. split; [rewrite app_nil_r; exact Er|]. split; [|exact Hq']. apply SepEnd. exact Ho.
      * destruct (IH (xs ++ [p]) a' (y :: r1) (used s1) b s') as (t' & ps & Er' & Hs & Hq2); [|discriminate|exact Hq'|exact E|].
        { destruct t as [|t0 t]; [congruence|]. apply (f_equal (@List.length N)) in Er. rewrite app_length in Er. cbn [List.length] in *. lia. }
        exists (t ++ c :: t'), (p :: ps). split; [rewrite Er, Er', <- app_assoc; reflexivity|]. split; [|rewrite <- app_assoc in Hq2; exact Hq2]. constructor; [rewrite <- Er'; exact Ho|exact Hs].
    + injection E as <- <-. rewrite R1. exists t, [p]. split; [exact Er|]. split; [|exact Hq']. constructor; [exact Ho|]. intros k' [= X0 _]. congruence.
Qed.
Lemma sepLoop_complete {A X} K C c (One : bytes -> X -> bytes -> Prop) (one : A -> P A) (step : A -> X -> A) (ok : X -> Prop) e : (forall a e s, goodAt K C (one a) e s) ->
  (forall t p k, One t p k -> t <> []) ->
  (forall a t p k u, ok p -> One t p k -> exists u', one a e (mkst (t ++ k) u) = Ok (step a p) (mkst k u')) ->
  forall t ps k, SepRead c One t ps k -> Forall ok ps -> forall a u, exists u', sepLoop c one a e (mkst (t ++ k) u) = Ok (fold_left step ps a) (mkst k u').
Proof.
  intros G Hne H t ps k S. induction S as [t p k Ho Nk|t p Ho|t p t' ps k Ho S IH]; intros F a u; inversion F as [|p0 ps0 Hp Hps]; subst.
  - destruct (H a _ _ _ u Hp Ho) as [u1 E]. exists u1. apply Hne in Ho. rewrite (sepLoop_unfold K C c one a e _ _ G). destruct (t ++ k) as [|z r] eqn:Er; [destruct t; [congruence|discriminate]|].
    rewrite E. cbn [rest]. destruct k as [|x k]; [reflexivity|]. destruct (N.eqb_spec x c) as [->|]; [exfalso; eapply Nk; reflexivity|reflexivity].
  - destruct (H a _ _ _ u Hp Ho) as [u1 E]. exists u1. apply Hne in Ho. rewrite app_nil_r. rewrite (sepLoop_unfold K C c one a e _ _ G). destruct (t ++ [c]) as [|z r] eqn:Er; [destruct t; [congruence|discriminate]|].
    rewrite E. cbn [rest used]. rewrite N.eqb_refl. rewrite (sepLoop_unfold K C c one _ e [] _ G). reflexivity.
  - destruct (H a _ _ _ u Hp Ho) as [u1 E]. destruct (IH Hps (step a p) u1) as [u2 E2]. exists u2. apply Hne in Ho. rewrite <- app_assoc. cbn [app].
    rewrite (sepLoop_unfold K C c one a e _ _ G). destruct (t ++ c :: t' ++ k) as [|z r] eqn:Er; [destruct t; [congruence|discriminate]|]. rewrite E. cbn [rest used]. rewrite N.eqb_refl. exact E2.
Qed.
Lemma SepRead_ne {A} c (One : bytes -> A -> bytes -> Prop) t ps k : (forall t p k, One t p k -> t <> []) -> SepRead c One t ps k -> t <> [].
Proof. intros H S. destruct S as [t p k Ho _|t p Ho|t p t' ps k Ho _]; apply H in Ho; destruct t; cbn; congruence. Qed.
