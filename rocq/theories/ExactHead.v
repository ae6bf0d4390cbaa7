(** Header names and header lines: the parsers accept exactly the grammars of GrammarMsg. *)
From Verif Require Import Base BaseLemmas Charset CharsetSpec CharsetProofs Num NumSpec NumProofs Lws LwsSpec LwsProofs Str StrSpec StrProofs NameSpec NameProofs Monad Good Rt Seq
  Host HostSpec HostProofs Uri UriSpec Headers HeadersSpec GrammarSpec Exact ExactUri GrammarMsg ExactMsg.

Definition foldByte (cr : bool) (x : N) : N := asciiLower (if cr && (x =? 13) then 45 else x).
Definition sep (x : N) : bool := (x =? 58) || IsWspChar x.
(** The letter a test looks for; [None] if the test is not one of those in the table. *)
Definition wanted (cr : bool) (t : btest) : option N :=
  match t with T c => if rng 97 122 c then Some c else if cr && (c =? 45) then Some 45 else None | Headers.X c => if negb cr && (c =? 45) then Some 45 else None end.
Lemma lc_big x c : c < 256 -> lc x c = true -> x < 256.
Proof. unfold lc. intros Hc H. apply N.eqb_eq in H. destruct (N.ltb_spec x 256) as [|G]; [assumption|]. pose proof (NameProofs.lor32_big x G). lia. Qed.
Lemma fold_big cr x c : c < 256 -> foldByte cr x = c -> x < 256.
Proof. unfold foldByte, asciiLower. destruct cr; cbn [andb]; [destruct (N.eqb_spec x 13)|]; destruct (_ && _)%bool eqn:E; lia. Qed.
Lemma wanted_spec cr t c x : wanted cr t = Some c -> (testByte t x = true <-> foldByte cr x = c) /\ (foldByte cr x = c -> sep x = false).
Proof.
  intros W. destruct (N.ltb_spec x 256) as [Lx|Gx].
  - assert (Q : Bool.eqb (testByte t x) (foldByte cr x =? c) = true /\ implb (foldByte cr x =? c) (negb (sep x)) = true).
    { destruct t as [d|d]; cbn in W.
      - destruct (rng 97 122 d) eqn:Rd.
        + injection W as <-. cbn [testByte]. assert (Ld : d < 256) by (unfold rng in Rd; lia).
          pose proof (sweep (fun x => forallb (fun cr => forallb (fun d => implb (rng 97 122 d) (Bool.eqb (lc x d) (foldByte cr x =? d) && implb (foldByte cr x =? d) (negb (sep x)))) (map N.of_nat (seq 0 256))) [true; false]) ltac:(vm_compute; reflexivity) x Lx) as S. cbv beta in S.
          rewrite forallb_forall in S. specialize (S cr ltac:(destruct cr; cbn; auto)). rewrite forallb_forall in S. specialize (S d). rewrite Rd in S. cbn [implb] in S. apply andb_prop. apply S.
          apply in_map_iff. exists (N.to_nat d). split; [apply N2Nat.id|]. apply in_seq. lia.
        + destruct cr; [|discriminate]. cbn [andb] in W. destruct (N.eqb_spec d 45) as [->|]; [|discriminate]. injection W as <-. cbn [testByte].
          pose proof (sweep (fun x => Bool.eqb (lc x 45) (foldByte true x =? 45) && implb (foldByte true x =? 45) (negb (sep x))) ltac:(vm_compute; reflexivity) x Lx) as S. now apply andb_prop.
      - destruct cr; [discriminate|]. cbn [andb negb] in W. destruct (N.eqb_spec d 45) as [->|]; [|discriminate]. injection W as <-. cbn [testByte].
        pose proof (sweep (fun x => Bool.eqb (x =? 45) (foldByte false x =? 45) && implb (foldByte false x =? 45) (negb (sep x))) ltac:(vm_compute; reflexivity) x Lx) as S. now apply andb_prop. }
    destruct Q as [Q1 Q2]. apply Bool.eqb_prop in Q1. rewrite Q1, N.eqb_eq. split; [tauto|]. intros F. apply N.eqb_eq in F. rewrite F in Q2. cbn in Q2. now destruct (sep x).
  - assert (Lc : c < 256). { destruct t as [d|d]; cbn in W; [destruct (rng 97 122 d) eqn:Rd; [injection W as <-; unfold rng in Rd; lia|]|]; destruct (_ && _)%bool; try discriminate; injection W as <-; lia. }
    assert (N2 : foldByte cr x <> c) by (intros F; pose proof (fold_big _ _ _ Lc F); lia). split; [|contradiction]. split; [|contradiction]. intros H. exfalso. destruct t as [d|d]; cbn in W, H.
    + assert (Ld : d < 256) by (destruct (rng 97 122 d) eqn:Rd; [unfold rng in Rd; lia|]; destruct (_ && _)%bool eqn:Ed; [|discriminate]; lia). pose proof (lc_big _ _ Ld H). lia.
    + destruct (_ && _)%bool eqn:Ed; [|discriminate]. lia.
Qed.
Fixpoint wantedAll (cr : bool) (ts : list btest) : option bytes :=
  match ts with [] => Some [] | t :: ts' => match wanted cr t, wantedAll cr ts' with Some c, Some n => Some (c :: n) | _, _ => None end end.
Definition startsSep (k : bytes) : Prop := stops (fun x => negb (sep x)) k = true /\ k <> [].
Lemma match_iff cr ts : forall n r r', wantedAll cr ts = Some n -> (matchTests ts r = Some r' <-> exists p, r = p ++ r' /\ map (foldByte cr) p = n /\ forallb (fun x => negb (sep x)) p = true /\ startsSep r').
Proof.
  induction ts as [|t ts IH]; intros n r r' W; cbn in W.
  - injection W as <-. cbn [matchTests]. split.
    + destruct r as [|x r]; [discriminate|]. destruct (_ || _)%bool eqn:S; [|discriminate]. intros [= <-]. exists []. split; [reflexivity|]. split; [reflexivity|]. split; [reflexivity|]. split; [|discriminate]. cbn. change (negb (negb (sep x)) = true). unfold sep. now rewrite S.
    + intros (p & -> & Hp & _ & H1 & H2). apply map_eq_nil in Hp. subst p. destruct r' as [|x r']; [congruence|]. cbn in *. change ((x =? 58) || IsWspChar x)%bool with (sep x). destruct (sep x); [reflexivity|discriminate].
  - destruct (wanted cr t) as [c|] eqn:Wt; [|discriminate]. destruct (wantedAll cr ts) as [n'|]; [|discriminate]. injection W as <-. cbn [matchTests]. split.
    + destruct r as [|x r]; [discriminate|]. destruct (testByte t x) eqn:Tx; [|discriminate]. intros H. apply (IH n' r r' eq_refl) in H as (p & -> & Hp & Fp & Hs). destruct (wanted_spec _ _ _ x Wt) as [W1 W2]. apply W1 in Tx.
      exists (x :: p). cbn [map forallb app]. rewrite Tx, Hp, Fp, (W2 Tx). auto.
    + intros (p & -> & Hp & Fp & Hs). destruct p as [|x p]; [discriminate|]. cbn in Hp, Fp. injection Hp as Hx Hp. apply andb_prop in Fp as [_ Fp]. cbn [app]. destruct (wanted_spec _ _ _ x Wt) as [W1 _]. apply W1 in Hx. rewrite Hx.
      apply (IH n' _ r' eq_refl). exists p. auto.
Qed.
Lemma wanted_names h : Forall (fun ts => exists n, wantedAll (crForDash h) ts = Some n /\ In n (map (map asciiLower) (headNames h))) (nameTests h).
Proof. destruct h; cbn [nameTests]; repeat (apply Forall_cons; [eexists; split; [vm_compute; reflexivity|cbn; auto]|]); apply Forall_nil. Qed.
Lemma names_wanted h : Forall (fun n => exists ts, In ts (nameTests h) /\ wantedAll (crForDash h) ts = Some (map asciiLower n)) (headNames h).
Proof.
  destruct h; cbn [headNames]; repeat (apply Forall_cons;
    [first [eexists; split; [left; reflexivity|vm_compute; reflexivity] | eexists; split; [right; left; reflexivity|vm_compute; reflexivity] | eexists; split; [right; right; left; reflexivity|vm_compute; reflexivity]]|]); apply Forall_nil.
Qed.
Lemma match_unique h ts1 ts2 r a b : In ts1 (nameTests h) -> In ts2 (nameTests h) -> matchTests ts1 r = Some a -> matchTests ts2 r = Some b -> a = b.
Proof.
  intros I1 I2 E1 E2. pose proof (wanted_names h) as W. rewrite Forall_forall in W. destruct (W _ I1) as (n1 & W1 & _). destruct (W _ I2) as (n2 & W2 & _).
  apply (match_iff _ _ _ _ _ W1) in E1 as (p1 & Q1 & _ & F1 & S1 & _). apply (match_iff _ _ _ _ _ W2) in E2 as (p2 & Q2 & _ & F2 & S2 & _). rewrite Q1 in Q2. now destruct (run_unique _ _ _ _ _ F1 F2 S1 S2 Q2).
Qed.
Lemma firstMatch_iff h r r' : firstMatch (nameTests h) r = Some r' <-> exists ts, In ts (nameTests h) /\ matchTests ts r = Some r'.
Proof.
  assert (G : forall l, incl l (nameTests h) -> (firstMatch l r = Some r' <-> exists ts, In ts l /\ matchTests ts r = Some r')).
  { induction l as [|ts l IH]; intros HI; cbn [firstMatch].
    - split; [discriminate|]. intros (ts & [] & _).
    - specialize (IH (fun z Hz => HI z (or_intror Hz))). destruct (matchTests ts r) as [q|] eqn:E.
      + split; [intros [= <-]; exists ts; cbn; auto|]. intros (t2 & I2 & E2). f_equal. apply (match_unique h ts t2 r); auto. apply HI. now left.
      + rewrite IH. split; intros (t2 & I2 & E2); exists t2; [cbn; auto|]. destruct I2 as [<-|I2]; [congruence|]. auto. }
  apply G, incl_refl.
Qed.
Lemma exact_name e h : exact e (parseHName h) (fun t _ k => HeadName h t /\ startsSep k).
Proof.
  assert (K : forall r r', firstMatch (nameTests h) r = Some r' <-> exists t, r = t ++ r' /\ HeadName h t /\ startsSep r').
  { intros r r'. rewrite firstMatch_iff. split.
    - intros (ts & I1 & E1). pose proof (wanted_names h) as W. rewrite Forall_forall in W. destruct (W _ I1) as (n & W1 & In1). apply (match_iff _ _ _ _ _ W1) in E1 as (p & -> & Hp & _ & S1).
      exists p. split; [reflexivity|]. split; [|exact S1]. apply in_map_iff in In1 as (name & <- & Hn). exists name. split; [exact Hn|]. unfold sameNoCase. rewrite map_map. exact Hp.
    - intros (t & -> & (name & Hn & Hs) & S1). pose proof (names_wanted h) as W. rewrite Forall_forall in W. destruct (W _ Hn) as (ts & I1 & W1). exists ts. split; [exact I1|]. apply (match_iff _ _ _ _ _ W1).
      unfold sameNoCase in Hs. rewrite map_map in Hs. exists t. split; [reflexivity|]. split; [exact Hs|]. split; [|exact S1].
      clear - Hs W1. revert name Hs ts W1. induction t as [|x t IH]; intros name Hs ts W1; [reflexivity|]. destruct name as [|c name]; [discriminate|]. cbn in Hs, W1. injection Hs as Hx Hs. destruct ts as [|t0 ts]; [discriminate|]. cbn in W1.
      destruct (wanted (crForDash h) t0) as [c0|] eqn:W0; [|discriminate]. destruct (wantedAll (crForDash h) ts) as [n0|] eqn:W2; [|discriminate]. injection W1 as -> ->. cbn [forallb]. rewrite (IH _ Hs _ W2). destruct (wanted_spec _ _ _ x W0) as [_ G]. rewrite (G Hx). reflexivity. }
  split.
  - intros s v s' H. unfold parseHName, onRest in H. destruct (firstMatch (nameTests h) (rest s)) as [q|] eqn:E; [|discriminate]. injection H as _ <-. cbn [rest]. now apply K.
  - intros _ t [] k u H. exists u. unfold parseHName. rewrite onRest_eq. assert (Q : firstMatch (nameTests h) (t ++ k) = Some k) by (apply K; eauto). rewrite Q. reflexivity.
Qed.
Lemma exact_header e h : exact e (parseHeader h) (LineRead e h).
Proof.
  eapply exact_iff; [|eapply exact_seq; [apply exact_name|]; eapply exact_seq; [apply exact_colon|]; apply exact_value].
  intros t v k. cbv beta. split.
  - intros (tn & x0 & t1 & -> & [H1 _] & tc & x1 & tv & -> & H2 & H3). now apply LiRead.
  - intros H. inversion H as [tn tc tv v0 k0 H1 H2 H3]; subst. exists tn, tt, (tc ++ tv). split; [reflexivity|]. split.
    + split; [exact H1|]. rewrite <- app_assoc. destruct H2 as (a & b & -> & Ha & _). split; [|destruct a; discriminate]. destruct a as [|x a]; [reflexivity|]. cbn. inversion Ha as [|? ? Hx _]; subst. unfold sep. rewrite IsWspChar_isWsp. destruct Hx as [-> | ->]; reflexivity.
    + exists tc, tt, tv. auto.
Qed.
