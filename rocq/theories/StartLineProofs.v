From Verif Require Import Base Charset CharsetSpec CharsetProofs BaseLemmas Num NumSpec NumProofs Lws LwsSpec LwsProofs Str StrSpec StrProofs Monad Good Rt Seq GoodAuto Inv
  MethodTree NameSpec NameProofs Host HostSpec HostProofs Uri UriSpec UriGood UriProofs Tel TelSpec TelProofs GenParam GenParamSpec GenParamProofs Addr AddrSpec AddrProofs StartLine StartLineSpec.

(** ** Well-behavedness *)
Lemma gd_expect K c e s : goodAt K 0 (expect c) e s.
Proof. unfold expect. good. Qed.
Lemma gd_UIntW K w e s : goodAt K 0 (pUIntW w) e s.
Proof. unfold pUIntW. good. Qed.
Lemma gd_fromPos K mid cs e s : 1 <= K -> suffix mid (rest s) -> goodAt K 3 (paCStringFromPos mid cs) e s.
Proof. intros. apply goodAt_paCStringFromPos; auto; lia. Qed.
#[export] Hint Resolve gd_expect gd_UIntW gd_fromPos : good.
Lemma cut_last p x : x <> 10 -> crashy (p ++ [x]).
Proof. intros H. left. exists p, x. auto. Qed.
Lemma gd_method K e s : 1 <= K -> goodAt K 3 parseMethod e s.
Proof.
  intros HK. unfold parseMethod. destruct s as [r u]. apply goodAt_onRest. cbn [rest]. destruct (GetSipMethodIndex r) as [[i mid]|] eqn:E.
  - apply method_skips in E as (p & -> & _). assert (Su : suffix mid (p ++ mid)) by (exists p; reflexivity). destruct (_ =? _); [|good; exact Su].
    eapply goodAt_bind; [apply gd_fromPos; [exact HK|exact Su]|lia|intros; good].
  - apply goodAt_panic. cbn [rest]. apply method_panic in E. destruct E as [<-|[<-|[<-|[]]]]; [apply (cut_last [] 80)|apply (cut_last [73] 78)|apply (cut_last [82] 69)]; discriminate.
Qed.
#[export] Hint Resolve gd_method : good.
Lemma digits_cut a : forallb (inset DIGIT) a = true -> a <> [] -> crashy a.
Proof.
  intros H Hne. destruct (exists_last Hne) as (p & x & ->). apply cut_last. rewrite forallb_app in H. apply andb_prop in H as [_ H]. cbn in H. rewrite andb_true_r in H. intros ->. discriminate.
Qed.
Lemma gd_versionDigits K e s : 1 <= K -> goodAt K 3 (versionDigits (rest s)) e s.
Proof.
  intros HK. unfold versionDigits. destruct (span (inset DIGIT) (rest s)) as [major r1] eqn:E. pose proof (span_app _ _ _ _ E) as E0. assert (Hd : forallb (inset DIGIT) major = true) by exact (span_all _ _ _ _ E).
  destruct major as [|d major]; [good|]. set (mj := d :: major) in *. destruct r1 as [|x mid].
  - apply goodAt_panic. rewrite E0, app_nil_r. apply digits_cut; [exact Hd|discriminate].
  - assert (S1 : suffix (x :: mid) (rest s)) by (exists mj; exact E0). destruct (negb _); [apply goodAt_goto_bind; [exact S1|good]|].
    eapply goodAt_bind; [apply gd_fromPos; [exact HK|]|lia|].
    + exists (mj ++ [x]). rewrite E0, <- app_assoc. reflexivity.
    + intros. good.
Qed.
Lemma gd_versionAfter K e s : 1 <= K -> rest s <> [] -> goodAt K 3 parseVersionAfter e s.
Proof.
  intros HK Hne. unfold parseVersionAfter. apply goodAt_onRest. pose proof (gd_versionDigits K e s HK) as G. destruct s as [r u]. cbn [rest] in *.
  destruct r as [|a r1]; [congruence|]. destruct (N.eqb_spec a 50) as [->|_]; [|exact G]. destruct r1 as [|b r2]; [apply goodAt_panic; apply (cut_last [] 50); discriminate|].
  destruct (N.eqb_spec b 46) as [->|_]; [|exact G]. destruct r2 as [|c r3]; [apply goodAt_panic; apply (cut_last [50] 46); discriminate|].
  destruct (N.eqb_spec c 48) as [->|_]; [|exact G]. destruct r3 as [|d r4]; [good|]. destruct (negb _); [good|exact G].
Qed.
Lemma versionStart_inv r r4 : versionStart r = Some r4 -> r4 <> [] /\ suffix r4 r.
Proof.
  unfold versionStart. destruct r as [|a [|b [|c [|d [|x [|y [|z q]]]]]]]; try discriminate. destruct (_ && _)%bool; [|discriminate]. intros [= <-]. split; [discriminate|]. exists [a; b; c; d]. reflexivity.
Qed.
Lemma gd_version K e s : 1 <= K -> goodAt K 3 parseVersion e s.
Proof.
  intros HK. unfold parseVersion. destruct s as [r u]. apply goodAt_onRest. cbn [rest]. destruct (versionStart r) as [r4|] eqn:E; [|good]. apply versionStart_inv in E as [Hne Su].
  apply goodAt_goto_bind; [exact Su|]. apply gd_versionAfter; auto.
Qed.
#[export] Hint Resolve gd_versionAfter gd_version : good.
Lemma gd_requestLine K e s : 25 <= K -> goodAt K 85 parseRequestLine e s.
Proof. intros. unfold parseRequestLine. good. Qed.
Lemma gd_statusLine K e s : 1 <= K -> rest s <> [] -> goodAt K 6 parseStatusLine e s.
Proof. intros. unfold parseStatusLine. eapply goodAt_bind; [apply gd_versionAfter; auto|lia|intros]. good. Qed.
#[export] Hint Resolve gd_requestLine gd_statusLine : good.
Lemma gd_startLine K e s : 25 <= K -> goodAt K 85 parseStartLine e s.
Proof.
  intros HK. unfold parseStartLine. destruct s as [r u]. apply goodAt_onRest. cbn [rest]. destruct (versionStart r) as [r4|] eqn:E; [|good]. apply versionStart_inv in E as [Hne Su].
  apply goodAt_goto_bind; [exact Su|]. eapply goodAt_tail; [apply gd_statusLine; [lia|exact Hne]|lia].
Qed.
#[export] Hint Resolve gd_startLine : good.

(** ** Exact reading *)
Lemma rt_expect e c k u : expect c e (mkst (c :: k) u) = Ok tt (mkst k u).
Proof. unfold expect. rewrite onRest_eq, N.eqb_refl. reflexivity. Qed.
Lemma rt_fromPos e cs pre tok k u : infinite e -> forallb (inset cs) tok = true -> pre ++ tok <> [] -> stops (inset cs) k = true ->
  exists u', paCStringFromPos (tok ++ k) cs e (mkst (pre ++ tok ++ k) u) = Ok (pre ++ tok) (mkst k u').
Proof.
  intros HI Ht Hne Hk. unfold paCStringFromPos. cbn [Base.rest Base.used]. rewrite firstn_pre. rewrite !inf_lt by assumption. rewrite andb_false_r. cbn [negb]. rewrite span_exact by assumption.
  rewrite inf_fits by assumption. cbn [negb]. destruct (pre ++ tok); [congruence|]. rewrite inf_lt by assumption. eexists. reflexivity.
Qed.
Lemma span_tokens_app p r : forallb IsSipToken p = true -> span (inset SIP_TOKEN) (p ++ r) = (p ++ fst (span (inset SIP_TOKEN) r), snd (span (inset SIP_TOKEN) r)).
Proof.
  induction p as [|x p IH]; intros H; [cbn [app]; destruct (span (inset SIP_TOKEN) r); reflexivity|]. cbn in H. apply andb_prop in H as [Hx Hp]. cbn [app span]. unfold IsSipToken in Hx. rewrite Hx, IH by exact Hp. reflexivity.
Qed.
Lemma nameEnds_stops k : nameEnds k <-> stops rfcToken k = true.
Proof. destruct k as [|x k]; cbn; [tauto|]. unfold IsSipToken. rewrite token_rfc, negb_true_iff. reflexivity. Qed.
Lemma methodTable_spec name i : In (name, i) methodNames -> nth (N.to_nat i) methodTable [] = name.
Proof.
  intros H. assert (F : forallb (fun q => beq (nth (N.to_nat (snd q)) methodTable []) (fst q)) methodNames = true) by (vm_compute; reflexivity). rewrite forallb_forall in F. apply F in H. cbn in H. now apply beq_eq in H.
Qed.
Lemma rt_method e m k u : infinite e -> wfMethod m -> k <> [] -> stops rfcToken k = true -> exists u', parseMethod e (mkst (encMethod m ++ k) u) = Ok m (mkst k u').
Proof.
  intros HI W Hne Hk. unfold parseMethod. rewrite onRest_eq. destruct m as [i|t]; cbn [wfMethod encMethod] in *.
  - destruct W as [name W]. rewrite (methodTable_spec _ _ W). rewrite (method_complete _ _ k W) by (now apply nameEnds_stops). rewrite (proj2 (N.eqb_neq i SIP_METHOD_UNKNOWN) (methodNames_nz _ _ W)). eexists. reflexivity.
  - destruct W as [[Tne Tf] Wn]. destruct (GetSipMethodIndex (t ++ k)) as [[i mid]|] eqn:E.
    + pose proof (method_skips _ _ _ E) as (p & Ep & Hp). destruct (N.eqb_spec i SIP_METHOD_UNKNOWN) as [->|Hi].
      * assert (Y : exists q, t = p ++ q /\ mid = q ++ k).
        { assert (S1 : span (inset SIP_TOKEN) (t ++ k) = (t, k)) by (apply span_exact; [now rewrite tokens_rfc|now rewrite stops_token]).
          rewrite Ep, span_tokens_app in S1 by exact Hp. destruct (span (inset SIP_TOKEN) mid) as [q r] eqn:Eq. cbn [fst snd] in S1. injection S1 as S1 S2. subst r. exists q. split; [now symmetry|]. exact (span_app _ _ _ _ Eq). }
        destruct Y as (q & Et & Em). subst mid. rewrite Et, <- app_assoc. rewrite Et in Tf, Tne. rewrite forallb_app in Tf. apply andb_prop in Tf as [_ Tf]. rewrite <- tokens_rfc in Tf.
        destruct (rt_fromPos e SIP_TOKEN p q k u HI Tf Tne) as [u' E2]; [now rewrite stops_token|]. rewrite (bind_ok _ _ _ _ _ _ E2). eexists. reflexivity.
      * exfalso. destruct (proj1 (method_spec _ _ _) (conj E Hi)) as (name & In1 & Er & Hr). assert (X : span (inset SIP_TOKEN) (t ++ k) = (t, k)) by (apply span_exact; [now rewrite tokens_rfc|now rewrite stops_token]).
        rewrite Er in X. rewrite span_exact in X.
        -- injection X as -> _. exact (Wn _ In1).
        -- assert (F : forallb (fun q => forallb (inset SIP_TOKEN) (fst q)) methodNames = true) by (vm_compute; reflexivity). rewrite forallb_forall in F. exact (F _ In1).
        -- rewrite stops_token. now apply nameEnds_stops.
    + exfalso. apply method_panic in E. destruct (exists_last Hne) as (q & x & Eq).
      assert (X : forallb rfcToken (t ++ k) = true) by (destruct E as [<-|[<-|[<-|[]]]]; vm_compute; reflexivity).
      rewrite forallb_app in X. apply andb_prop in X as [_ X]. destruct k as [|y k]; [congruence|]. cbn in X, Hk. apply andb_prop in X as [X _]. rewrite X in Hk. discriminate.
Qed.
Lemma digits_rfc b : forallb (inset DIGIT) b = forallb rfcDIGIT b.
Proof. induction b as [|x b IH]; cbn; [reflexivity|]. rewrite IH. f_equal. apply (rfc_ge rfcDIGIT); [apply charsets_exact|]. intros y H. unfold rfcDIGIT, rng in H. lia. Qed.
Lemma stops_digits k : stops rfcDIGIT k = true -> stops (inset DIGIT) k = true.
Proof. destruct k as [|x k]; cbn; [trivial|]. pose proof (digits_rfc [x]) as X. cbn in X. rewrite !andb_true_r in X. now rewrite X. Qed.
Lemma rt_versionDigits e a b k u : infinite e -> a <> [] -> b <> [] -> forallb rfcDIGIT a = true -> forallb rfcDIGIT b = true -> stops rfcDIGIT k = true ->
  exists u', versionDigits (a ++ 46 :: b ++ k) e (mkst (a ++ 46 :: b ++ k) u) = Ok (VOther (a ++ 46 :: b)) (mkst k u').
Proof.
  intros HI Ha Hb Fa Fb Hk. unfold versionDigits. rewrite span_exact; [|now rewrite digits_rfc|reflexivity]. destruct a as [|x a]; [congruence|]. change (46 =? 46) with true. cbn [negb].
  rewrite <- digits_rfc in Fb. destruct (rt_fromPos e DIGIT ((x :: a) ++ [46]) b k u HI Fb) as [u' E]; [destruct a; discriminate|now apply stops_digits|].
  rewrite <- !app_assoc in E. cbn [app] in E. cbn [app]. rewrite (bind_ok _ _ _ _ _ _ E). rewrite onRest_eq. exists u'.
  destruct (Nat.leb_spec (List.length (b ++ k)) (List.length k)) as [X|_]; [|reflexivity]. rewrite app_length in X. destruct b; [congruence|]. cbn in X. lia.
Qed.
Lemma rt_versionAfter e v k u : infinite e -> wfVersion v -> stops rfcDIGIT k = true -> exists u', parseVersionAfter e (mkst (skipn 4 (encVersion v) ++ k) u) = Ok v (mkst k u').
Proof.
  intros HI W Hk. unfold parseVersionAfter. rewrite onRest_eq. destruct v as [|t]; cbn [encVersion].
  - change (skipn 4 (s2b "SIP/2.0") ++ k) with (50 :: 46 :: 48 :: k). change (50 =? 50) with true. change (46 =? 46) with true. change (48 =? 48) with true. cbv iota.
    destruct k as [|d k]; [eexists; reflexivity|]. apply stops_digits in Hk. cbn in Hk. change (inset DIGIT d) with (IsDigit d) in Hk. rewrite Hk. eexists. reflexivity.
  - change (skipn 4 (s2b "SIP/" ++ t)) with t. destruct W as (N20 & a & b & -> & Ha & Hb & Fa & Fb). rewrite <- app_assoc. cbn [app].
    destruct (rt_versionDigits e a b k u HI Ha Hb Fa Fb Hk) as [u' E]. exists u'. rewrite <- E. clear E.
    destruct a as [|x a]; [congruence|]. cbn [app]. destruct (x =? 50) eqn:Ex; [|reflexivity]. apply N.eqb_eq in Ex. subst x.
    destruct a as [|y a]; cbn [app].
    + change (46 =? 46) with true. cbv iota. destruct b as [|c b]; [congruence|]. cbn [app]. destruct (N.eqb_spec c 48) as [->|_]; [|reflexivity]. destruct b as [|d b]; cbn [app]; [exfalso; apply N20; reflexivity|].
      assert (D : IsDigit d = true). { rewrite <- digits_rfc in Fb. cbn in Fb. apply andb_prop in Fb as [_ Fb]. apply andb_prop in Fb as [Fb _]. exact Fb. }
      rewrite D. reflexivity.
    + assert (Y : y <> 46) by (intros ->; cbn in Fa; discriminate). rewrite (proj2 (N.eqb_neq y 46) Y). reflexivity.
Qed.
Lemma version_text v : wfVersion v -> exists x y z q, encVersion v = [83; 73; 80; 47] ++ x :: y :: z :: q.
Proof.
  destruct v as [|t]; [intros _; eexists _, _, _, _; reflexivity|]. intros (_ & a & b & -> & Ha & Hb & _). destruct a as [|x a]; [congruence|]. destruct b as [|y b]; [congruence|]. cbn [encVersion app].
  destruct a as [|a0 [|a1 a]]; eexists _, _, _, _; reflexivity.
Qed.
Lemma versionStart_text v k : wfVersion v -> versionStart (encVersion v ++ k) = Some (skipn 4 (encVersion v) ++ k).
Proof. intros W. destruct (version_text v W) as (x & y & z & q & ->). reflexivity. Qed.
Lemma rt_version e v k u : infinite e -> wfVersion v -> stops rfcDIGIT k = true -> exists u', parseVersion e (mkst (encVersion v ++ k) u) = Ok v (mkst k u').
Proof.
  intros HI W Hk. unfold parseVersion. rewrite onRest_eq, versionStart_text by exact W. rewrite goto_bind. cbn [used]. now apply rt_versionAfter.
Qed.
Lemma rt_CRLF e k u : pCRLF e (mkst (13 :: 10 :: k) u) = Ok tt (mkst k u).
Proof. unfold pCRLF, ParseCRLF, liftB. cbn [Base.rest]. reflexivity. Qed.
Lemma reason_class : inset SIP_REASON_PHRASE 37 = false /\ inset SIP_REASON_PHRASE 13 = false. Proof. split; reflexivity. Qed.
Lemma escape_none cs b : forallb (inset cs) b = true -> escape cs b = b.
Proof. unfold escape. induction b as [|x b IH]; [reflexivity|]. cbn. intros H. apply andb_prop in H as [Hx Hb]. rewrite Hx. cbn [app]. f_equal. exact (IH Hb). Qed.
Lemma reason_plain b : allBytes b -> forallb (fun b => rfcReason b && negb (b =? 9))%bool b = true -> forallb (inset SIP_REASON_PHRASE) b = true.
Proof.
  intros Hb. induction Hb as [|x b Hx Hb IH]; [reflexivity|]. cbn [forallb]. intros H. apply andb_prop in H as [H1 H2]. rewrite IH by exact H2. rewrite andb_true_r.
  assert (S0 : forallb (fun x => implb (rfcReason x && negb (x =? 9)) (inset SIP_REASON_PHRASE x)) all256 = true) by (vm_compute; reflexivity).
  pose proof (sweep _ S0 x Hx) as Y. cbv beta in Y. rewrite H1 in Y. exact Y.
Qed.
Lemma rt_statusLine e v c t k u : infinite e -> wfVersion v -> c < 65536 -> allBytes t ->
  exists u', parseStatusLine e (mkst (skipn 4 (encVersion v) ++ 32 :: encUInt c ++ 32 :: escape SIP_REASON_PHRASE t ++ 13 :: 10 :: k) u) = Ok (SStatus v c t) (mkst k u').
Proof.
  intros HI W Hc Ht. unfold parseStatusLine. destruct (rt_versionAfter e v (32 :: encUInt c ++ 32 :: escape SIP_REASON_PHRASE t ++ 13 :: 10 :: k) u HI W eq_refl) as [u1 E1].
  rewrite (bind_ok _ _ _ _ _ _ E1), (bind_ok _ _ _ _ _ _ (rt_expect e 32 _ u1)).
  assert (E2 : pUIntW 65536 e (mkst (encUInt c ++ 32 :: escape SIP_REASON_PHRASE t ++ 13 :: 10 :: k) u1) = Ok c (mkst (32 :: escape SIP_REASON_PHRASE t ++ 13 :: 10 :: k) u1)).
  { unfold pUIntW. assert (B : c < two64) by (unfold two64; lia). rewrite (bind_ok _ _ _ _ _ _ (rt_uint e c (32 :: escape SIP_REASON_PHRASE t ++ 13 :: 10 :: k) u1 B eq_refl)). unfold ret. now rewrite N.mod_small. }
  rewrite (bind_ok _ _ _ _ _ _ E2), (bind_ok _ _ _ _ _ _ (rt_expect e 32 _ u1)).
  rewrite (bind_ok _ _ _ _ _ _ (rt_escapableEmpty e SIP_REASON_PHRASE t (13 :: 10 :: k) u1 HI eq_refl Ht ltac:(split; [reflexivity|discriminate]))).
  rewrite (bind_ok _ _ _ _ _ _ (rt_CRLF e k _)). eexists. reflexivity.
Qed.
Lemma method_text m : wfMethod m -> wfToken (encMethod m).
Proof.
  destruct m as [i|t]; [|intros [H _]; exact H]. intros [name H]. cbn [encMethod]. rewrite (methodTable_spec _ _ H).
  assert (F : forallb (fun q => negb (beq (fst q) []) && forallb rfcToken (fst q))%bool methodNames = true) by (vm_compute; reflexivity). rewrite forallb_forall in F. apply F in H. cbn [fst] in H. apply andb_prop in H as [H1 H2].
  split; [intros E; rewrite E in H1; discriminate|exact H2].
Qed.
Lemma method_not_version t r : wfToken t -> versionStart (t ++ 32 :: r) = None.
Proof.
  intros [Hne Hf]. unfold versionStart. assert (S47 : forall x, rfcToken x = true -> x <> 47) by (intros x H ->; discriminate).
  destruct t as [|a [|b [|c [|d t]]]]; cbn [app]; [congruence| | | |]; cbn [forallb] in Hf; rewrite ?andb_true_iff in Hf.
  - destruct r as [|? [|? [|? [|? [|? ?]]]]]; try reflexivity. change (lc 32 105) with false. rewrite !andb_false_r. reflexivity.
  - destruct r as [|? [|? [|? [|? ?]]]]; try reflexivity. change (lc 32 112) with false. rewrite !andb_false_r. reflexivity.
  - destruct r as [|? [|? [|? ?]]]; try reflexivity. change (32 =? 47) with false. rewrite !andb_false_r. reflexivity.
  - assert (D : d <> 47) by (apply S47; tauto). rewrite (proj2 (N.eqb_neq d 47) D), !andb_false_r. destruct (t ++ 32 :: r) as [|? [|? [|? ?]]]; reflexivity.
Qed.
Lemma rt_startLine e l k u : infinite e -> eUriNoEscape e = false -> wfStartLine e l ->
  exists u', parseStartLine e (mkst (encStartLine e l ++ k) u) = Ok l (mkst k u').
Proof.
  intros HI He W. unfold parseStartLine. rewrite onRest_eq. destruct l as [m a v|v c t]; cbv beta iota delta [encStartLine]; cbn [wfStartLine] in W.
  - destruct W as (Wm & Wv & x & -> & Wx). cbn [encAddrSpec aUri].
    replace (((encMethod m ++ 32 :: encSipUri e x ++ 32 :: encVersion v) ++ CRLF) ++ k) with (encMethod m ++ 32 :: encSipUri e x ++ 32 :: encVersion v ++ 13 :: 10 :: k)
      by (repeat (rewrite <- ?app_assoc; cbn [app]); reflexivity).
    rewrite method_not_version by (apply method_text, Wm). unfold parseRequestLine.
    destruct (rt_method e m (32 :: encSipUri e x ++ 32 :: encVersion v ++ 13 :: 10 :: k) u HI Wm ltac:(discriminate) eq_refl) as [u1 E1].
    rewrite (bind_ok _ _ _ _ _ _ E1), (bind_ok _ _ _ _ _ _ (rt_expect e 32 _ u1)).
    destruct (rt_addrSpec e (ASip x) (32 :: encVersion v ++ 13 :: 10 :: k) u1 HI He Wx) as [u2 E2].
    { split; [split; [reflexivity|split; reflexivity]|]. split; [|discriminate]. intros _. eexists [], _. split; [reflexivity|]. split; [constructor|]. right. eexists _, _. split; [reflexivity|]. right. reflexivity. }
    cbn [encAUri] in E2. rewrite (bind_ok _ _ _ _ _ _ E2), (bind_ok _ _ _ _ _ _ (rt_expect e 32 _ u2)).
    destruct (rt_version e v (13 :: 10 :: k) u2 HI Wv eq_refl) as [u3 E3]. rewrite (bind_ok _ _ _ _ _ _ E3), (bind_ok _ _ _ _ _ _ (rt_CRLF e k u3)). eexists. reflexivity.
  - destruct W as (Wv & Hc & Ht & Hr).
    match goal with |- context [versionStart ?x] => assert (X : x = encVersion v ++ 32 :: encUInt c ++ 32 :: escape SIP_REASON_PHRASE t ++ 13 :: 10 :: k) end.
    { destruct (eReasonNoEscape e); [rewrite (escape_none SIP_REASON_PHRASE t) by (apply reason_plain; auto)|]; repeat (rewrite <- ?app_assoc; cbn [app]); reflexivity. }
    rewrite X. rewrite versionStart_text by exact Wv. rewrite goto_bind. cbn [used]. now apply rt_statusLine.
Qed.
Lemma encStartLine_mem m e l : encStartLine (withMem m e) l = encStartLine e l.
Proof. destruct l as [? a ?|]; unfold encStartLine; [|reflexivity]. unfold encAddrSpec. destruct (aUri a); [now rewrite encSipUri_mem|reflexivity]. Qed.
