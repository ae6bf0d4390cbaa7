From Verif Require Import Base Charset CharsetSpec CharsetProofs BaseLemmas Num NumSpec NumProofs Lws LwsSpec LwsProofs Str StrSpec StrProofs Monad Good Rt Seq GoodAuto Inv
  Host HostSpec HostProofs Uri UriSpec UriGood UriProofs Tel TelSpec TelProofs GenParam GenParamSpec GenParamProofs Addr AddrSpec.

(** ** Well-behavedness *)
Lemma gd_other K e s : 1 <= K -> goodAt K 3 otherScheme e s.
Proof. intros. unfold otherScheme. good. Qed.
#[export] Hint Resolve gd_other : good.
Lemma gd_scheme K e s : 1 <= K -> goodAt K 3 parseScheme e s.
Proof. intros. unfold parseScheme. good. Qed.
#[export] Hint Resolve gd_scheme : good.
Lemma gd_spec K ps sch e s : 25 <= K -> goodAt K 76 (parseSpec ps sch) e s.
Proof.
  intros HK. unfold parseSpec. destruct sch; [| | |good..].
  - good1. destruct ps; (eapply goodAt_bind; [eapply goodAt_tail; [first [apply gd_uriAfterScheme|apply gd_uriNoParam]; lia|apply N.le_refl]|lia|intros; good]).
  - good1. destruct ps; (eapply goodAt_bind; [eapply goodAt_tail; [first [apply gd_uriAfterScheme|apply gd_uriNoParam]; lia|apply N.le_refl]|lia|intros; good]).
  - good1. destruct ps; (eapply goodAt_bind; [eapply goodAt_tail; [first [apply gd_telAfterScheme|apply gd_telNoParam]; lia|apply N.le_refl]|lia|intros; good]).
Qed.
#[export] Hint Resolve gd_spec : good.
(** Storing what a parser without allocations consumed. *)
Lemma goodAt_storeSince {A} K C (p : P A) e s : 1 <= K -> 2 <= C -> (forall K, goodAt K 0 p e s) ->
  (forall m a s', p (withMem m e) s = Ok a s' -> used s' = used s) -> goodAt K C (bind p (fun _ => storeSince (rest s))) e s.
Proof.
  intros HK HC G U. destruct (G K) as [G1 G2 G3]. unfold bind, storeSince, onRest, allocCString.
  assert (L : forall r1, suffix r1 (rest s) -> len (firstn (List.length (rest s) - List.length r1) (rest s)) + len r1 = len (rest s)).
  { intros r1 [q E]. rewrite E, firstn_pre, len_app. reflexivity. }
  split.
  - intros m. specialize (G1 m). destruct (p (withMem m e) s) as [a s'|s'| |]; try exact G1. destruct (leMem _ _); cbn [rest used]; (split; [apply G1|lia]).
  - specialize (G1 None). destruct (p (withMem None e) s) as [a s'|s'| |] eqn:E; try nia; try assumption. unfold leMem. cbn [memend withMem rest used]. destruct G1 as [S1 _]. apply L in S1. apply U in E. nia.
  - intros m Hm. specialize (G1 None). rewrite G3 by lia. destruct (p (withMem None e) s) as [a s'|s'| |] eqn:E; try reflexivity. destruct G1 as [S1 _]. apply L in S1. apply U in E. rewrite leMem_enough by nia. reflexivity.
Qed.
Lemma tok_progresses : progresses tokensBody.
Proof.
  intros [] e s [] s' E. unfold tokensBody, onRest in E. destruct (rest s) as [|x r] eqn:R; [discriminate|]. destruct (IsSipToken x) eqn:Ex; cbn [negb] in E; [|discriminate].
  pose proof (ParseLWS_suffix (snd (span (inset SIP_TOKEN) (x :: r)))) as S1. destruct (ParseLWS _) as [r1 []]; [|discriminate]. injection E as <-. cbn [rest fst] in *.
  cbn [span] in S1. unfold IsSipToken in Ex. rewrite Ex in S1. destruct (span (inset SIP_TOKEN) r) as [a b] eqn:Es. cbn [snd] in S1. apply suffix_length in S1. apply span_app in Es. rewrite Es. cbn. rewrite app_length. lia.
Qed.
Lemma gd_tokensBody K a e s : goodAt K 0 (tokensBody a) e s.
Proof.
  unfold tokensBody. good1. destruct rest as [|x r]; [good|]. destruct (negb _); [good|]. pose proof (ParseLWS_suffix (snd (span (inset SIP_TOKEN) (x :: r)))) as S1.
  destruct (ParseLWS _) as [r1 []]; [|good]. apply goodAt_goto_bind; [|good]. cbn [fst Base.rest] in *. eapply suffix_trans; [exact S1|apply suffix_span].
Qed.
Lemma iterP_keeps {A B} (body : A -> P (A + B)) e : (forall a s x s', body a e s = Ok x s' -> used s' = used s) ->
  forall f a s b s', iterP f body a e s = Ok b s' -> used s' = used s.
Proof.
  intros H. induction f as [|f IH]; intros a s b s' E; [discriminate|]. cbn [iterP] in E. apply bind_inv in E as (x & s1 & E1 & E2). apply H in E1. destruct x as [a'|b']; [apply IH in E2; congruence|]. injection E2 as _ <-. exact E1.
Qed.
Lemma tokensBody_used a e s x s' : tokensBody a e s = Ok x s' -> used s' = used s.
Proof.
  unfold tokensBody, onRest. destruct (rest s) as [|y r]; [intros [= _ <-]; reflexivity|]. destruct (negb _); [intros [= _ <-]; reflexivity|]. destruct (ParseLWS _) as [r1 []]; [|discriminate]. intros [= _ <-]. reflexivity.
Qed.
Lemma gd_tokens K e s : 1 <= K -> goodAt K 2 parseTokens e s.
Proof.
  intros HK. unfold parseTokens. apply goodAt_onRest. apply goodAt_storeSince; [lia|lia| |].
  - intros K0. apply (goodAt_loopP 0 0); [apply tok_progresses|lia|lia|]. intros. apply gd_tokensBody.
  - intros m a s' E. unfold loopP in E. revert E. apply iterP_keeps. intros a0 s0 x s1. apply tokensBody_used.
Qed.
#[export] Hint Resolve gd_tokens : good.
Lemma gd_displayName K e s : 1 <= K -> goodAt K 3 parseDisplayName e s.
Proof. intros. unfold parseDisplayName. good. Qed.
#[export] Hint Resolve gd_displayName : good.
Lemma gd_nameHead K e s : 1 <= K -> goodAt K 3 (onRest (fun r => match r with
    | [] => pfail
    | x :: r1 => if negb (x =? 60) then n <- parseDisplayName ;; pLeftAngleQuote ;;; ret (Some n) else goto r1 ;;; ret None
    end)) e s.
Proof. intros. good. Qed.
#[export] Hint Resolve gd_nameHead : good.
Lemma gd_nameAddr K e s : 25 <= K -> goodAt K 82 parseNameAddr e s.
Proof. intros. unfold parseNameAddr. good. Qed.
#[export] Hint Resolve gd_nameAddr : good.

(** Restoring the position after a failure that may have left up to [D + L] bytes allocated, when the alternative consumes at least [L] bytes. *)
Lemma goodAt_orRestore_leak {A} K C Kq Cq D L (p q : P A) e s : goodAt K C p e s -> (forall u, goodAt Kq Cq q e (mkst (rest s) u)) ->
  Kq + 1 <= K -> Cq + D <= C -> L <= len (rest s) ->
  (forall m s', p (withMem m e) s = Fail s' -> used s' <= used s + D + L) ->
  (forall m u a s', q (withMem m e) (mkst (rest s) u) = Ok a s' -> L + len (rest s') <= len (rest s)) ->
  goodAt K C (orRestore p q) e s.
Proof.
  intros [G1 G2 G3] H HK HC HL F R. unfold orRestore. split.
  - intros m. specialize (G1 m). destruct (p (withMem m e) s) as [a s'|s'| |] eqn:E; try exact G1. destruct (H (used s')) as [H1 _ _]. specialize (H1 m). cbn [rest used] in H1. destruct G1 as [_ U].
    destruct (q (withMem m e) (mkst (rest s) (used s'))); try exact H1; (split; [apply H1|lia]).
  - destruct (p (withMem None e) s) as [a s'|s'| |] eqn:E; try exact G2. destruct (H (used s')) as [_ H2 _]. cbn [rest used] in H2. apply F in E. specialize (R None (used s')).
    destruct (q (withMem None e) (mkst (rest s) (used s'))) as [a s2|s2| |] eqn:E2; [|nia|exact H2|exact I]. specialize (R _ _ eq_refl). nia.
  - intros m Hm. rewrite (G3 m Hm). destruct (p (withMem None e) s) as [a s'|s'| |] eqn:E; try reflexivity. destruct (H (used s')) as [_ _ H3]. cbn [rest used] in H3. apply F in E. apply H3. nia.
Qed.
(** The bytes of the scheme run at the front. *)
Definition schemeRun (r : bytes) : N := match r with x :: _ => if IsAlpha x then len (fst (span (inset URI_SCHEME) r)) else 0 | [] => 0 end.
Lemma schemeRun_le r : schemeRun r <= len r.
Proof.
  unfold schemeRun. destruct r as [|x r]; [unfold len; cbn; lia|]. destruct (IsAlpha x); [|lia]. pose proof (span_len (inset URI_SCHEME) (x :: r)). lia.
Qed.
Lemma other_fail e s s' : otherScheme e s = Fail s' -> used s' <= used s + 2 + schemeRun (rest s).
Proof.
  unfold otherScheme, onRest, schemeRun. destruct (rest s) as [|x r] eqn:R; [intros [= <-]; lia|]. destruct (IsAlpha x); [|intros [= <-]; lia]. unfold bind, paCString. rewrite R.
  destruct (negb _); [intros [= <-]; lia|]. destruct (span (inset URI_SCHEME) (x :: r)) as [tok r1]. cbn [fst]. destruct (negb (fits _ _ _)); [discriminate|]. destruct tok as [|y tok]; [intros [= <-]; lia|].
  destruct (negb _); [intros [= <-]; lia|]. cbn [rest]. destruct r1 as [|z r2]; [intros [= <-]; cbn [used]; lia|]. destruct (negb _); [intros [= <-]; cbn [used]; lia|discriminate].
Qed.
Lemma scheme_fail e s s' : parseScheme e s = Fail s' -> used s' <= used s + 2 + schemeRun (rest s).
Proof.
  unfold parseScheme, onRest. pose proof (other_fail e s s') as O. destruct (rest s) as [|a [|b [|c [|d r]]]]; try exact O. destruct (_ && (d =? 58))%bool; [discriminate|].
  destruct (_ && lc d 115)%bool. { destruct r as [|x r]; [intros [= <-]; cbn [used]; lia|]. destruct (x =? 58); [discriminate|exact O]. }
  destruct (_ && (d =? 58))%bool; [discriminate|]. destruct (_ && (d =? 58))%bool; [discriminate|exact O].
Qed.
Lemma iterP_step {A B} f (body : A -> P (A + B)) a e s : iterP (S f) body a e s = match body a e s with Ok (inl a') s' => iterP f body a' e s' | Ok (inr b) s' => Ok b s' | Fail s' => Fail s' | Panic => Panic | Loop => Loop end.
Proof. cbn [iterP]. unfold bind. destruct (body a e s) as [[?|?] ?|?| |]; reflexivity. Qed.
Lemma storeSince_inv r0 e s b s' : storeSince r0 e s = Ok b s' -> rest s' = rest s.
Proof. unfold storeSince, onRest, allocCString. destruct (leMem _ _); [|discriminate]. intros [= _ <-]. reflexivity. Qed.
Lemma tokens_eat e s n s' : parseTokens e s = Ok n s' -> len (fst (span (inset SIP_TOKEN) (rest s))) + len (rest s') <= len (rest s).
Proof.
  unfold parseTokens, onRest. intros E. apply bind_inv in E as (? & s1 & E1 & E2). apply storeSince_inv in E2. rewrite E2. clear E2.
  rewrite loopP_unfold in E1 by apply tok_progresses. unfold tokensBody at 1 in E1. unfold onRest in E1. pose proof (span_len (inset SIP_TOKEN) (rest s)) as SL. destruct (rest s) as [|z r] eqn:R.
  - injection E1 as _ <-. rewrite R. cbn. lia.
  - destruct (IsSipToken z) eqn:Ex; cbn [negb] in E1.
    + pose proof (ParseLWS_suffix (snd (span (inset SIP_TOKEN) (z :: r)))) as S1. destruct (ParseLWS _) as [r1 []]; [|discriminate]. cbv beta iota delta [bind goto ret] in E1. cbn [fst] in S1.
      assert (G : goodAt 0 0 (loopP tokensBody tt) e (mkst r1 (used s))) by (apply (goodAt_loopP 0 0); [apply tok_progresses|lia|lia|intros; apply gd_tokensBody]).
      apply (good_suffix _ _ _ _ _ _ _ G) in E1 as [E1 _]. cbn [rest] in E1. apply suffix_len in S1, E1. lia.
    + injection E1 as _ <-. rewrite R. cbn [span]. unfold IsSipToken in Ex. rewrite Ex. cbn. lia.
Qed.
Lemma scheme_token x : inset URI_SCHEME x = true -> inset SIP_TOKEN x = true.
Proof. apply inset_sweep. vm_compute. reflexivity. Qed.
Lemma alpha_scheme x : IsAlpha x = true -> inset URI_SCHEME x = true /\ IsLwsChar x = false /\ x <> 60.
Proof.
  intros H. assert (Q : forall b, inset ALPHA b = true -> (inset URI_SCHEME b && negb (IsLwsChar b) && negb (b =? 60))%bool = true) by (apply inset_sweep; vm_compute; reflexivity).
  apply Q in H. apply andb_prop in H as [H H3]. apply andb_prop in H as [H1 H2]. split; [exact H1|]. split; [now apply negb_true_iff|]. intros ->. discriminate.
Qed.
Lemma span_sub (f g : N -> bool) r : (forall x, f x = true -> g x = true) -> len (fst (span f r)) <= len (fst (span g r)).
Proof.
  intros H. induction r as [|x r IH]; [reflexivity|]. cbn [span]. destruct (f x) eqn:E.
  - rewrite (H _ E). destruct (span f r), (span g r). cbn [fst] in *. rewrite !len_cons. lia.
  - unfold len. cbn. lia.
Qed.
Lemma nameAddr_eat e s a s' : parseNameAddr e s = Ok a s' -> schemeRun (rest s) + len (rest s') <= len (rest s).
Proof.
  intros E. unfold parseNameAddr in E. unfold schemeRun. destruct (rest s) as [|x r] eqn:R.
  - apply bind_inv in E as (? & s1 & E1 & E). injection E1 as _ <-. rewrite R in E. apply bind_inv in E as (? & ? & E1 & E). unfold onRest in E1. cbn in E1. discriminate.
  - destruct (IsAlpha x) eqn:Ex.
    + destruct (alpha_scheme x Ex) as (X1 & X2 & X3). apply bind_inv in E as (? & s1 & E1 & E). injection E1 as _ <-. rewrite R in E. rewrite ParseSWS_noop in E by (cbn; now rewrite X2).
      apply bind_inv in E as (n & s2 & E1 & E). unfold onRest in E1. cbn [rest] in E1. rewrite (proj2 (N.eqb_neq x 60) X3) in E1. cbn [negb] in E1.
      apply bind_inv in E1 as (d & s3 & E1 & E2). unfold parseDisplayName, onRest in E1. cbn [rest] in E1. unfold IsSipToken in E1. rewrite (scheme_token _ X1) in E1. apply bind_inv in E1 as (d0 & s4 & E1 & E3).
      injection E3 as _ <-. apply tokens_eat in E1. cbn [rest] in E1.
      assert (S2 : suffix (rest s2) (rest s4)). { apply bind_inv in E2 as (? & s5 & E2 & E3). injection E3 as _ <-. apply (good_suffix 0 0) in E2 as [E2 _]; [exact E2|apply gd_LAQ]. }
      assert (S3 : suffix (rest s') (rest s2)).
      { eapply (good_suffix 25 79 (s0 <- parseScheme;; u <- parseSpec true s0;; pRightAngleQuote;;; ret (mkaddr true n u))); [|exact E]. good. }
      apply suffix_len in S2, S3. pose proof (span_sub (inset URI_SCHEME) (inset SIP_TOKEN) (x :: r) scheme_token). lia.
    + assert (S3 : suffix (rest s') (rest s)) by (eapply (good_suffix 25 82 parseNameAddr); [apply gd_nameAddr; lia|exact E]). apply suffix_len in S3. rewrite R in S3. lia.
Qed.
Lemma gd_addr K ps e s : 26 <= K -> goodAt K 162 (parseAddr ps) e s.
Proof.
  intros HK. unfold parseAddr. destruct s as [r u]. apply goodAt_onRest. cbn [rest]. destruct r as [|x r]; [good|]. destruct (_ || _)%bool; [good|].
  apply (goodAt_bind K 162 86); [|lia|].
  - apply (goodAt_orRestore_leak K 86 25 82 2 (schemeRun (x :: r))); cbn [rest used]; try lia.
    + good.
    + intros u1. good.
    + apply schemeRun_le.
    + intros m s' E. unfold bind in E. destruct (parseScheme (withMem m e) (mkst (x :: r) u)) eqn:E1; try discriminate. injection E as <-. apply scheme_fail in E1. exact E1.
    + intros m u1 a s' E. apply bind_inv in E as (a0 & s1 & E1 & E2). injection E2 as _ <-. apply nameAddr_eat in E1. exact E1.
  - intros [sch|a] s' m _; [|good]. good.
Qed.
Lemma gd_addrSpec K e s : 25 <= K -> goodAt K 79 parseAddrSpec e s.
Proof. intros. unfold parseAddrSpec. good. Qed.
#[export] Hint Resolve gd_addr gd_addrSpec : good.

(** ** Exact reading *)
Lemma rt_scheme_sip e k u : parseScheme e (mkst (s2b "sip:" ++ k) u) = Ok USip (mkst k u). Proof. reflexivity. Qed.
Lemma rt_scheme_sips e k u : parseScheme e (mkst (s2b "sips:" ++ k) u) = Ok USips (mkst k u). Proof. reflexivity. Qed.
Lemma rt_scheme_tel e k u : parseScheme e (mkst (s2b "tel:" ++ k) u) = Ok UTel (mkst k u). Proof. reflexivity. Qed.

Lemma phoneHex_stops k : stops (fun b => rfcHEXDIG b || rfcVisualSep b)%bool k = true -> stops (inset TEL_PHONE_DIGIT_HEX) k = true /\ stops (inset TEL_PHONE_DIGIT) k = true.
Proof.
  intros H. assert (X : stops (inset TEL_PHONE_DIGIT_HEX) k = true).
  { destruct k as [|x k]; [reflexivity|]. cbn in *. rewrite phonehex_rfc. exact H. }
  split; [exact X|]. destruct k as [|x k]; [reflexivity|]. cbn in *. destruct (inset TEL_PHONE_DIGIT x) eqn:E; [|reflexivity]. apply phone_hex in E. now rewrite E in X.
Qed.
Lemma rt_uriNoParam e x k u : infinite e -> eUriNoEscape e = false -> wfSipUri e x -> bareUri (ASip x) -> bareEnds (ASip x) k ->
  exists u', parseUriAfterSchemeNoParam (uSecure x) e (mkst (skipn (if uSecure x then 5 else 4) (encSipUri e x) ++ k) u) = Ok x (mkst k u').
Proof.
  intros HI He (Wu & Wp & Wh & _) (B1 & B2 & B3) (Hk & Hat).
  replace (skipn (if uSecure x then 5 else 4) (encSipUri e x)) with
    (match uUser x with
     | Some n => escUri e SIP_USER n ++ match uPass x with Some p => 58 :: escUri e SIP_PASSWORD p | None => [] end ++ [64]
     | None => [] end ++ encHostPort e (uHost x)).
  2:{ unfold encSipUri. rewrite B1, B2, B3. cbn [encUriKnown encKnown encUriParams flat_map app]. rewrite app_nil_r. destruct (uSecure x); reflexivity. }
  rewrite <- app_assoc. unfold parseUriAfterSchemeNoParam.
  destruct (rt_userinfo e (uUser x) (uPass x) (encHostPort e (uHost x) ++ k) u HI He Wu Wp) as [u1 E1].
  { intros X. rewrite findUserinfo_app; auto using encHostPort_pass. apply findUserinfo_noAt, Hat, X. }
  rewrite (bind_ok _ _ _ _ _ _ E1). destruct (rt_hostport e (uHost x) HI Wh k u1 Hk) as [u2 E2]. rewrite (bind_ok _ _ _ _ _ _ E2). cbn [fst snd]. exists u2. unfold ret. f_equal. destruct x; cbn in *; congruence.
Qed.
Lemma rt_telNoParam e t k u : infinite e -> wfTelUri e t -> bareUri (ATel t) -> stops (fun b => rfcHEXDIG b || rfcVisualSep b)%bool k = true ->
  exists u', parseTelAfterSchemeNoParam e (mkst (skipn 4 (encTelUri e t) ++ k) u) = Ok t (mkst k u').
Proof.
  intros HI (Wn & Wc & _) (B1 & B2 & B3) Hk. apply phoneHex_stops in Hk as [K1 K2]. unfold encTelUri. rewrite B1, B2, B3. change (skipn 4 (s2b "tel:" ++ ?x)) with x.
  assert (X : tDomain t = false) by (unfold wfTelContext in Wc; rewrite B1 in Wc; exact Wc).
  replace ((tNumber t ++ _ ++ _ ++ _) ++ k) with (tNumber t ++ k).
  2:{ rewrite <- app_assoc. f_equal. destruct (tGlobal t); reflexivity. }
  unfold parseTelAfterSchemeNoParam. destruct (rt_telNumber0 e _ _ k u HI Wn K1 K2) as [u1 E1]. rewrite (bind_ok _ _ _ _ _ _ E1). cbn [fst snd]. exists u1. unfold ret. f_equal. destruct t; cbn in *; congruence.
Qed.
Definition schemeOf (u : auri) : uscheme := match u with ASip x => if uSecure x then USips else USip | ATel _ => UTel end.
Lemma rt_auriScheme e a k u : exists q, encAUri e a = (match schemeOf a with USip => s2b "sip:" | USips => s2b "sips:" | _ => s2b "tel:" end) ++ q /\
  parseScheme e (mkst (encAUri e a ++ k) u) = Ok (schemeOf a) (mkst (q ++ k) u) /\
  q = match a with ASip x => skipn (if uSecure x then 5 else 4) (encSipUri e x) | ATel t => skipn 4 (encTelUri e t) end.
Proof.
  destruct a as [x|t]; cbn [encAUri schemeOf].
  - unfold encSipUri. destruct (uSecure x); (eexists; split; [reflexivity|]); (split; [rewrite <- app_assoc; apply rt_scheme_sips || apply rt_scheme_sip|reflexivity]).
  - unfold encTelUri. eexists; split; [reflexivity|]. split; [rewrite <- app_assoc; apply rt_scheme_tel|reflexivity].
Qed.
Lemma rt_spec e ps a k u : infinite e -> eUriNoEscape e = false -> wfAUri e a -> (ps = true /\ specEnds a k \/ ps = false /\ bareUri a /\ bareEnds a k) ->
  exists u', parseSpec ps (schemeOf a) e (mkst (match a with ASip x => skipn (if uSecure x then 5 else 4) (encSipUri e x) | ATel t => skipn 4 (encTelUri e t) end ++ k) u) = Ok a (mkst k u').
Proof.
  intros HI He W H. destruct a as [x|t]; cbn [schemeOf wfAUri specEnds bareEnds] in *.
  - assert (X : exists u', (u0 <- (if ps then parseUriAfterScheme (uSecure x) else parseUriAfterSchemeNoParam (uSecure x));; ret (ASip u0)) e (mkst (skipn (if uSecure x then 5 else 4) (encSipUri e x) ++ k) (u + 18)) = Ok (ASip x) (mkst k u')).
    { destruct H as [[-> H]|(-> & B & H)].
      - destruct (rt_uriAfterScheme e x k (u + 18) HI He W H) as [u1 E]. rewrite (bind_ok _ _ _ _ _ _ E). eexists. reflexivity.
      - destruct (rt_uriNoParam e x k (u + 18) HI He W B H) as [u1 E]. rewrite (bind_ok _ _ _ _ _ _ E). eexists. reflexivity. }
    destruct X as [u1 X]. exists u1. rewrite <- X. destruct (uSecure x); cbn [parseSpec]; rewrite (bind_ok _ _ _ _ _ _ (rt_alloc e 18 _ u HI)); reflexivity.
  - cbn [parseSpec]. rewrite (bind_ok _ _ _ _ _ _ (rt_alloc e 10 _ u HI)). destruct H as [[-> H]|(-> & B & H)].
    + destruct (rt_telAfterScheme e t k (u + 10) HI He W H) as [u1 E]. rewrite (bind_ok _ _ _ _ _ _ E). eexists. reflexivity.
    + destruct (rt_telNoParam e t k (u + 10) HI W B H) as [u1 E]. rewrite (bind_ok _ _ _ _ _ _ E). eexists. reflexivity.
Qed.
Lemma rt_addrSpec0 e ps a k u : infinite e -> eUriNoEscape e = false -> wfAUri e a -> (ps = true /\ specEnds a k \/ ps = false /\ bareUri a /\ bareEnds a k) ->
  exists u', (s <- parseScheme ;; u0 <- parseSpec ps s ;; ret u0) e (mkst (encAUri e a ++ k) u) = Ok a (mkst k u').
Proof.
  intros HI He W H. destruct (rt_auriScheme e a k u) as (q & _ & E1 & Eq). rewrite (bind_ok _ _ _ _ _ _ E1). subst q. destruct (rt_spec e ps a k u HI He W H) as [u1 E2]. rewrite (bind_ok _ _ _ _ _ _ E2). eexists. reflexivity.
Qed.
(** Unquoted display names. *)
Lemma token_nlws x : rfcToken x = true -> isWsp x = false /\ x <> 13 /\ x <> 10 /\ x <> 60 /\ x <> 34 /\ x <> 58.
Proof.
  rewrite <- token_rfc. intros H. assert (Q : forall b, inset SIP_TOKEN b = true -> (negb (isWsp b) && negb (b =? 13) && negb (b =? 10) && negb (b =? 60) && negb (b =? 34) && negb (b =? 58))%bool = true) by (apply inset_sweep; vm_compute; reflexivity).
  apply Q in H. rewrite !andb_true_iff, !negb_true_iff, !N.eqb_neq in H. tauto.
Qed.
Lemma LWS_head w : LWS w -> exists x t, w = x :: t /\ rfcToken x = false.
Proof.
  assert (Z : forall w, w <> [] -> Forall wsp w -> exists x t, w = x :: t /\ rfcToken x = false).
  { intros v Hne Hf. destruct v as [|x v]; [congruence|]. exists x, v. split; [reflexivity|]. inversion Hf as [|? ? [->| ->] _]; reflexivity. }
  intros [w0 Hne Hf|w1 w2 H1 H2 H3]; [auto|]. destruct w1 as [|x w1]; [exists 13, (10 :: w2); split; reflexivity|].
  destruct (Z (x :: w1) ltac:(discriminate) H1) as (y & t & [= <- <-] & Hy). exists x, (w1 ++ 13 :: 10 :: w2). split; [reflexivity|exact Hy].
Qed.
Lemma rt_LWS w r : LWS w -> ~ startsWsp r -> ~ startsCRLF r -> ParseLWS (w ++ r) = (r, true).
Proof.
  intros [w0 Hne Hf|w1 w2 H1 H2 H3] N1 N2; [now apply ParseLWS_plain|]. rewrite <- app_assoc. cbn [app]. now apply ParseLWS_fold.
Qed.
Lemma tokenSeq_head n : TokenSeq n -> exists x t, n = x :: t /\ rfcToken x = true.
Proof.
  assert (Z : forall t k, wfToken t -> exists x q, t ++ k = x :: q /\ rfcToken x = true).
  { intros t k [Hne Hf]. destruct t as [|x t]; [congruence|]. cbn in Hf. apply andb_prop in Hf as [Hx _]. exists x, (t ++ k). auto. }
  intros [t W|t w W L|t w b W L T]; auto. rewrite <- (app_nil_r t). auto.
Qed.
Lemma tokens_step e t w r u : wfToken t -> (w = [] \/ LWS w) -> stops rfcToken (w ++ r) = true -> ~ startsWsp r -> ~ startsCRLF r ->
  tokensBody tt e (mkst (t ++ w ++ r) u) = Ok (inl tt) (mkst r u).
Proof.
  intros [Hne Hf] Hw Hs N1 N2. unfold tokensBody. rewrite onRest_eq. destruct t as [|x t]; [congruence|]. cbn [app]. pose proof Hf as Hf'. cbn in Hf'. apply andb_prop in Hf' as [Hx _]. unfold IsSipToken. rewrite token_rfc, Hx. cbn [negb].
  change (x :: t ++ w ++ r) with ((x :: t) ++ w ++ r). rewrite span_exact; [|now rewrite tokens_rfc|now rewrite stops_token]. cbn [snd].
  assert (E : ParseLWS (w ++ r) = (r, true)). { destruct Hw as [-> |L]; [apply (ParseLWS_plain []); auto|now apply rt_LWS]. }
  rewrite E. reflexivity.
Qed.
Lemma no_wsp x r : isWsp x = false -> ~ startsWsp (x :: r).
Proof. intros H (y & t & [= <- <-] & W). apply isWsp_spec in W. congruence. Qed.
Lemma no_crlf x r : x <> 13 -> ~ startsCRLF (x :: r).
Proof. intros H (t & [= X _]). congruence. Qed.
Lemma rt_tokensLoop n : TokenSeq n -> forall e k u, loopP tokensBody tt e (mkst (n ++ 60 :: k) u) = Ok tt (mkst (60 :: k) u).
Proof.
  assert (End : forall e k u, loopP tokensBody tt e (mkst (60 :: k) u) = Ok tt (mkst (60 :: k) u)).
  { intros. rewrite loopP_unfold by apply tok_progresses. reflexivity. }
  assert (N1 : forall k, ~ startsWsp (60 :: k)) by (intros; apply no_wsp; reflexivity).
  assert (N2 : forall k, ~ startsCRLF (60 :: k)) by (intros; apply no_crlf; discriminate).
  induction 1 as [t W|t w W L|t w b W L T IH]; intros e k u; rewrite loopP_unfold by apply tok_progresses.
  - rewrite <- (app_nil_l (60 :: k)). rewrite (tokens_step e t [] (60 :: k) u) by (auto || reflexivity). apply End.
  - rewrite <- app_assoc. destruct (LWS_head w L) as (x & q & Ew & Hx). rewrite (tokens_step e t w (60 :: k) u); [apply End|exact W|auto|rewrite Ew; cbn; now rewrite Hx|auto|auto].
  - rewrite <- !app_assoc. destruct (LWS_head w L) as (x & q & Ew & Hx). destruct (tokenSeq_head b T) as (y & q2 & Eb & Hy). destruct (token_nlws y Hy) as (Y1 & Y2 & _).
    rewrite (tokens_step e t w (b ++ 60 :: k) u); [apply IH|exact W|auto|rewrite Ew; cbn; now rewrite Hx|rewrite Eb; now apply no_wsp|rewrite Eb; now apply no_crlf].
Qed.
Lemma rt_tokens e n k u : infinite e -> TokenSeq n -> exists u', parseTokens e (mkst (n ++ 60 :: k) u) = Ok n (mkst (60 :: k) u').
Proof.
  intros HI T. unfold parseTokens. rewrite onRest_eq. rewrite (bind_ok _ _ _ _ _ _ (rt_tokensLoop n T e k u)). unfold storeSince. rewrite onRest_eq.
  replace (firstn _ _) with n; [rewrite rt_allocCString by exact HI; eexists; reflexivity|].
  rewrite app_length, Nat.add_sub, firstn_app, Nat.sub_diag, firstn_all. cbn. now rewrite app_nil_r.
Qed.
Lemma tokenSeq_chars n : TokenSeq n -> Forall (fun x => x <> 58) n.
Proof.
  assert (Z : forall t, wfToken t -> Forall (fun x => x <> 58) t).
  { intros t [_ H]. apply Forall_forall. rewrite forallb_forall in H. intros x Hx. apply H, token_nlws in Hx. tauto. }
  assert (Y : forall w, Forall wsp w -> Forall (fun x => x <> 58) w) by (intros w; apply Forall_impl; intros x [->| ->]; discriminate).
  assert (L : forall w, LWS w -> Forall (fun x => x <> 58) w).
  { intros w [w0 _ H|w1 w2 H1 _ H2]; [auto|]. apply Forall_app. split; [auto|]. repeat (constructor; [discriminate|]). auto. }
  induction 1; [auto|apply Forall_app; auto|]. apply Forall_app; split; [auto|]. apply Forall_app; auto.
Qed.
Lemma span_name f n k : f 60 = false -> Forall (fun x => x <> 58) n -> exists a y r, span f (n ++ 60 :: k) = (a, y :: r) /\ y <> 58.
Proof.
  intros H60. induction 1 as [|x n Hx Hn (a & y & r & E & Hy)]; cbn [app span].
  - rewrite H60. exists [], 60, k. split; [reflexivity|discriminate].
  - destruct (f x); [|exists [], x, (n ++ 60 :: k); auto]. rewrite E. exists (x :: a), y, r. auto.
Qed.
Lemma other_name e n k u : infinite e -> Forall (fun x => x <> 58) n -> exists s', otherScheme e (mkst (n ++ 60 :: k) u) = Fail s'.
Proof.
  intros HI Hn. unfold otherScheme. rewrite onRest_eq. destruct (span_name (inset URI_SCHEME) n k eq_refl Hn) as (a & y & r & E & Hy).
  destruct (n ++ 60 :: k) as [|x q]; [eexists; reflexivity|]. destruct (IsAlpha x); [|eexists; reflexivity]. unfold bind, paCString. cbn [Base.rest Base.used]. rewrite E, inf_lt, inf_fits by assumption. cbn [negb].
  destruct a as [|a0 a]; [eexists; reflexivity|]. rewrite inf_lt by assumption. cbn [negb]. rewrite onRest_eq. rewrite (proj2 (N.eqb_neq y 58) Hy). eexists. reflexivity.
Qed.
Lemma scheme_name e n k u : infinite e -> Forall (fun x => x <> 58) n -> exists s', parseScheme e (mkst (n ++ 60 :: k) u) = Fail s'.
Proof.
  intros HI Hn. pose proof (other_name e n k u HI Hn) as X. unfold parseScheme. rewrite onRest_eq.
  destruct n as [|a [|b [|c [|d n]]]]; cbn [app] in *.
  - destruct k as [|? [|? [|? ?]]]; try exact X; rewrite ?andb_false_r; cbn [lc andb]; exact X.
  - destruct k as [|? [|? ?]]; try exact X. change (lc 60 ?x) with (60 =? x). rewrite ?andb_false_r. exact X.
  - destruct k as [|? ?]; try exact X. change (lc 60 ?x) with (60 =? x). rewrite ?andb_false_r. exact X.
  - change (lc 60 ?x) with (60 =? x). change (60 =? 58) with false. rewrite ?andb_false_r. exact X.
  - assert (D : d <> 58) by (rewrite Forall_forall in Hn; apply Hn; cbn; auto). rewrite (proj2 (N.eqb_neq d 58) D). rewrite ?andb_false_r.
    destruct (_ && lc d 115)%bool; [|exact X]. destruct n as [|x n]; cbn [app] in *.
    + exact X.
    + assert (D2 : x <> 58) by (rewrite Forall_forall in Hn; apply Hn; cbn; auto 6). rewrite (proj2 (N.eqb_neq x 58) D2). exact X.
Qed.
Definition nameText (n : option (bool * bytes)) : bytes := match n with Some (true, n) => encQuoted n | Some (false, n) => n | None => [] end.
Lemma specEnds_gt a k : specEnds a (62 :: k).
Proof.
  destruct a as [x|t]; cbn [specEnds]; [|split; reflexivity]. split; [split; [reflexivity|split; reflexivity]|]. split; [|discriminate].
  intros _. exists [], (62 :: k). split; [reflexivity|]. split; [constructor|]. right. eauto.
Qed.
Lemma noSws_eq k : noSws k -> ParseSWS_2 k = k.
Proof. intros [H|(x & t & -> & H)]; [now apply ParseSWS_line|]. apply ParseSWS_noop. cbn. now rewrite lws_rfc, H. Qed.
Lemma rt_RAQ e k u : noSws k -> pRightAngleQuote e (mkst (62 :: k) u) = Ok tt (mkst k u).
Proof. intros H. unfold pRightAngleQuote, ParseRightAngleQuote. cbn [Base.rest]. unfold liftB. cbn. now rewrite noSws_eq. Qed.
Lemma rt_LAQ e k u : pLeftAngleQuote e (mkst (60 :: k) u) = Ok tt (mkst k u).
Proof. unfold pLeftAngleQuote, ParseLeftAngleQuote, liftB. cbn [Base.rest]. reflexivity. Qed.
Lemma rt_nameAddr e n a k u : infinite e -> eUriNoEscape e = false -> wfDisplay n -> wfAUri e a -> noSws k ->
  exists u', parseNameAddr e (mkst (nameText n ++ 60 :: encAUri e a ++ 62 :: k) u) = Ok (mkaddr true n a) (mkst k u').
Proof.
  intros HI He Wn Wa Hk. unfold parseNameAddr.
  assert (H0 : pSWS e (mkst (nameText n ++ 60 :: encAUri e a ++ 62 :: k) u) = Ok tt (mkst (nameText n ++ 60 :: encAUri e a ++ 62 :: k) u)).
  { unfold pSWS. cbn [Base.rest]. rewrite ParseSWS_noop; [reflexivity|]. destruct n as [[[] n]|]; cbn [nameText]; try reflexivity.
    destruct (tokenSeq_head n Wn) as (x & t & -> & Hx). cbn. now rewrite token_lws. }
  rewrite (bind_ok _ _ _ _ _ _ H0). clear H0.
  assert (H1 : exists u1, onRest (fun r => match r with
    | [] => pfail
    | x :: r1 => if negb (x =? 60) then n <- parseDisplayName ;; pLeftAngleQuote ;;; ret (Some n) else goto r1 ;;; ret None
    end) e (mkst (nameText n ++ 60 :: encAUri e a ++ 62 :: k) u) = Ok n (mkst (encAUri e a ++ 62 :: k) u1)).
  { rewrite onRest_eq. destruct n as [[[] n]|]; cbn [nameText].
    - cbn [encQuoted app]. change (34 =? 60) with false. cbn [negb].
      assert (D : parseDisplayName e (mkst (34 :: (n ++ [34]) ++ 60 :: encAUri e a ++ 62 :: k) u) = Ok (true, n) (mkst (60 :: encAUri e a ++ 62 :: k) (u + 2 + len n))).
      { unfold parseDisplayName. rewrite onRest_eq. change (IsSipToken 34) with false. cbv iota. change (34 :: (n ++ [34]) ++ ?X) with (encQuoted n ++ X). rewrite (bind_ok _ _ _ _ _ _ (rt_quoted e n _ u HI Wn)). reflexivity. }
      rewrite (bind_ok _ _ _ _ _ _ D). rewrite (bind_ok _ _ _ _ _ _ (rt_LAQ _ _ _)). eexists. reflexivity.
    - destruct (tokenSeq_head n Wn) as (x & t & En & Hx). destruct (rt_tokens e n (encAUri e a ++ 62 :: k) u HI Wn) as [u1 E]. rewrite En in *. cbn [app] in *.
      destruct (token_nlws x Hx) as (_ & _ & _ & X60 & _). rewrite (proj2 (N.eqb_neq x 60) X60). cbn [negb].
      assert (D : parseDisplayName e (mkst (x :: t ++ 60 :: encAUri e a ++ 62 :: k) u) = Ok (false, x :: t) (mkst (60 :: encAUri e a ++ 62 :: k) u1)).
      { unfold parseDisplayName. rewrite onRest_eq. unfold IsSipToken. rewrite token_rfc, Hx. rewrite (bind_ok _ _ _ _ _ _ E). reflexivity. }
      rewrite (bind_ok _ _ _ _ _ _ D). rewrite (bind_ok _ _ _ _ _ _ (rt_LAQ _ _ _)). eexists. reflexivity.
    - cbn [app]. eexists. reflexivity. }
  destruct H1 as [u1 H1]. rewrite (bind_ok _ _ _ _ _ _ H1). clear H1.
  destruct (rt_auriScheme e a (62 :: k) u1) as (q & _ & E1 & ->). rewrite (bind_ok _ _ _ _ _ _ E1).
  destruct (rt_spec e true a (62 :: k) u1 HI He Wa (or_introl (conj eq_refl (specEnds_gt a k)))) as [u2 E2]. rewrite (bind_ok _ _ _ _ _ _ E2).
  rewrite (bind_ok _ _ _ _ _ _ (rt_RAQ e k u2 Hk)). eexists. reflexivity.
Qed.
Lemma encAddr_angle e a : (aAngle a || eNameSpace e)%bool = true -> encAddr e a = nameText (aName a) ++ 60 :: encAUri e (aUri a) ++ [62].
Proof. unfold encAddr. intros ->. reflexivity. Qed.
Lemma rt_addr e ps a k u : infinite e -> eUriNoEscape e = false -> wfAddr e a -> addrFollow e ps a k ->
  exists u', parseAddr ps e (mkst (encAddr e a ++ k) u) = Ok (mkaddr (aAngle a || eNameSpace e) (aName a) (aUri a)) (mkst k u').
Proof.
  intros HI He (Wn & Wa & Wang) Hk. unfold addrFollow in Hk. destruct (aAngle a || eNameSpace e)%bool eqn:Ea.
  - rewrite encAddr_angle by exact Ea. replace ((nameText (aName a) ++ 60 :: encAUri e (aUri a) ++ [62]) ++ k) with (nameText (aName a) ++ 60 :: encAUri e (aUri a) ++ 62 :: k) by (rewrite <- app_assoc; cbn [app]; now rewrite <- app_assoc).
    pose proof (rt_nameAddr e (aName a) (aUri a) k u HI He Wn Wa Hk) as X. unfold parseAddr. rewrite onRest_eq.
    destruct (aName a) as [[[] n]|] eqn:En.
    + exact X.
    + destruct (scheme_name e n (encAUri e (aUri a) ++ 62 :: k) u HI (tokenSeq_chars n Wn)) as [s1 E1].
      pose proof (rt_nameAddr e (Some (false, n)) (aUri a) k (used s1) HI He Wn Wa Hk) as [u2 X2]. cbn [nameText] in *. destruct (tokenSeq_head n Wn) as (x & t & -> & Hx). cbn [app] in *.
      destruct (token_nlws x Hx) as (_ & _ & _ & X60 & X34 & _). rewrite (proj2 (N.eqb_neq x 60) X60), (proj2 (N.eqb_neq x 34) X34). cbn [orb]. cbv iota.
      unfold bind at 1. unfold orRestore. unfold bind at 1. rewrite E1. cbn [Base.rest]. unfold bind at 1. rewrite X2. eexists. reflexivity.
    + exact X.
  - assert (En : aName a = None) by (apply Wang; destruct (aAngle a); [discriminate|reflexivity]). rewrite En.
    unfold encAddr. rewrite Ea. assert (H : ps = true /\ specEnds (aUri a) k \/ ps = false /\ bareUri (aUri a) /\ bareEnds (aUri a) k) by (destruct ps; auto).
    destruct (rt_auriScheme e (aUri a) k u) as (q & Eq1 & E1 & Eq2). destruct (rt_spec e ps (aUri a) k u HI He Wa H) as [u2 E2]. rewrite <- Eq2 in E2.
    unfold parseAddr. rewrite onRest_eq. destruct (encAUri e (aUri a) ++ k) as [|x r] eqn:Er; [rewrite Eq1 in Er; destruct (schemeOf (aUri a)); discriminate|].
    assert (Hx : ((x =? 60) || (x =? 34))%bool = false). { rewrite Eq1 in Er. destruct (schemeOf (aUri a)); cbn in Er; injection Er as <- _; reflexivity. }
    rewrite Hx. unfold bind at 1. unfold orRestore. unfold bind at 1. rewrite E1. unfold ret at 1. unfold bind. rewrite E2. eexists. reflexivity.
Qed.
Lemma rt_addrSpec e a k u : infinite e -> eUriNoEscape e = false -> wfAUri e a -> specEnds a k ->
  exists u', parseAddrSpec e (mkst (encAUri e a ++ k) u) = Ok (mkaddr false None a) (mkst k u').
Proof.
  intros HI He Wa H. destruct (rt_auriScheme e a k u) as (q & _ & E1 & Eq). destruct (rt_spec e true a k u HI He Wa (or_introl (conj eq_refl H))) as [u2 E2]. rewrite <- Eq in E2.
  unfold parseAddrSpec. rewrite (bind_ok _ _ _ _ _ _ E1), (bind_ok _ _ _ _ _ _ E2). eexists. reflexivity.
Qed.
Lemma encAUri_mem m e a : encAUri (withMem m e) a = encAUri e a.
Proof. destruct a; [apply encSipUri_mem|reflexivity]. Qed.
Lemma encAddr_mem m e a : encAddr (withMem m e) a = encAddr e a.
Proof. unfold encAddr. rewrite encAUri_mem. reflexivity. Qed.
