From Verif Require Import Base Charset CharsetSpec CharsetProofs BaseLemmas Num NumSpec NumProofs Lws LwsSpec LwsProofs Str StrSpec StrProofs Monad Good Rt Seq GoodAuto Inv
  IndexTree IndexProofs MethodTree HeaderTree Lookup NameSpec NameProofs Room Host HostSpec HostProofs Uri UriSpec UriGood UriProofs Tel TelSpec TelProofs GenParam GenParamSpec GenParamProofs Addr AddrSpec AddrProofs
  StartLine StartLineSpec StartLineProofs Headers HeadersSpec HeadersProofs RawHeaders RawSpec.

(** ** Line ends *)
Lemma first_lf (l : bytes) : ~ In 10 l \/ exists x b, l = x ++ 10 :: b /\ ~ In 10 x.
Proof.
  induction l as [|y l IH]; [left; intros []|]. destruct (N.eq_dec y 10) as [->|Hy].
  - right. exists [], l. split; [reflexivity|intros []].
  - destruct IH as [H|(x & b & -> & H)]; [left; intros [E|E]; [congruence|exact (H E)]|]. right. exists (y :: x), b. split; [reflexivity|]. intros [E|E]; [congruence|exact (H E)].
Qed.
Lemma cutAfter_none c r : cutAfter c r = None -> ~ In c r.
Proof.
  induction r as [|x r IH]; cbn; [intros _ []|]. destruct (N.eqb_spec x c) as [->|Hx]; [discriminate|]. destruct (cutAfter c r) as [[a b]|]; [discriminate|].
  intros _ [E|E]; [congruence|exact (IH eq_refl E)].
Qed.
Lemma cutAfter_some c r a b : cutAfter c r = Some (a, b) -> exists x, a = x ++ [c] /\ r = x ++ c :: b /\ ~ In c x.
Proof.
  revert a b. induction r as [|y r IH]; cbn; intros a b; [discriminate|]. destruct (N.eqb_spec y c) as [->|Hy].
  - intros [= <- <-]. exists []. repeat split; auto.
  - destruct (cutAfter c r) as [[a1 b1]|]; [|discriminate]. intros [= <- <-]. destruct (IH _ _ eq_refl) as (x & -> & -> & H). exists (y :: x). repeat split; auto.
    intros [E|E]; [congruence|exact (H E)].
Qed.
Lemma folded_nil : folded []. Proof. intros a b E. destruct a; discriminate. Qed.
Lemma folded_nolf l : ~ In 10 l -> folded l.
Proof. intros H a b E. exfalso. apply H. rewrite E. apply in_or_app. right. left. reflexivity. Qed.
Lemma folded_tail x b : folded (x ++ 10 :: b) -> folded b.
Proof. intros H p q E. apply (H (x ++ 10 :: p)). rewrite E, <- app_assoc. reflexivity. Qed.
Lemma folded_cons x b : ~ In 10 x -> folded b -> startsWsp b -> folded (x ++ 10 :: b).
Proof.
  intros Hx Hb Hs p q E. apply app_eq_app in E as (l & [(E1 & E2)|(E1 & E2)]).
  - destruct l as [|y l]; [cbn in E2; injection E2 as E2; subst; exact Hs|]. cbn in E2. injection E2 as E3 E2. subst. exfalso. apply Hx. apply in_or_app. right. left. reflexivity.
  - destruct l as [|y l]; [cbn in E2; injection E2 as E2; subst; exact Hs|]. cbn in E2. injection E2 as E3 E2. apply (Hb l). exact E2.
Qed.
Lemma startsWsp_app b k : startsWsp b -> startsWsp (b ++ k).
Proof. intros (x & t & -> & H). exists x, (t ++ k). split; [reflexivity|exact H]. Qed.
Lemma findLoop_complete : forall f line r', folded line -> ~ startsWsp r' -> (List.length line < f)%nat -> findLoop f (line ++ 10 :: r') = Some (line ++ [10], r').
Proof.
  induction f as [|f IH]; intros line r' Hf Hr Hlen; [lia|]. cbn [findLoop]. destruct (first_lf line) as [H|(x & b & -> & H)].
  - rewrite cutAfter_exact by exact H. destruct r' as [|y r']; [reflexivity|]. rewrite IsWspChar_isWsp. destruct (isWsp y) eqn:Ey; [|reflexivity].
    exfalso. apply Hr. exists y, r'. split; [reflexivity|now apply isWsp_spec].
  - rewrite <- app_assoc. cbn [app]. rewrite cutAfter_exact by exact H. destruct (Hf x b eq_refl) as (y & t & -> & Hy). cbn [app]. rewrite IsWspChar_isWsp.
    rewrite (proj2 (isWsp_spec y) Hy). cbn [negb]. change (y :: t ++ 10 :: r') with ((y :: t) ++ 10 :: r'). rewrite IH; [|apply (folded_tail x), Hf|exact Hr|rewrite app_length in Hlen; cbn in *; lia].
    f_equal. f_equal. rewrite <- !app_assoc. reflexivity.
Qed.
Lemma findLoop_sound : forall f r a r', findLoop f r = Some (a, r') -> exists line, a = line ++ [10] /\ headerLine r line r'.
Proof.
  induction f as [|f IH]; intros r a r' H; [discriminate|]. cbn [findLoop] in H. destruct (cutAfter 10 r) as [[a1 r1]|] eqn:E; [|discriminate].
  apply cutAfter_some in E as (x & -> & -> & Hx). destruct r1 as [|y r1].
  - injection H as <- <-. exists x. split; [reflexivity|]. split; [reflexivity|]. split; [now apply folded_nolf|]. intros (y & t & E & _). discriminate.
  - rewrite IsWspChar_isWsp in H. destruct (isWsp y) eqn:Ey; cbn [negb] in H.
    + destruct (findLoop f (y :: r1)) as [[b r2]|] eqn:E2; [|discriminate]. injection H as <- <-. apply IH in E2 as (line & -> & Er & Hf & Hr).
      exists (x ++ 10 :: line). split; [rewrite <- !app_assoc; reflexivity|]. split; [rewrite <- app_assoc; cbn [app]; now rewrite Er|]. split; [|exact Hr].
      apply folded_cons; auto. destruct line as [|z line]; cbn [app] in Er; injection Er as -> Er.
      * discriminate.
      * exists z, line. split; [reflexivity|now apply isWsp_spec].
    + injection H as <- <-. exists x. split; [reflexivity|]. split; [reflexivity|]. split; [now apply folded_nolf|]. intros (z & t & [= -> ->] & Hz). apply isWsp_spec in Hz. congruence.
Qed.
Lemma headerLine_unique r l1 r1 l2 r2 : headerLine r l1 r1 -> headerLine r l2 r2 -> l1 = l2 /\ r1 = r2.
Proof.
  intros (E1 & F1 & S1) (E2 & F2 & S2). pose proof (findLoop_complete (S (List.length l1 + List.length l2)) l1 r1 F1 S1 ltac:(lia)) as A.
  pose proof (findLoop_complete (S (List.length l1 + List.length l2)) l2 r2 F2 S2 ltac:(lia)) as B. rewrite <- E1, E2, B in A. injection A as A ->. apply app_inj_tail in A as [-> _]. auto.
Qed.
Lemma cut_line line : let a := line ++ [10] in
  cutCR line (if Nat.ltb 2 (List.length a) && (nth (List.length a - 2) a 0 =? 13) then firstn (List.length a - 2) a else firstn (List.length a - 1) a).
Proof.
  cbv zeta. rewrite app_length. cbn [List.length].
  replace (firstn (List.length line + 1 - 1) (line ++ [10])) with line by (replace (List.length line + 1 - 1)%nat with (List.length line) by lia; rewrite firstn_app, Nat.sub_diag, firstn_all; cbn; now rewrite app_nil_r).
  destruct (list_eq_dec N.eq_dec line []) as [->|Hne]; [right; split; [reflexivity|]; intros (p & _ & E); destruct p; discriminate|].
  destruct (exists_last Hne) as (p & x & ->). rewrite app_length. cbn [List.length]. replace (List.length p + 1 + 1 - 2)%nat with (List.length p) by lia.
  rewrite <- app_assoc. rewrite app_nth2, Nat.sub_diag by lia. cbn [app nth]. rewrite firstn_app, Nat.sub_diag, firstn_all. cbn [firstn]. rewrite app_nil_r.
  destruct (Nat.ltb_spec 2 (List.length p + 1 + 1)) as [L|L]; cbn [andb].
  - destruct (N.eqb_spec x 13) as [->|Hx]; [left; split; [reflexivity|]; intros ->; cbn in L; lia|]. right. split; [reflexivity|]. intros (q & _ & E). apply app_inj_tail in E as [_ E]. congruence.
  - right. split; [reflexivity|]. intros (q & Hq & E). apply app_inj_tail in E as [<- _]. destruct p; [congruence|cbn in L; lia].
Qed.
Lemma cutCR_det line v w : cutCR line v -> cutCR line w -> v = w.
Proof.
  intros [[-> Hv]|[-> Hv]] [[E Hw]|[E Hw]].
  - apply app_inj_tail in E as [-> _]. reflexivity.
  - exfalso. apply Hw. exists v. auto.
  - exfalso. apply Hv. exists w. auto.
  - auto.
Qed.
Lemma FindCrlf_spec r v r' : FindCrlf r = Some (v, r') <-> exists line, headerLine r line r' /\ cutCR line v.
Proof.
  unfold FindCrlf. split.
  - destruct (findLoop _ r) as [[a q]|] eqn:E; [|discriminate]. apply findLoop_sound in E as (line & -> & H). intros [= <- <-]. exists line. split; [exact H|apply cut_line].
  - intros (line & (-> & Hf & Hr) & Hc). rewrite findLoop_complete; auto; [|rewrite app_length; cbn; lia]. f_equal. f_equal. exact (cutCR_det _ _ _ (cut_line line) Hc).
Qed.
Lemma FindCrlf_none r : FindCrlf r = None <-> ~ exists line r', headerLine r line r'.
Proof.
  split.
  - intros H (line & r' & L). pose proof (cut_line line) as C. cbv zeta in C. match type of C with cutCR _ ?v => assert (X : FindCrlf r = Some (v, r')) by (apply FindCrlf_spec; exists line; auto) end. congruence.
  - intros H. destruct (FindCrlf r) as [[v r']|] eqn:E; [|reflexivity]. apply FindCrlf_spec in E as (line & L & _). exfalso. apply H. exists line, r'. exact L.
Qed.
Lemma FindCrlf_suffix r v r' : FindCrlf r = Some (v, r') -> suffix r' r /\ (List.length r' < List.length r)%nat /\ len v + len r' + 1 <= len r.
Proof.
  intros H. apply FindCrlf_spec in H as (line & (-> & _) & C). split; [exists (line ++ [10]); rewrite <- app_assoc; reflexivity|]. rewrite app_length. cbn [List.length]. split; [lia|].
  rewrite len_app. unfold len at 4. cbn [List.length]. unfold len. destruct C as [[-> _]|[-> _]]; [rewrite app_length; cbn [List.length]|]; lia.
Qed.

(** ** Well-behavedness *)
Lemma header_index_cut1 r : GetSipHeaderIndex r = None -> cutOff r.
Proof.
  intros R. destruct (runTree_panic_sound _ _ header_inc R) as (c & k & H & M).
  assert (F : forallb tokenOrCR r = true).
  { apply (matches_all tokenOrCR c r); [|exact M]. intros t x I T. apply (testNameOk_token t); [|exact T].
    pose proof headerTokens as F. rewrite forallb_forall in F. apply F. apply in_flat_map. exists (c, k, PPanic). split; [|exact I]. unfold panicPaths in H. apply filter_In in H. apply H. }
  destruct (list_eq_dec N.eq_dec r []) as [->|Hne]; [vm_compute in R; discriminate|]. destruct (exists_last Hne) as (p & x & ->). exists p, x. split; [reflexivity|]. rewrite forallb_app in F. apply andb_prop in F as [_ F].
  intros ->. vm_compute in F. discriminate.
Qed.
Lemma header_index_cut r : GetSipHeaderIndex r = None -> crashy r.
Proof. intros H. left. now apply header_index_cut1. Qed.
Lemma gd_headerName K e s : 1 <= K -> goodAt K 3 parseHeaderName e s.
Proof.
  intros HK. unfold parseHeaderName. destruct s as [r u]. apply goodAt_onRest. cbn [rest]. destruct (GetSipHeaderIndex r) as [[i mid]|] eqn:E.
  - apply header_skips in E as (p & -> & _). assert (Su : suffix mid (p ++ mid)) by (exists p; reflexivity). destruct (i =? _).
    + eapply goodAt_bind with (C1 := 3); [|lia|intros; good]. eapply goodAt_bind; [apply gd_fromPos; [exact HK|exact Su]|lia|intros; good].
    + eapply goodAt_bind with (C1 := 0); [|lia|intros; good]. good; exact Su.
  - apply goodAt_panic. cbn [rest]. now apply header_index_cut.
Qed.
Lemma gd_rawValue K e s : 1 <= K -> goodAt K 1 rawValue e s.
Proof.
  intros HK. unfold rawValue. destruct s as [r u]. apply goodAt_onRest. cbn [rest]. destruct (FindCrlf r) as [[v r']|] eqn:E.
  - apply FindCrlf_suffix in E as (Su & _ & L). assert (G : goodAt K (len v + 2) (allocCString v) e (mkst r' u)) by (apply goodAt_allocCString; lia).
    destruct G as [G1 G2 G3]. unfold bind, goto. cbn [used]. split.
    + intros m. specialize (G1 m). destruct (allocCString v (withMem m e) _) as [a s'|s'| |]; cbn [Base.rest Base.used] in *; auto.
      * destruct G1 as [S1 U1]. split; [exact (suffix_trans _ _ _ S1 Su)|exact U1].
      * destruct G1 as [S1 U1]. split; [exact (suffix_trans _ _ _ S1 Su)|exact U1].
      * exact (loopy_suffix _ _ Su G1).
    + destruct (allocCString v (withMem None e) _) as [a s'|s'| |]; cbn [Base.rest Base.used] in *; auto; try nia. exact (crashy_suffix _ _ Su G2).
    + intros m Hm. apply G3. cbn [Base.rest Base.used] in *. nia.
  - apply goodAt_goto_bind; [exists r; now rewrite app_nil_r|good].
Qed.
#[export] Hint Resolve gd_headerName gd_rawValue : good.
Lemma gd_rawHeader K n i e s : 1 <= K -> goodAt K 9 (rawHeader n i) e s.
Proof. intros. unfold rawHeader. good. Qed.
#[export] Hint Resolve gd_rawHeader : good.
Lemma IsCRLF_spec r : IsCRLF r = true -> exists t, r = 13 :: 10 :: t.
Proof. unfold IsCRLF. destruct r as [|a [|b t]]; try discriminate. intros H. apply andb_prop in H as [H1 H2]. apply N.eqb_eq in H1, H2. subst. eauto. Qed.
Lemma gd_headersBody {A} K C (hdr : A -> option bytes -> N -> P A) a e s : 1 <= K -> (forall a n i s, goodAt K C (hdr a n i) e s) -> goodAt K (C + 3) (headersBody hdr a) e s.
Proof.
  intros HK G. unfold headersBody. destruct s as [r u]. apply goodAt_onRest. cbn [rest]. destruct r as [|x r1]; [good|]. destruct (IsCRLF (x :: r1)) eqn:E.
  - apply IsCRLF_spec in E as (t & E). injection E as -> ->. apply goodAt_goto_bind; [exists [13; 10]; reflexivity|good].
  - eapply goodAt_bind; [apply gd_headerName; exact HK|lia|intros ni s' m _]. eapply goodAt_bind; [apply (G a)|lia|intros; good].
Qed.
Lemma pHcolon_lt e s s' a : pHcolon e s = Ok a s' -> (List.length (rest s') < List.length (rest s))%nat.
Proof.
  unfold pHcolon, liftB. destruct (ParseHcolon (rest s)) as [r b] eqn:E. destruct b; [|discriminate]. intros [= <- <-]. cbn [rest].
  unfold ParseHcolon in E. pose proof (skipWsp_suffix (rest s)) as S0. destruct (skipWsp (rest s)) as [|x t]; [discriminate|]. destruct (x =? 58); [|discriminate]. cbn [negb] in E.
  injection E as <-. apply suffix_length in S0. pose proof (suffix_length _ _ (ParseSWS_suffix t)). cbn in *. lia.
Qed.
Lemma good_suffix {A} K C (p : P A) e s a s' : goodAt K C p e s -> p e s = Ok a s' -> suffix (rest s') (rest s).
Proof. intros G E. pose proof (good_any _ _ _ _ _ G (memend e)) as X. rewrite withMem_self, E in X. apply X. Qed.
Lemma headerName_lt e s a s' : parseHeaderName e s = Ok a s' -> (List.length (rest s') < List.length (rest s))%nat.
Proof.
  unfold parseHeaderName, onRest. destruct (GetSipHeaderIndex (rest s)) as [[i mid]|] eqn:E; [|discriminate]. apply header_skips in E as (p & E & _).
  assert (Su : suffix mid (rest s)) by (exists p; exact E). unfold bind at 1.
  match goal with |- context [match ?x with _ => _ end] => destruct x as [n s1|s1| |] eqn:E1; try discriminate end.
  assert (S1 : suffix (rest s1) (rest s)).
  { destruct (i =? _).
    - eapply good_suffix; [|exact E1]. eapply goodAt_bind with (K := 1) (C := 3); [apply gd_fromPos; [lia|exact Su]|lia|intros; good].
    - injection E1 as <- <-. exact Su. }
  unfold bind. destruct (pHcolon e s1) as [t s2|s2| |] eqn:E2; try discriminate. intros [= <- <-]. apply pHcolon_lt in E2. apply suffix_length in S1. lia.
Qed.
Lemma headers_progresses {A} K C (hdr : A -> option bytes -> N -> P A) : (forall a n i e s, goodAt K C (hdr a n i) e s) -> progresses (headersBody hdr).
Proof.
  intros G a e s a' s'. unfold headersBody, onRest. destruct (rest s) as [|x r1] eqn:R; [discriminate|]. rewrite <- R. destruct (IsCRLF _); [discriminate|]. unfold bind.
  destruct (parseHeaderName e s) as [ni s1|s1| |] eqn:E1; try discriminate. destruct (hdr _ _ _ e s1) as [a2 s2|s2| |] eqn:E2; try discriminate. intros [= <- <-].
  apply headerName_lt in E1. pose proof (good_suffix _ _ _ _ _ _ _ (G _ _ _ _ _) E2) as S2. apply suffix_length in S2. lia.
Qed.
Lemma gd_rawHdr K (a : list raw) n i e s : 1 <= K -> goodAt K 9 (h <- rawHeader n i ;; ret (a ++ [h])) e s.
Proof. intros. good. Qed.
Lemma gd_rawHeaders K e s : 13 <= K -> goodAt K 12 parseRawHeaders e s.
Proof.
  intros HK. unfold parseRawHeaders. apply (goodAt_loopP 1 12); [|lia|lia|].
  - apply (headers_progresses 1 9). intros. apply gd_rawHdr. lia.
  - intros. apply (gd_headersBody 1 9); [lia|]. intros. apply gd_rawHdr. lia.
Qed.
Lemma gd_rawScan K e s : goodAt K 0 rawScan e s.
Proof.
  unfold rawScan. apply (goodAt_loopP 0 0); [|lia|lia|].
  - intros a e0 s0 a' s'. unfold onRest. destruct (rest s0) as [|x r1] eqn:R; [discriminate|]. rewrite <- R. destruct (IsCRLF _); [discriminate|].
    destruct (FindCrlf (rest s0)) as [[v r']|] eqn:F; [|discriminate]. intros [= <- <-]. apply FindCrlf_suffix in F. apply F.
  - intros a [r u]. apply goodAt_onRest. cbn [rest]. destruct r as [|x r1]; [good|]. destruct (IsCRLF (x :: r1)) eqn:E.
    + apply IsCRLF_spec in E as (t & E). injection E as -> ->. apply goodAt_goto_bind; [exists [13; 10]; reflexivity|good].
    + destruct (FindCrlf _) as [[v r']|] eqn:F; [apply FindCrlf_suffix in F as (Su & _); apply goodAt_goto_bind; [exact Su|good]|apply goodAt_goto_bind; [apply suffix_nil|good]].
Qed.
#[export] Hint Resolve gd_rawHeaders gd_rawScan : good.

(** ** Exact reading *)
Lemma infos_recognised : forallb (fun q => (fst q =? SIP_HDR_UNKNOWN) || existsb (fun r => beq (fst r) (hiName (snd q)) && (snd r =? fst q)) recognisedNames) headerInfos = true.
Proof. vm_compute. reflexivity. Qed.
Lemma lookupInfo_in l i x : lookupInfo l i = Some x -> In (i, x) l.
Proof. induction l as [|[j y] l IH]; cbn; [discriminate|]. destruct (N.eqb_spec i j) as [->|_]; [intros [= ->]; left; reflexivity|right; auto]. Qed.
Lemma info_recognised i x : infoOf i = Some x -> i <> SIP_HDR_UNKNOWN -> In (hiName x, i) recognisedNames.
Proof.
  intros H Hi. apply lookupInfo_in in H. pose proof infos_recognised as F. rewrite forallb_forall in F. apply F in H. cbn [fst snd] in H. apply orb_prop in H as [H|H]; [apply N.eqb_eq in H; congruence|].
  apply existsb_exists in H as ((n & j) & I & H). cbn [fst snd] in H. apply andb_prop in H as [H1 H2]. apply beq_eq in H1. apply N.eqb_eq in H2. now subst.
Qed.
Lemma rt_Hcolon_gen e w t u : Forall wsp w -> pHcolon e (mkst (w ++ 58 :: t) u) = Ok tt (mkst (ParseSWS_2 t) u).
Proof. intros Hw. unfold pHcolon, liftB, ParseHcolon. cbn [Base.rest]. rewrite skipWsp_app; [reflexivity|exact Hw|apply no_wsp; reflexivity]. Qed.
Lemma Hcolon_inv e s x s' : pHcolon e s = Ok x s' -> exists w t, rest s = w ++ 58 :: t /\ Forall wsp w /\ rest s' = ParseSWS_2 t /\ used s' = used s.
Proof.
  unfold pHcolon, liftB, ParseHcolon. destruct (skipWsp_decomp (rest s)) as (w & E & Hw & _). destruct (skipWsp (rest s)) as [|y t]; [discriminate|].
  destruct (N.eqb_spec y 58) as [->|_]; cbn [negb]; [|discriminate]. intros [= <- <-]. exists w, t. auto.
Qed.
Lemma tokens_Is n : forallb IsSipToken n = forallb rfcToken n.
Proof. induction n as [|x n IH]; cbn; [reflexivity|]. rewrite IH. f_equal. apply token_rfc. Qed.
Lemma prefix_tokens p r t k : p ++ r = t ++ k -> forallb tokenOrCR p = true -> forallb IsSipToken t = true -> nameEnds k -> ~ (exists k', k = 13 :: k') -> exists q, t = p ++ q /\ r = q ++ k.
Proof.
  revert t. induction p as [|x p IH]; intros t E Hp Ht Hk H13; [exists t; auto|]. cbn in Hp. apply andb_prop in Hp as [Hx Hp]. destruct t as [|y t].
  - cbn [app] in E. subst k. exfalso. cbn in Hk. unfold tokenOrCR in Hx. rewrite Hk in Hx. cbn in Hx. apply N.eqb_eq in Hx. subst. apply H13. eexists. reflexivity.
  - cbn in Ht. apply andb_prop in Ht as [Hy Ht]. cbn [app] in E. injection E as <- E. destruct (IH t E Hp Ht Hk H13) as (q & -> & ->). exists q. auto.
Qed.
Lemma colon_ends w t : Forall wsp w -> nameEnds (w ++ 58 :: t) /\ ~ (exists k', w ++ 58 :: t = 13 :: k').
Proof. intros Hw. destruct Hw as [|x w Hx Hw]; cbn [app]; [split; [reflexivity|intros (k & E); discriminate]|]. destruct Hx as [->| ->]; (split; [reflexivity|intros (k & E); discriminate]). Qed.
Lemma name_complete e p n i w t u : infinite e -> nameIs p n i -> Forall wsp w -> exists u', parseHeaderName e (mkst (p ++ w ++ 58 :: t) u) = Ok (n, i) (mkst (ParseSWS_2 t) u').
Proof.
  intros HI Np Hw. unfold parseHeaderName. rewrite onRest_eq. destruct (colon_ends w t Hw) as [Hk H13]. pose proof (rt_Hcolon_gen e w t) as Hc. set (k := w ++ 58 :: t) in *.
  destruct Np as [p name i I Sn|n [Nne Nf] Un].
  - rewrite (header_complete _ _ p k I Sn Hk). rewrite (proj2 (N.eqb_neq i SIP_HDR_UNKNOWN) (recognised_nz _ _ I)). unfold bind at 1. rewrite goto_bind. cbn [used ret].
    rewrite (bind_ok _ _ _ _ _ _ (Hc u Hw)). eexists. reflexivity.
  - assert (Nt : forallb IsSipToken n = true) by (now rewrite tokens_Is).
    destruct (GetSipHeaderIndex (n ++ k)) as [[i mid]|] eqn:E.
    + pose proof (header_skips _ _ _ E) as (p & Ep & Hp). symmetry in Ep. pose proof (prefix_tokens _ _ _ _ Ep Hp Nt Hk H13) as (q & En & Em). destruct (N.eqb_spec i SIP_HDR_UNKNOWN) as [->|Hi].
      * subst mid. rewrite En, <- app_assoc. rewrite En in Nt, Nne. rewrite forallb_app in Nt. apply andb_prop in Nt as [_ Nt].
        destruct (rt_fromPos e SIP_TOKEN p q k u HI Nt Nne) as [u' E2]; [destruct k as [|z k]; [reflexivity|]; cbn in Hk |- *; change (inset SIP_TOKEN z) with (IsSipToken z); now rewrite Hk|].
        rewrite (bind_ok _ _ _ _ _ (mkst k u') (bind_ok _ _ _ _ _ _ E2)). cbv beta. exists u'. rewrite (bind_ok _ _ _ _ _ _ (Hc u' Hw)). reflexivity.
      * exfalso. pose proof (header_sound _ _ _ E Hi) as (name & p2 & In2 & E2 & Ends & Sn).
        assert (p2 = p) by (rewrite <- Ep in E2; now apply app_inv_tail in E2). subst p2. assert (q = []).
        { destruct q as [|y q]; [reflexivity|]. subst mid. cbn in Ends. rewrite En, forallb_app in Nt. apply andb_prop in Nt as [_ Nt]. cbn in Nt. rewrite Ends in Nt. discriminate. }
        subst q. rewrite app_nil_r in En. subst p. apply (Un name i In2). unfold sameNoCase. rewrite <- Sn. symmetry. apply crDash_lower.
        intros I13. rewrite forallb_forall in Nt. apply Nt in I13. vm_compute in I13. discriminate.
    + exfalso. apply (header_safe (n ++ k)); [|exact E]. apply in_or_app. right. apply in_or_app. right. left. reflexivity.
Qed.
Lemma tokenCR_no p k : forallb tokenOrCR p = true -> crlfOnly (p ++ k) -> ~ (exists k', k = 10 :: k') -> ~ In 13 p /\ forallb IsSipToken p = true.
Proof.
  intros Hp Hc H10. assert (H : ~ In 13 p).
  { intros I. apply in_split in I as (a & b & ->). destruct (Hc a (b ++ k)) as (c & E); [rewrite <- app_assoc; reflexivity|]. destruct b as [|y b]; [apply H10; exists c; exact E|].
    cbn [app] in E. injection E as -> _. rewrite forallb_app in Hp. apply andb_prop in Hp as [_ Hp]. cbn in Hp. discriminate. }
  split; [exact H|]. clear Hc. induction p as [|x p IH]; [reflexivity|]. cbn in Hp |- *. apply andb_prop in Hp as [Hx Hp]. rewrite IH; [|exact Hp|intros I; apply H; right; exact I]. rewrite andb_true_r.
  unfold tokenOrCR in Hx. apply orb_prop in Hx as [Hx|Hx]; [exact Hx|]. apply N.eqb_eq in Hx. exfalso. apply H. left. now symmetry.
Qed.
Lemma colon_no_lf w t : Forall wsp w -> ~ (exists k', w ++ 58 :: t = 10 :: k').
Proof. intros Hw (k & E). destruct Hw as [|x w Hx Hw]; cbn [app] in E; [discriminate|]. injection E as -> _. destruct Hx; discriminate. Qed.
Lemma fromPos_ok e mid cs s tok s' : suffix mid (rest s) -> paCStringFromPos mid cs e s = Ok tok s' ->
  exists pre q, rest s = pre ++ mid /\ mid = q ++ rest s' /\ tok = pre ++ q /\ tok <> [] /\ forallb (inset cs) q = true /\ stops (inset cs) (rest s') = true.
Proof.
  intros [pre Er] H. unfold paCStringFromPos in H. rewrite Er, firstn_pre in H. destruct (_ && _)%bool; [discriminate|]. destruct (negb _); [discriminate|].
  destruct (span (inset cs) mid) as [q r] eqn:Sp. destruct (negb _); [discriminate|]. destruct (pre ++ q) as [|x t] eqn:Ep; [discriminate|]. rewrite <- Ep in H. destruct (negb _); [discriminate|]. injection H as <- <-.
  exists pre, q. cbn [Base.rest]. repeat split; [exact Er|exact (span_app _ _ _ _ Sp)|rewrite Ep; discriminate|exact (span_all _ _ _ _ Sp)|exact (span_stops _ _ _ _ Sp)].
Qed.
Lemma name_sound e s n i s' : crlfOnly (rest s) -> parseHeaderName e s = Ok (n, i) s' -> exists p w t, rest s = p ++ w ++ 58 :: t /\ nameIs p n i /\ Forall wsp w /\ rest s' = ParseSWS_2 t.
Proof.
  intros Hc. unfold parseHeaderName, onRest. destruct (GetSipHeaderIndex (rest s)) as [[j mid]|] eqn:E; [|discriminate]. pose proof (header_skips _ _ _ E) as (p & Ep & Hp).
  destruct (N.eqb_spec j SIP_HDR_UNKNOWN) as [->|Hj]; unfold bind at 1.
  - unfold bind at 1. destruct (paCStringFromPos mid SIP_TOKEN e s) as [tok s1|s1| |] eqn:E1; try discriminate. cbn [ret]. unfold bind. destruct (pHcolon e s1) as [x s2|s2| |] eqn:E2; try discriminate.
    intros [= <- <- <-]. apply fromPos_ok in E1 as (pre & q & Er & Em & -> & Hne & Hq & Hst); [|exists p; exact Ep]. assert (pre = p) by (rewrite Er in Ep; now apply app_inv_tail in Ep). subst pre.
    apply Hcolon_inv in E2 as (w & t & Ew & Hw & Es & _). exists (p ++ q), w, t. rewrite Er, Em, Ew, app_assoc. split; [reflexivity|]. split; [|auto].
    assert (Tk : forallb IsSipToken (p ++ q) = true).
    { apply (tokenCR_no (p ++ q) (w ++ 58 :: t)); [|rewrite <- app_assoc, <- Ew, <- Em, <- Er; exact Hc|now apply colon_no_lf]. rewrite forallb_app, Hp. cbn [andb].
      revert Hq. clear. induction q as [|x q IH]; cbn; [reflexivity|]. intros H. apply andb_prop in H as [H1 H2]. rewrite IH by exact H2. unfold tokenOrCR, IsSipToken. rewrite H1. reflexivity. }
    constructor.
    + split; [exact Hne|now rewrite <- tokens_Is].
    + intros name k Ik Sk. rewrite Er, Em, app_assoc in E. rewrite (header_complete name k (p ++ q) (rest s1) Ik Sk) in E; [|rewrite Ew; apply (colon_ends w t Hw)].
      injection E as E _. exact (recognised_nz _ _ Ik E).
  - rewrite goto_bind. cbn [ret]. unfold bind. destruct (pHcolon e (mkst mid (used s))) as [x s2|s2| |] eqn:E2; try discriminate. intros [= <- <- <-].
    apply Hcolon_inv in E2 as (w & t & Ew & Hw & Es & _). cbn [Base.rest] in Ew. exists p, w, t. rewrite Ep, Ew. split; [reflexivity|]. split; [|auto].
    destruct (header_sound _ _ _ E Hj) as (name & p2 & In2 & E2 & _ & Sn). assert (p2 = p) by (rewrite Ep in E2; now apply app_inv_tail in E2). subst p2.
    apply (NKnown p name j In2). unfold sameNoCase. rewrite <- Sn. symmetry. apply crDash_lower. apply (tokenCR_no p mid Hp); [now rewrite <- Ep|rewrite Ew; now apply colon_no_lf].
Qed.
Lemma rt_headerName_known e name i p t u : infinite e -> In (name, i) recognisedNames -> sameNoCase p name -> plainHead t ->
  exists u', parseHeaderName e (mkst (p ++ s2b ": " ++ t) u) = Ok (None, i) (mkst t u').
Proof.
  intros HI I Sn Ht. destruct (name_complete e p None i [] (32 :: t) u HI (NKnown _ _ _ I Sn) ltac:(constructor)) as [u' E]. exists u'. rewrite (SWS_det (32 :: t) t) in E; [exact E|].
  destruct Ht as [H1 H2]. apply (SWS_plain [32] t); auto. repeat constructor.
Qed.
Lemma rt_headerName_unknown e n t u : infinite e -> wfToken n -> unknownName n -> plainHead t ->
  exists u', parseHeaderName e (mkst (n ++ s2b ": " ++ t) u) = Ok (Some n, SIP_HDR_UNKNOWN) (mkst t u').
Proof.
  intros HI Wn Un Ht. destruct (name_complete e n (Some n) SIP_HDR_UNKNOWN [] (32 :: t) u HI (NOther _ Wn Un) ltac:(constructor)) as [u' E]. exists u'. rewrite (SWS_det (32 :: t) t) in E; [exact E|].
  destruct Ht as [H1 H2]. apply (SWS_plain [32] t); auto. repeat constructor.
Qed.
Lemma rt_rawValue e v t u : infinite e -> wfRawValue v -> ~ startsWsp t -> exists u', rawValue e (mkst (v ++ CRLF ++ t) u) = Ok v (mkst t u').
Proof.
  intros HI (Vne & Vf & Vw & Vc) Ht. unfold rawValue. rewrite onRest_eq.
  assert (F : FindCrlf (v ++ CRLF ++ t) = Some (v, t)).
  { apply FindCrlf_spec. exists (v ++ [13]). split; [split; [rewrite <- app_assoc; reflexivity|]|left; auto]. split; [|exact Ht].
    intros a b E. apply app_eq_app in E as (l & [(E1 & E2)|(E1 & E2)]).
    - destruct l as [|y l]; [discriminate|]. cbn [app] in E2. injection E2 as E3 E2. subst. apply startsWsp_app. now apply (Vf a l).
    - destruct l as [|y l]; [discriminate|]. cbn [app] in E2. injection E2 as E3 E2. symmetry in E2. apply app_eq_nil in E2 as [_ E2]. discriminate. }
  rewrite F. rewrite goto_bind. cbn [used]. rewrite rt_allocCString by exact HI. eexists. reflexivity.
Qed.
Lemma token_start n k : wfToken n -> IsCRLF (n ++ k) = false /\ ~ startsWsp (n ++ k) /\ n ++ k <> [].
Proof.
  intros [Nne Nf]. destruct n as [|x n]; [congruence|]. cbn in Nf. apply andb_prop in Nf as [Nx _]. apply token_lws in Nx. rewrite IsLwsChar_spec in Nx.
  apply orb_false_iff in Nx as [Nx N3]. apply orb_false_iff in Nx as [N1 N2]. split; [|split; [apply no_wsp; assumption|discriminate]].
  cbn [app]. unfold IsCRLF. destruct (n ++ k); [reflexivity|]. now rewrite N2.
Qed.
Lemma infos_tokens : forallb (fun q => negb (beq (hiName (snd q)) []) && forallb rfcToken (hiName (snd q))) headerInfos = true.
Proof. vm_compute. reflexivity. Qed.
Lemma info_token i x : infoOf i = Some x -> wfToken (hiName x).
Proof.
  intros H. apply lookupInfo_in in H. pose proof infos_tokens as F. rewrite forallb_forall in F. apply F in H. cbn [snd] in H. apply andb_prop in H as [H1 H2]. split; [|exact H2]. intros E. rewrite E in H1. discriminate.
Qed.
Lemma written_all : forallb (fun i => negb (i =? SIP_HDR_UNKNOWN) && match infoOf i with Some _ => true | None => false end) writtenHeaders = true.
Proof. vm_compute. reflexivity. Qed.
Lemma written_info i : In i writtenHeaders -> i <> SIP_HDR_UNKNOWN /\ infoOf i <> None.
Proof.
  intros H. pose proof written_all as F. rewrite forallb_forall in F. apply F in H. apply andb_prop in H as [H1 H2]. split; [now apply negb_true_iff, N.eqb_neq in H1|]. destruct (infoOf i); [discriminate|discriminate H2].
Qed.
Lemma rawName_token h : wfRaw h -> wfToken (rawName h).
Proof.
  intros [_ W]. unfold rawName. destruct (rName h) as [n|].
  - destruct W as (-> & W & _). exact W.
  - destruct (written_info _ W) as [Hi Hn]. rewrite (proj2 (N.eqb_neq _ _) Hi). destruct (infoOf (rId h)) as [x|] eqn:E; [|congruence]. exact (info_token _ _ E).
Qed.
Lemma rt_rawName e h t u : infinite e -> wfRaw h -> plainHead t -> exists u', parseHeaderName e (mkst (rawName h ++ s2b ": " ++ t) u) = Ok (rName h, rId h) (mkst t u').
Proof.
  intros HI [_ W] Ht. unfold rawName. destruct (rName h) as [n|].
  - destruct W as (-> & W & Un). now apply rt_headerName_unknown.
  - destruct (written_info _ W) as [Hi Hn]. rewrite (proj2 (N.eqb_neq _ _) Hi). destruct (infoOf (rId h)) as [x|] eqn:E; [|congruence]. apply (rt_headerName_known e (hiName x)); [exact HI| |reflexivity|exact Ht].
    now apply info_recognised.
Qed.
Lemma rawValue_plain v r : wfRawValue v -> plainHead (v ++ CRLF ++ r).
Proof.
  intros (Vne & _ & Vw & Vc). destruct v as [|x v]; [congruence|]. cbn [app]. split.
  - intros (y & q & [= <- _] & Hy). apply Vw. exists x, v. auto.
  - intros (q & [= -> E]). destruct v as [|y v]; cbn [app] in E; [discriminate|]. injection E as -> E. apply Vc. exists v. reflexivity.
Qed.
Lemma raw_progresses : progresses (headersBody (fun (a : list raw) n i => h <- rawHeader n i ;; ret (a ++ [h]))).
Proof. apply (headers_progresses 1 9). intros. apply gd_rawHdr. lia. Qed.
Lemma encRaw_nowsp hs t : Forall wfRaw hs -> ~ startsWsp (encRawHeaders hs ++ CRLF ++ t).
Proof.
  intros H. destruct H as [|h hs Wh W]; [apply no_wsp; reflexivity|]. unfold encRawHeaders. cbn [flat_map]. unfold encRaw. rewrite <- !app_assoc. apply token_start, rawName_token, Wh.
Qed.
Lemma rt_rawHdrs e hs t : infinite e -> Forall wfRaw hs -> forall a u,
  exists u', loopP (headersBody (fun a n i => h <- rawHeader n i ;; ret (a ++ [h]))) a e (mkst (encRawHeaders hs ++ CRLF ++ t) u) = Ok (a ++ hs) (mkst t u').
Proof.
  intros HI W. induction W as [|h hs Wh W IH]; intros a u; rewrite loopP_unfold by apply raw_progresses; unfold headersBody at 1; rewrite onRest_eq.
  - cbn [encRawHeaders flat_map app]. exists u. rewrite app_nil_r. reflexivity.
  - unfold encRawHeaders. cbn [flat_map]. fold (encRawHeaders hs). set (q := encRawHeaders hs ++ CRLF ++ t) in *. assert (Q : ~ startsWsp q) by (now apply encRaw_nowsp).
    replace ((encRaw h ++ encRawHeaders hs) ++ CRLF ++ t) with (rawName h ++ s2b ": " ++ rValue h ++ CRLF ++ q) by (unfold encRaw, q; now rewrite <- !app_assoc).
    destruct (token_start (rawName h) (s2b ": " ++ rValue h ++ CRLF ++ q) (rawName_token _ Wh)) as (C1 & _ & C3).
    pose proof (proj1 Wh) as Wv. destruct (rt_rawName e h (rValue h ++ CRLF ++ q) u HI Wh (rawValue_plain _ _ Wv)) as [u1 E1].
    destruct (rawName h ++ s2b ": " ++ rValue h ++ CRLF ++ q) as [|z zs]; [congruence|]. rewrite C1.
    rewrite (bind_ok _ _ _ _ _ _ E1). cbn [fst snd].
    destruct (rt_rawValue e (rValue h) q (u1 + 8) HI Wv Q) as [u2 E2].
    assert (E3 : (h0 <- rawHeader (rName h) (rId h) ;; ret (a ++ [h0])) e (mkst (rValue h ++ CRLF ++ q) u1) = Ok (a ++ [h]) (mkst q u2)).
    { unfold rawHeader. rewrite (bind_ok _ _ _ _ _ _ (eq_trans (bind_ok _ _ _ _ _ _ (rt_alloc e 8 _ u1 HI)) (bind_ok _ _ _ _ _ _ E2))). destruct h; reflexivity. }
    rewrite (bind_ok _ _ _ _ _ _ E3). unfold ret at 1. destruct (IH (a ++ [h]) u2) as [u3 E4]. exists u3. rewrite E4, <- app_assoc. reflexivity.
Qed.
Lemma rt_rawHeaders e hs t u : infinite e -> Forall wfRaw hs -> exists u', parseRawHeaders e (mkst (encRawHeaders hs ++ CRLF ++ t) u) = Ok hs (mkst t u').
Proof. intros HI W. exact (rt_rawHdrs e hs t HI W [] u). Qed.

(** ** Whole blocks *)
Lemma rawValue_ok e s v s' : rawValue e s = Ok v s' -> exists line, headerLine (rest s) line (rest s') /\ cutCR line v.
Proof.
  unfold rawValue, onRest. destruct (FindCrlf (rest s)) as [[w r']|] eqn:F; [|discriminate]. rewrite goto_bind. unfold allocCString. destruct (leMem _ _); [|discriminate]. intros [= <- <-]. cbn [rest]. now apply FindCrlf_spec.
Qed.
Lemma name_token p n i : nameIs p n i -> wfToken p.
Proof.
  intros H. destruct H as [p name i I Sn|p W _]; [|exact W].
  assert (F : forallb (fun q => negb (beq (fst q) []) && forallb rfcToken (fst q)) recognisedNames = true) by (vm_compute; reflexivity). rewrite forallb_forall in F. apply F in I. cbn [fst] in I. apply andb_prop in I as [I1 I2].
  split.
  - intros ->. destruct name; [discriminate|discriminate Sn].
  - rewrite <- tokens_Is in I2 |- *. rewrite <- I2. clear F I1 I2. unfold sameNoCase in Sn. revert name Sn. induction p as [|x p IH]; intros [|y name] Sn; try discriminate; [reflexivity|]. cbn in Sn |- *. injection Sn as S1 S2.
    rewrite <- (asciiLower_token x), <- (asciiLower_token y), S1. now rewrite (IH name S2).
Qed.
Lemma name_start p n i k : nameIs p n i -> IsCRLF (p ++ k) = false /\ ~ startsWsp (p ++ k) /\ p ++ k <> [].
Proof. intros H. apply token_start. exact (name_token _ _ _ H). Qed.
Lemma block_complete e r hs r' : infinite e -> headerBlock r hs r' -> forall a u,
  exists u', loopP (headersBody (fun a n i => h <- rawHeader n i ;; ret (a ++ [h]))) a e (mkst r u) = Ok (a ++ hs) (mkst r' u').
Proof.
  intros HI B. induction B as [|r|p w t r1 line r2 h hs r' Np Hw Hs Hl Hv B IH]; intros a u; rewrite loopP_unfold by apply raw_progresses; unfold headersBody at 1; rewrite onRest_eq.
  - exists u. now rewrite app_nil_r.
  - exists u. rewrite app_nil_r. reflexivity.
  - destruct (name_start p _ _ (w ++ 58 :: t) Np) as (C1 & _ & C3). destruct (name_complete e p (rName h) (rId h) w t u HI Np Hw) as [u1 E1]. rewrite (SWS_det _ _ Hs) in E1.
    destruct (p ++ w ++ 58 :: t) as [|z zs]; [congruence|]. rewrite C1. rewrite (bind_ok _ _ _ _ _ _ E1). cbn [fst snd].
    assert (E3 : exists u3, (h0 <- rawHeader (rName h) (rId h) ;; ret (a ++ [h0])) e (mkst r1 u1) = Ok (a ++ [h]) (mkst r2 u3)).
    { assert (E2 : exists u3, rawValue e (mkst r1 (u1 + 8)) = Ok (rValue h) (mkst r2 u3)).
      { unfold rawValue. rewrite onRest_eq. rewrite (proj2 (FindCrlf_spec r1 (rValue h) r2) (ex_intro _ line (conj Hl Hv))). rewrite goto_bind. cbn [used]. rewrite rt_allocCString by exact HI. eexists. reflexivity. }
      destruct E2 as [u3 E2]. exists u3. unfold rawHeader. rewrite (bind_ok _ _ _ _ _ _ (eq_trans (bind_ok _ _ _ _ _ _ (rt_alloc e 8 _ u1 HI)) (bind_ok _ _ _ _ _ _ E2))). destruct h; reflexivity. }
    destruct E3 as [u3 E3]. rewrite (bind_ok _ _ _ _ _ _ E3). unfold ret at 1. destruct (IH (a ++ [h]) u3) as [u4 E4]. exists u4. rewrite E4, <- app_assoc. reflexivity.
Qed.
Lemma crlfOnly_suffix a b : suffix a b -> crlfOnly b -> crlfOnly a.
Proof. intros [p ->] H x y E. apply (H (p ++ x) y). rewrite E, app_assoc. reflexivity. Qed.
Lemma rawHeader_ok e n i s h s' : rawHeader n i e s = Ok h s' -> rName h = n /\ rId h = i /\ exists line, headerLine (rest s) line (rest s') /\ cutCR line (rValue h).
Proof.
  unfold rawHeader, bind, allocStruct. destruct (leMem _ _); [|discriminate]. destruct (rawValue e _) as [v s2|s2| |] eqn:E; try discriminate. intros [= <- <-]. apply rawValue_ok in E. cbn [rName rId rValue]. auto.
Qed.
Lemma block_sound_n e : forall n a s hs s', (List.length (rest s) <= n)%nat -> crlfOnly (rest s) ->
  loopP (headersBody (fun a n i => h <- rawHeader n i ;; ret (a ++ [h]))) a e s = Ok hs s' -> exists tl, hs = a ++ tl /\ headerBlock (rest s) tl (rest s').
Proof.
  induction n as [n IH] using lt_wf_ind. intros a s hs s' Hn Hc. rewrite loopP_unfold by apply raw_progresses.
  match goal with |- match ?x with _ => _ end = _ -> _ => destruct x as [[a1|b] s1|s1| |] eqn:E; try discriminate end.
  - intros H. pose proof (raw_progresses _ _ _ _ _ E) as L. unfold headersBody, onRest in E. destruct (rest s) as [|x r1] eqn:R; [discriminate|]. destruct (IsCRLF _) eqn:Cr; [discriminate|].
    unfold bind at 1 in E. destruct (parseHeaderName e s) as [[nm i] s2|s2| |] eqn:E1; try discriminate. cbn [fst snd] in E. rewrite <- R in Hc. pose proof (name_sound _ _ _ _ _ Hc E1) as (p & w & t & Er & Np & Hw & Es).
    unfold bind at 1 in E. unfold bind at 1 in E. destruct (rawHeader nm i e s2) as [h s3|s3| |] eqn:E2; try discriminate. injection E as <- <-. apply rawHeader_ok in E2 as (Hn1 & Hi1 & line & Hl & Hv).
    assert (S3 : suffix (rest s3) (rest s)).
    { rewrite Er. destruct Hl as (Hl & _). apply (suffix_trans _ (rest s2)); [exists (line ++ [10]); rewrite <- app_assoc; exact Hl|]. rewrite Es. apply (suffix_trans _ t); [apply ParseSWS_suffix|].
      exists (p ++ w ++ [58]). rewrite <- !app_assoc. reflexivity. }
    destruct (IH (List.length (rest s3)) ltac:(lia) (a ++ [h]) s3 hs s' ltac:(lia) (crlfOnly_suffix _ _ S3 Hc) H) as (tl & -> & B).
    exists (h :: tl). rewrite <- app_assoc. split; [reflexivity|]. rewrite <- R, Er. subst nm i. apply (HBLine p w t (rest s2) line (rest s3) h tl (rest s')); auto. rewrite Es. apply ParseSWS_spec_fwd.
  - intros [= <- <-]. unfold headersBody, onRest in E. destruct (rest s) as [|x r1] eqn:R.
    + injection E as <- <-. exists []. rewrite app_nil_r, R. split; [reflexivity|constructor].
    + destruct (IsCRLF (x :: r1)) eqn:Cr.
      * apply IsCRLF_spec in Cr as (t & Er). injection Er as -> ->. injection E as <- <-. exists []. rewrite app_nil_r. split; [reflexivity|constructor].
      * exfalso. unfold bind at 1 in E. destruct (parseHeaderName e s) as [[nm i] s2|s2| |]; try discriminate. unfold bind at 1 in E. destruct (bind _ _ _ _) as [h s3|s3| |]; discriminate.
Qed.
Lemma block_sound e s hs s' : crlfOnly (rest s) -> parseRawHeaders e s = Ok hs s' -> headerBlock (rest s) hs (rest s').
Proof. intros Hc H. destruct (block_sound_n e (List.length (rest s)) [] s hs s' (le_n _) Hc H) as (tl & -> & B). exact B. Qed.

(** Raw parsing never runs for ever. *)
Definition noLoop {A} (p : P A) : Prop := forall e s, p e s <> Loop.
Lemma noLoop_iterP {A B} (body : A -> P (A + B)) : progresses body -> (forall a, noLoop (body a)) -> forall f a e s, (List.length (rest s) < f)%nat -> iterP f body a e s <> Loop.
Proof.
  intros Pr Nb. induction f as [|f IH]; intros a e s L; [lia|]. cbn [iterP]. unfold bind. pose proof (Nb a e s) as Nl. destruct (body a e s) as [[a'|b] s'|s'| |] eqn:E; try discriminate; [|congruence].
  apply Pr in E. apply IH. lia.
Qed.
Lemma noLoop_loopP {A B} (body : A -> P (A + B)) a : progresses body -> (forall a, noLoop (body a)) -> noLoop (loopP body a).
Proof. intros Pr Nb e s. unfold loopP. apply noLoop_iterP; auto. Qed.
Lemma noLoop_bind {A B} (p : P A) (q : A -> P B) : noLoop p -> (forall a, noLoop (q a)) -> noLoop (bind p q).
Proof. intros Hp Hq e s. unfold bind. specialize (Hp e s). destruct (p e s); try discriminate; [apply Hq|congruence]. Qed.
Lemma noLoop_ret {A} (a : A) : noLoop (ret a). Proof. intros e s. discriminate. Qed.
Lemma noLoop_headerName : noLoop parseHeaderName.
Proof.
  intros e s. unfold parseHeaderName, onRest. destruct (GetSipHeaderIndex (rest s)) as [[i mid]|]; [|discriminate]. apply noLoop_bind.
  - destruct (i =? _).
    + apply noLoop_bind; [|intros; apply noLoop_ret]. intros e1 s1. unfold paCStringFromPos. destruct (_ && _)%bool; [discriminate|]. destruct (negb _); [discriminate|]. destruct (span _ _). destruct (negb _); [discriminate|].
      destruct (_ ++ _); [discriminate|]. destruct (negb _); discriminate.
    + intros e1 s1. discriminate.
  - intros a. apply noLoop_bind; [|intros; apply noLoop_ret]. intros e1 s1. unfold pHcolon, liftB. destruct (ParseHcolon _) as [r []]; discriminate.
Qed.
Lemma noLoop_rawHeader n i : noLoop (rawHeader n i).
Proof.
  unfold rawHeader. apply noLoop_bind; [intros e s; unfold allocStruct; destruct (leMem _ _); discriminate|]. intros _. apply noLoop_bind; [|intros; apply noLoop_ret]. intros e s. unfold rawValue, onRest.
  destruct (FindCrlf _) as [[v r']|]; [|discriminate]. rewrite goto_bind. unfold allocCString. destruct (leMem _ _); discriminate.
Qed.
Lemma noLoop_rawHeaders : noLoop parseRawHeaders.
Proof.
  apply noLoop_loopP; [apply raw_progresses|]. intros a e s. unfold headersBody, onRest. destruct (rest s) as [|x r1]; [discriminate|]. destruct (IsCRLF _); [discriminate|].
  apply noLoop_bind; [apply noLoop_headerName|]. intros ni. apply noLoop_bind; [|intros; apply noLoop_ret]. apply noLoop_bind; [apply noLoop_rawHeader|intros; apply noLoop_ret].
Qed.

(** It crashes only on an input that is cut off in a header name. *)
Lemma cutOff_suffix a b : suffix a b -> cutOff a -> cutOff b.
Proof. intros [p ->] (q & x & -> & H). exists (p ++ q), x. split; [apply app_assoc|exact H]. Qed.
Lemma name_panic e s : infinite e -> parseHeaderName e s = Panic -> cutOff (rest s).
Proof.
  intros HI. unfold parseHeaderName, onRest. destruct (GetSipHeaderIndex (rest s)) as [[i mid]|] eqn:E; [|intros _; now apply header_index_cut1]. unfold bind at 1. destruct (i =? _).
  - unfold bind at 1. unfold paCStringFromPos. destruct (_ && _)%bool; [discriminate|]. destruct (negb _); [discriminate|]. destruct (span _ _). rewrite inf_fits by exact HI. cbn [negb].
    destruct (_ ++ _); [discriminate|]. destruct (negb _); [discriminate|]. unfold ret, bind, pHcolon, liftB. destruct (ParseHcolon _) as [r []]; discriminate.
  - unfold goto, ret, bind, pHcolon, liftB. destruct (ParseHcolon _) as [r []]; discriminate.
Qed.
Lemma block_panic_n e : infinite e -> forall n a s, (List.length (rest s) <= n)%nat ->
  loopP (headersBody (fun a n i => h <- rawHeader n i ;; ret (a ++ [h]))) a e s = Panic -> cutOff (rest s).
Proof.
  intros HI. induction n as [n IH] using lt_wf_ind. intros a s Hn. rewrite loopP_unfold by apply raw_progresses.
  match goal with |- match ?x with _ => _ end = _ -> _ => destruct x as [[a1|b] s1|s1| |] eqn:E; try discriminate end.
  - intros H. pose proof (raw_progresses _ _ _ _ _ E) as L. assert (Su : suffix (rest s1) (rest s)).
    { eapply good_suffix; [|exact E]. apply (gd_headersBody 1 9); [lia|]. intros. apply gd_rawHdr. lia. }
    apply (cutOff_suffix _ _ Su). apply (IH (List.length (rest s1)) ltac:(lia) a1 s1 ltac:(lia) H).
  - intros _. unfold headersBody, onRest in E. destruct (rest s) as [|x r1] eqn:R; [discriminate|]. destruct (IsCRLF _); [discriminate|]. unfold bind at 1 in E.
    destruct (parseHeaderName e s) as [[nm i] s2|s2| |] eqn:E1; try discriminate; [|rewrite <- R; exact (name_panic _ _ HI E1)].
    exfalso. unfold bind at 1 in E. unfold bind at 1 in E. unfold rawHeader, bind, allocStruct, rawValue, onRest in E. rewrite inf_le in E by exact HI. destruct (FindCrlf _) as [[v r']|]; [|discriminate].
    unfold goto, bind, allocCString in E. rewrite inf_le in E by exact HI. discriminate.
Qed.
Lemma block_panic e s : infinite e -> parseRawHeaders e s = Panic -> cutOff (rest s).
Proof. intros HI. apply (block_panic_n e HI _ [] s (le_n _)). Qed.
