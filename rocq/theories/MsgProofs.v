From Verif Require Import Base Charset CharsetSpec CharsetProofs BaseLemmas Num NumSpec NumProofs Lws LwsSpec LwsProofs Str StrSpec StrProofs Monad Good Rt Seq GoodAuto Inv
  IndexTree IndexProofs MethodTree HeaderTree Lookup NameSpec NameProofs Room Host HostSpec HostProofs Uri UriSpec UriGood UriProofs Tel TelSpec TelProofs GenParam GenParamSpec GenParamProofs Addr AddrSpec AddrProofs
  StartLine StartLineSpec StartLineProofs Headers HeadersSpec HeadersProofs RawHeaders RawSpec RawProofs Msg.

(** ** Well-behavedness *)
Lemma IsOnlyCRLF_len r : IsOnlyCRLF r = true -> exists t, r = 13 :: 10 :: t.
Proof. unfold IsOnlyCRLF. destruct r as [|a [|b t]]; try discriminate. intros H. destruct t; repeat (apply andb_prop in H as [H ?]); repeat match goal with X : (_ =? _) = true |- _ => apply N.eqb_eq in X end; subst; eauto. Qed.
Lemma gd_multiBody K k set st e s : 26 <= K -> goodAt K 204 (multiBody k set st) e s.
Proof.
  intros HK. unfold multiBody. destruct s as [r u]. apply goodAt_onRest. cbn [rest]. destruct r as [|x r1]; [good|]. cbv zeta. destruct (IsOnlyCRLF (x :: r1)) eqn:E.
  - apply IsOnlyCRLF_len in E as (t & E). injection E as -> ->. apply goodAt_goto_bind; [exists [13; 10]; reflexivity|good].
  - pose proof (ParseSWSMarkCanOmmit_suffix 44 (x :: r1)) as Su. destruct (ParseSWSMarkCanOmmit 44 (x :: r1)) as [[r' []] []]; cbn [fst] in Su; solve [good].
Qed.
Lemma multi_progresses k set : progresses (multiBody k set).
Proof.
  intros a e s a' s' E. unfold multiBody, onRest in E. destruct (rest s) as [|x r1] eqn:R; [discriminate|]. cbv zeta in E. destruct (IsOnlyCRLF _); [discriminate|].
  assert (NC : forall b : hset, (pCRLF ;;; ret (@inr (hset * hval) hset b)) e s <> Ok (inl a') s') by (intros b H; apply bind_inv in H as (? & ? & _ & H); discriminate).
  destruct (ParseSWSMarkCanOmmit 44 (x :: r1)) as [[r' []] []] eqn:M; try (exfalso; exact (NC _ E)).
  apply mark_progress in M. rewrite goto_bind in E. apply bind_inv in E as (v & s1 & E1 & E). injection E as _ <-. apply (good_suffix 26 204) in E1; [|apply gd_sipX; lia]. cbn [rest] in E1. apply suffix_length in E1. lia.
Qed.
Lemma needParse_mem o e m i : needParse o (withMem m e) i = needParse o e i. Proof. reflexivity. Qed.
Lemma gd_oneHeader K o a n i e s : 230 <= K -> goodAt K 408 (oneHeader o a n i) e s.
Proof.
  intros HK. unfold oneHeader. apply goodAt_withEnv; [reflexivity|]. destruct (needParse o e i) as [[k []]|].
  - eapply goodAt_bind; [apply gd_sipX; lia|lia|intros v s' m _]. eapply (goodAt_loopP 26 204); [apply multi_progresses|lia|lia|]. intros. apply gd_multiBody. lia.
  - eapply goodAt_bind; [apply gd_sipX; lia|lia|intros; good].
  - eapply goodAt_bind; [apply gd_rawHeader; lia|lia|intros; good].
Qed.
Lemma gd_headers K o e s : 641 <= K -> goodAt K 411 (parseHeaders o) e s.
Proof.
  intros HK. unfold parseHeaders. apply (goodAt_loopP 230 411); [|lia|lia|].
  - apply (headers_progresses 230 408). intros. apply gd_oneHeader. lia.
  - intros. apply (gd_headersBody 230 408); [lia|]. intros. apply gd_oneHeader. lia.
Qed.
Lemma stripPrefix_app p r t : stripPrefix p r = Some t <-> r = p ++ t.
Proof.
  revert r. induction p as [|x p IH]; intros r; cbn [stripPrefix app]; [split; [intros [= ->]|intros ->]; reflexivity|]. destruct r as [|y r]; [split; discriminate|]. destruct (N.eqb_spec x y) as [->|Hn].
  - rewrite IH. split; [intros ->; reflexivity|intros [= ->]; reflexivity].
  - split; [discriminate|intros [= H _]; congruence].
Qed.
Lemma splitAt_app p r a t : splitAt p r = Some (a, t) -> r = a ++ p ++ t.
Proof.
  revert a t. induction r as [|x r IH]; intros a t; cbn [splitAt].
  - destruct (stripPrefix p []) as [t'|] eqn:E; [|discriminate]. intros [= <- <-]. now apply stripPrefix_app in E.
  - destruct (stripPrefix p (x :: r)) as [t'|] eqn:E; [intros [= <- <-]; now apply stripPrefix_app in E|]. destruct (splitAt p r) as [[a1 t1]|] eqn:E2; [|discriminate]. intros [= <- <-]. now rewrite (IH _ _ eq_refl).
Qed.
Lemma gd_data K d r e r3 u (f : option bytes -> list body) : 1 <= K -> (exists q, r3 = d ++ q ++ r /\ 2 <= len q) ->
  goodAt K 0 (o <- attempt (allocCString d) ;; goto r ;;; ret (@inl _ (list body) (f o))) e (mkst r3 u).
Proof.
  intros HK (q & -> & Lq). unfold bind, attempt, allocCString, goto, ret. assert (Su : suffix r (d ++ q ++ r)) by (exists (d ++ q); apply app_assoc). split.
  - intros m. destruct (leMem _ _); cbn [rest used]; (split; [exact Su|lia]).
  - unfold leMem. cbn [memend withMem rest used]. rewrite !len_app. nia.
  - intros m Hm. cbn [rest used] in *. rewrite !len_app in Hm. rewrite leMem_enough by nia. reflexivity.
Qed.
Lemma gd_multipartBody K dl bs e s : 641 <= K -> 2 <= len dl -> goodAt K 427 (multipartBody dl bs) e s.
Proof.
  intros HK Hd. unfold multipartBody. destruct s as [r u]. apply goodAt_onRest. cbn [rest]. destruct r as [|x [|y r2]]; [good|good|]. destruct (_ || _)%bool; [apply goodAt_goto_bind; [exists [x; y]; reflexivity|good]|].
  destruct (FindCrlf _) as [[v r1]|] eqn:F; [|apply goodAt_goto_bind; [apply suffix_nil|good]]. apply FindCrlf_suffix in F as (Su & _). apply goodAt_goto_bind; [exact Su|].
  eapply goodAt_bind; [apply gd_alloc|lia|intros ? s1 m1 _]. eapply goodAt_bind; [apply gd_headers; exact HK|lia|intros h s2 m2 _]. destruct s2 as [r3 u3]. apply goodAt_onRest. cbn [rest].
  destruct (splitAt dl r3) as [[d r4]|] eqn:E; [|good]. apply splitAt_app in E. eapply goodAt_tail; [apply gd_data; [lia|exists dl; auto]|lia].
Qed.
Lemma multipart_progresses dl : progresses (multipartBody dl).
Proof.
  intros a e s a' s' E. unfold multipartBody, onRest in E. destruct (rest s) as [|x [|y r2]] eqn:R; [discriminate|discriminate|]. destruct (_ || _)%bool; [discriminate|].
  destruct (FindCrlf _) as [[v r1]|] eqn:F; [|discriminate]. apply FindCrlf_suffix in F as (_ & L & _). rewrite goto_bind in E. apply bind_inv in E as (z & s1 & E1 & E). apply alloc_inv in E1 as [E1 _]. cbn [Base.rest] in E1.
  apply bind_inv in E as (h & s2 & E2 & E). apply (good_suffix 641 411) in E2; [|apply gd_headers; lia]. unfold onRest in E. destruct (splitAt dl (rest s2)) as [[d r4]|] eqn:Sp; [|discriminate].
  apply splitAt_app in Sp. apply bind_inv in E as (o & s3 & E3 & E). rewrite goto_bind in E. injection E as _ <-. cbn [Base.rest]. apply suffix_length in E2. rewrite E1 in E2. rewrite Sp, !app_length in E2. lia.
Qed.
Lemma gd_parseMulti K b e s : 1068 <= K -> goodAt K 427 (parseMultiBody b) e s.
Proof.
  intros HK. unfold parseMultiBody. destruct s as [r u]. apply goodAt_onRest. cbn [rest]. destruct (stripPrefix _ _) as [r'|] eqn:E; [|good]. apply stripPrefix_app in E. apply goodAt_goto_bind; [exists (45 :: 45 :: b); exact E|].
  apply (goodAt_loopP 641 427); [apply multipart_progresses|lia|lia|]. intros. apply gd_multipartBody; [lia|unfold len; cbn [List.length]; lia].
Qed.

(** The last parser of a message does not move the position: as [goodAt], with the memory bounded by the input at the start. *)
Record goodEnd {A} (K C : N) (p : P A) (e : env) (s : st) : Prop := mkgoodEnd {
  end_any : forall m, match p (withMem m e) s with
                      | Ok _ s' | Fail s' => suffix (rest s') (rest s) /\ used s <= used s'
                      | Panic => True
                      | Loop => loopy (rest s)
                      end;
  end_mem : match p (withMem None e) s with
            | Ok _ s' | Fail s' => used s' <= used s + C + K * len (rest s)
            | Panic => crashy (rest s)
            | Loop => True
            end;
  end_enough : forall m, used s + C + K * len (rest s) <= m -> p (withMem (Some m) e) s = p (withMem None e) s
}.
Lemma goodEnd_of {A} K C (p : P A) e s : goodAt K C p e s -> goodEnd K C p e s.
Proof. intros [G1 G2 G3]. split; auto. destruct (p (withMem None e) s) as [a s'|s'| |]; auto. nia. Qed.
Lemma goodEnd_weaken {A} K C K' C' (p : P A) e s : K' <= K -> C' <= C -> goodEnd K' C' p e s -> goodEnd K C p e s.
Proof. intros HK HC [G1 G2 G3]. split; [exact G1| |intros m Hm; apply G3; nia]. destruct (p (withMem None e) s) as [a s'|s'| |]; auto; nia. Qed.
Lemma goodEnd_bind {A B} K C C1 (p : P A) (q : A -> P B) e s :
  goodAt K C1 p e s -> C1 <= C -> (forall a s' m, p (withMem m e) s = Ok a s' -> goodEnd K (C - C1) (q a) e s') -> goodEnd K C (bind p q) e s.
Proof.
  intros [G1 G2 G3] HC Q. unfold bind. split.
  - intros m. specialize (G1 m). destruct (p (withMem m e) s) as [a s'|s'| |] eqn:E; [|exact G1|exact I|exact G1].
    destruct (Q a s' m E) as [Q1 _ _]. specialize (Q1 m). destruct G1 as [S1 U1].
    destruct (q a (withMem m e) s') as [b s2|s2| |]; [| |exact I|].
    + destruct Q1 as [S2 U2]. split; [exact (suffix_trans _ _ _ S2 S1)|lia].
    + destruct Q1 as [S2 U2]. split; [exact (suffix_trans _ _ _ S2 S1)|lia].
    + exact (loopy_suffix _ _ S1 Q1).
  - specialize (G1 None). destruct (p (withMem None e) s) as [a s'|s'| |] eqn:E; [| |exact G2|exact I].
    + destruct (Q a s' None E) as [_ Q2 _]. destruct G1 as [S1 U1].
      destruct (q a (withMem None e) s') as [b s2|s2| |]; [lia|lia| |exact I]. exact (crashy_suffix _ _ S1 Q2).
    + lia.
  - intros m Hm. rewrite (G3 m) by lia. destruct (p (withMem None e) s) as [a s'|s'| |] eqn:E; try reflexivity.
    destruct (Q a s' None E) as [_ _ Q3]. apply Q3. lia.
Qed.
Lemma goodEnd_then {A B} K C (p : P A) (f : A -> B) e s : goodEnd K C p e s -> goodEnd K C (a <- p ;; ret (f a)) e s.
Proof.
  intros [G1 G2 G3]. unfold bind, ret. split.
  - intros m. specialize (G1 m). destruct (p (withMem m e) s); exact G1.
  - destruct (p (withMem None e) s); exact G2.
  - intros m Hm. rewrite (G3 m Hm). reflexivity.
Qed.
Lemma goodEnd_onRest {A} K C (f : bytes -> P A) e s : goodEnd K C (f (rest s)) e s -> goodEnd K C (onRest f) e s.
Proof. intros [G1 G2 G3]. split; assumption. Qed.
Lemma gd_single K h e s : 1 <= K -> goodEnd K 18 (parseSingleBody h) e s.
Proof.
  intros HK. unfold parseSingleBody. destruct s as [r u]. apply goodEnd_onRest. cbn [rest].
  set (size := match contentLengthOf h with Some (VNum n) => N.min n (len r) | _ => 0 end).
  assert (L : size <= len r) by (unfold size; destruct (contentLengthOf h) as [[]|]; lia). destruct (size =? 0); [apply goodEnd_of; good|].
  eapply goodEnd_bind; [apply gd_alloc|lia|]. intros ? s' m E. apply alloc_inv in E as [E _]. cbn [rest] in E. apply (goodEnd_then K (18 - 16) (allocCString (firstn (N.to_nat size) r))).
  assert (Lf : len (firstn (N.to_nat size) r) <= len r) by (unfold len; rewrite firstn_length; lia). unfold allocCString. rewrite <- E in Lf. rewrite <- E.
  assert (LK : 1 * len (Base.rest s') <= K * len (Base.rest s')) by (apply N.mul_le_mono_r; lia). split.
  - intros m0. destruct (leMem _ _); cbn [rest used]; (split; [apply suffix_refl|lia]).
  - unfold leMem. cbn [memend withMem Base.rest Base.used]. lia.
  - intros m0 Hm. rewrite leMem_enough by lia. reflexivity.
Qed.
Lemma gd_msgBody K h e s : 1068 <= K -> goodEnd K 427 (parseMsgBody h) e s.
Proof.
  intros HK. unfold parseMsgBody. destruct (contentTypeOf h) as [v|]; [|apply goodEnd_of; good]. destruct v; try solve [apply goodEnd_of; good].
  pose proof (CStringEqualNoCase_total main (s2b "multipart") ltac:(discriminate)) as T. destruct (CStringEqualNoCase main _) as [[]|]; [| |congruence].
  - destruct (boundaryParam _); [|apply goodEnd_of; good]. apply goodEnd_of, gd_parseMulti, HK.
  - apply (goodEnd_weaken K 427 1 18); [lia|lia|]. apply gd_single. lia.
Qed.
Definition msgCost (r : bytes) : N := 923 + 1068 * len r.
Lemma gd_msg e s : goodEnd 1068 923 parseMsg e s.
Proof.
  unfold parseMsg. eapply goodEnd_bind; [apply gd_startLine; lia|lia|]. intros l s1 m1 _. apply goodEnd_onRest. destruct (rest s1); [apply goodEnd_of; good|].
  eapply goodEnd_bind; [apply gd_headers; lia|lia|]. intros h s2 m2 _. apply (goodEnd_then 1068). apply (goodEnd_weaken 1068 _ 1068 427); [lia|lia|]. apply gd_msgBody. lia.
Qed.
