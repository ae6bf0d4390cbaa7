(** The logged parsers of header blocks and messages. *)
From Verif Require Import Base Charset BaseLemmas Num Lws LwsProofs Str StrProofs Monad MethodTree HeaderTree Lookup Host Uri Tel GenParam Addr StartLine Headers RawHeaders Msg NameSpec NameProofs
  Good Rt Seq GoodAuto Inv UriGood TelProofs GenParamProofs AddrProofs StartLineProofs HeadersProofs RawProofs MsgProofs Log LogProofs LogAuto LogAddr.

Definition atWsp (r : bytes) : Prop := exists x t, r = x :: t /\ isWsp x = true.
(** As [lgAt false], but a success may leave an error when a folded line is next. *)
Record lgW {A} (lp : L A) (p : P A) (e : env) (s : st) : Prop := mklgW {
  lw_er : fst (lp e s) = p e s;
  lw_ok : match fst (lp e s) with
          | Ok _ s' => (snd (lp e s) = [] \/ atWsp (rest s')) /\ suffix (rest s') (rest s)
          | Fail s' => suffix (rest s') (rest s)
          | _ => True
          end;
  lw_in : Forall (fun x => suffix (eAt x) (rest s)) (snd (lp e s)) }.
Lemma lgW_of {A} b (lp : L A) p e s : lgAt b lp p e s -> lgW lp p e s.
Proof. intros [G1 G2 G3]. split; auto. destruct (fst (lp e s)); auto; destruct G2; auto. Qed.
Lemma lgW_bind {A B} b (lp : L A) p (lf : A -> L B) f e s : lgAt b lp p e s -> (forall a s', p e s = Ok a s' -> lgW (lf a) (f a) e s') -> lgW (bindL lp lf) (bind p f) e s.
Proof.
  intros [G1 G2 G3] Hf. unfold bindL, bind.
  assert (Q : fst (lp e s) = p e s) by exact G1. destruct (lp e s) as [r l] eqn:E. cbn [fst snd] in Q, G2, G3.
  split; rewrite ?E, <- ?Q.
  - destruct r as [a s'|s'| |]; try reflexivity. destruct (Hf a s' (eq_sym Q)) as [F1 F2 F3]. destruct (lf a e s') as [r' l'] eqn:E'. cbn. exact F1.
  - destruct r as [a s'|s'| |]; cbn [fst snd]; auto; [|apply G2]. destruct (Hf a s' (eq_sym Q)) as [F1 F2 F3]. destruct (lf a e s') as [r' l'] eqn:E'. cbn [fst snd] in *.
    destruct G2 as [-> Su]. cbn [app]. destruct r'; auto; [destruct F2; split; auto|]; eapply suffix_trans; eassumption.
  - destruct r as [a s'|s'| |]; cbn [fst snd]; auto. destruct (Hf a s' (eq_sym Q)) as [F1 F2 F3]. destruct (lf a e s') as [r' l'] eqn:E'. cbn [fst snd] in *.
    destruct G2 as [-> Su]. cbn [app]. apply (Forall_suffix _ _ _ Su F3).
Qed.
(** A loop whose rounds add nothing before the last one. *)
Lemma lgW_iter {A B} (lb : A -> L (A + B)) body e : (forall a s, lgW (lb a) (body a) e s) -> (forall a s a' s', body a e s = Ok (inl a') s' -> snd (lb a e s) = []) ->
  forall n a s, lgW (iterL n lb a) (iterP n body a) e s.
Proof.
  intros H Hc. induction n as [|n IH]; intros a s; cbn [iterL iterP]; [split; cbn; auto|].
  destruct (H a s) as [G1 G2 G3]. specialize (Hc a s). unfold bindL, bind. destruct (lb a e s) as [r l] eqn:E. cbn [fst snd] in *. 
  destruct r as [[a'|b'] s'|s'| |].
  - specialize (Hc a' s' (eq_sym G1)). subst l. destruct (IH a' s') as [F1 F2 F3]. destruct G2 as [_ Su]. split; rewrite ?E, <- ?G1; destruct (iterL n lb a' e s') as [r' l'] eqn:E'; cbn [fst snd app] in *.
    + exact F1.
    + destruct r'; auto; [destruct F2; split; auto|]; eapply suffix_trans; eassumption.
    + apply (Forall_suffix _ _ _ Su F3).
  - split; rewrite ?E, <- ?G1; cbn [retL silent fst snd]; rewrite ?app_nil_r; auto.
  - split; rewrite ?E, <- ?G1; cbn [fst snd]; auto.
  - split; rewrite ?E, <- ?G1; cbn [fst snd]; auto.
  - split; rewrite ?E, <- ?G1; cbn [fst snd]; auto.
Qed.
Lemma lgW_loop {A B} (lb : A -> L (A + B)) body a e s : (forall a s, lgW (lb a) (body a) e s) -> (forall a s a' s', body a e s = Ok (inl a') s' -> snd (lb a e s) = []) ->
  lgW (loopL lb a) (loopP body a) e s.
Proof. intros H Hc. destruct (lgW_iter lb body e H Hc (S (List.length (rest s))) a s) as [G1 G2 G3]. split; assumption. Qed.

(** ** One header *)
Lemma wspChar_isWsp x : IsWspChar x = true -> isWsp x = true.
Proof. apply inset_sweep. vm_compute. reflexivity. Qed.
Lemma crlf_wsp e s s' r' m : ParseSWSMarkCanOmmit 44 (rest s) = (r', m, false) -> IsOnlyCRLF (rest s) = false -> pCRLF e s = Ok tt s' -> atWsp (rest s').
Proof.
  intros M Ho H. unfold pCRLF, liftB in H. destruct (ParseCRLF (rest s)) as [q ok] eqn:E. destruct ok; [|discriminate]. injection H as <-. cbn [rest].
  unfold ParseCRLF in E. destruct (rest s) as [|a [|b t]]; try discriminate. destruct ((a =? 13) && (b =? 10))%bool eqn:Eab; [|discriminate]. injection E as <-.
  apply andb_prop in Eab as [Ea Eb]. apply N.eqb_eq in Ea, Eb. subst a b. unfold IsOnlyCRLF in Ho. destruct t as [|x t]; [discriminate|]. exists x, t. split; [reflexivity|].
  apply andb_false_iff in Ho as [Ho|Ho]; [discriminate|]. apply negb_false_iff in Ho. now apply wspChar_isWsp.
Qed.
Lemma headerName_atWsp e s a s' : atWsp (rest s) -> parseHeaderName e s <> Ok a s'.
Proof.
  intros (x & t & R & W) E. unfold parseHeaderName, onRest in E. rewrite R in E.
  assert (Gi : GetSipHeaderIndex (x :: t) = Some (SIP_HDR_UNKNOWN, x :: t)).
  { unfold isWsp in W. apply orb_prop in W as [W|W]; apply N.eqb_eq in W; subst x; vm_compute; reflexivity. }
  rewrite Gi in E. apply bind_inv in E as (n & s1 & E & _). change (SIP_HDR_UNKNOWN =? SIP_HDR_UNKNOWN) with true in E. cbv iota in E. apply bind_inv in E as (t0 & s2 & E & _).
  unfold paCStringFromPos in E. rewrite R, Nat.sub_diag in E. cbn [firstn] in E. assert (Sp : span (inset SIP_TOKEN) (x :: t) = ([], x :: t)).
  { cbn [span]. unfold isWsp in W. apply orb_prop in W as [W|W]; apply N.eqb_eq in W; subst x; reflexivity. }
  cbv zeta in E. destruct (negb (beq [] []) && _)%bool; [discriminate|]. destruct (negb _); [discriminate|]. rewrite Sp in E. destruct (negb _); discriminate.
Qed.
Lemma lgW_multiBody k set st e s : lgW (multiBodyL k set st) (multiBody k set st) e s.
Proof.
  unfold multiBodyL, multiBody. destruct s as [r u].
  assert (H : forall r0, r0 = r -> lgW (match r0 with
    | [] => retL (inr (set (fst st) (snd st)))
    | _ :: r1 =>
      let a := set (fst st) (snd st) in
      if IsOnlyCRLF r0 then gotoL (tl r1) ;+> retL (inr a)
      else match ParseSWSMarkCanOmmit 44 r0 with
           | (r', true, true) => gotoL r' ;+> (v <+ parseSipXL k ;+ retL (inl (a, v)))
           | (r', _, false) => fun e s => let '(x, l) := (silent pCRLF ;+> retL (inr a)) e s in (x, mkerr r' "reach end before mark for SWSMark" :: l)
           | _ => silent pCRLF ;+> retL (inr a)
           end end)
    (match r0 with
    | [] => ret (inr (set (fst st) (snd st)))
    | _ :: r1 =>
      let a := set (fst st) (snd st) in
      if IsOnlyCRLF r0 then goto (tl r1) ;;; ret (inr a)
      else match ParseSWSMarkCanOmmit 44 r0 with
           | (r', true, true) => goto r' ;;; (v <- parseSipX k ;; ret (inl (a, v)))
           | _ => pCRLF ;;; ret (inr a)
           end end) e (mkst r u)).
  { intros r0 ->. destruct r as [|x r1]; [apply (lgW_of false); lg|]. cbv zeta. destruct (IsOnlyCRLF (x :: r1)) eqn:Eo.
    - assert (Eo' := Eo). apply IsOnlyCRLF_len in Eo' as (t & Et). injection Et as -> ->. apply (lgW_of false). apply lg_goto_bind; [exists [13; 10]; reflexivity|lg].
    - pose proof (ParseSWSMarkCanOmmit_suffix 44 (x :: r1)) as Su. destruct (ParseSWSMarkCanOmmit 44 (x :: r1)) as [[r' m] ok] eqn:M. cbn [fst] in Su.
      assert (Q : lgAt false (silent pCRLF ;+> @retL ((hset * hval) + hset) (inr (set (fst st) (snd st)))) (pCRLF ;;; ret (inr (set (fst st) (snd st)))) e (mkst (x :: r1) u)) by lg.
      destruct ok; [destruct m; [apply (lgW_of false); lg|apply (lgW_of false), Q]|]. 
      assert (Q' : forall m0, m0 = m -> lgW (fun e s => let '(x, l) := (silent pCRLF ;+> @retL ((hset * hval) + hset) (inr (set (fst st) (snd st)))) e s in (x, mkerr r' "reach end before mark for SWSMark" :: l))
        (pCRLF ;;; ret (inr (set (fst st) (snd st)))) e (mkst (x :: r1) u)).
      { intros m0 ->. destruct Q as [Q1 Q2 Q3]. split; destruct ((silent pCRLF ;+> @retL ((hset * hval) + hset) (inr (set (fst st) (snd st)))) e (mkst (x :: r1) u)) as [q l] eqn:E; cbn [fst snd] in *.
        - exact Q1.
        - destruct q as [b s'|s'| |]; auto; [|apply Q2]. destruct Q2 as [_ Q2]. split; [|exact Q2]. right. symmetry in Q1. apply bind_inv in Q1 as ([] & s1 & E1 & E2). injection E2 as _ <-.
          apply (crlf_wsp e (mkst (x :: r1) u) s1 r' m); [exact M|exact Eo|exact E1].
        - constructor; [exact Su|exact Q3]. }
      destruct m; apply (Q' _ eq_refl). }
  destruct (H r eq_refl) as [G1 G2 G3]. split; assumption.
Qed.
Lemma multiBody_quiet k set st e s st' s' : multiBody k set st e s = Ok (inl st') s' -> snd (multiBodyL k set st e s) = [].
Proof.
  unfold multiBodyL, multiBody, onRest, onRestL. destruct (rest s) as [|x r1] eqn:R; [discriminate|]. cbv zeta. destruct (IsOnlyCRLF _); [discriminate|].
  assert (NC : forall b : hset, (pCRLF ;;; ret (@inr (hset * hval) hset b)) e s <> Ok (inl st') s') by (intros b H; apply bind_inv in H as (? & ? & _ & H); discriminate).
  destruct (ParseSWSMarkCanOmmit 44 (x :: r1)) as [[r' []] []] eqn:M; try (intros H; exfalso; exact (NC _ H)). intros H.
  assert (Su := ParseSWSMarkCanOmmit_suffix 44 (x :: r1)). rewrite M in Su. cbn [fst] in Su.
  assert (G : lgAt false (gotoL r' ;+> (v <+ parseSipXL k ;+ @retL ((hset * hval) + hset) (inl (set (fst st) (snd st), v)))) (goto r' ;;; (v <- parseSipX k ;; ret (inl (set (fst st) (snd st), v)))) e s).
  { apply lg_goto_bind; [rewrite R; exact Su|lg]. }
  destruct G as [G1 G2 _]. rewrite G1, H in G2. apply G2.
Qed.
Lemma lgW_oneHeader o a n i e s : lgW (oneHeaderL o a n i) (oneHeader o a n i) e s.
Proof.
  assert (H : lgW (match needParse o e i with
    | Some (k, multi) => v <+ parseSipXL k ;+ (if multi : bool then loopL (multiBodyL k (setCommon o i true)) (a, v) else silent pCRLF ;+> retL (setCommon o i false a v))
    | None => silent (h <- rawHeader n i ;; ret (addRaw a h)) end)
    (match needParse o e i with
    | Some (k, multi) => v <- parseSipX k ;; (if multi : bool then loopP (multiBody k (setCommon o i true)) (a, v) else pCRLF ;;; ret (setCommon o i false a v))
    | None => h <- rawHeader n i ;; ret (addRaw a h) end) e s).
  { destruct (needParse o e i) as [[k []]|].
    - apply (lgW_bind false); [apply lg_sipX|]. intros v s' _. apply lgW_loop; [intros; apply lgW_multiBody|intros a0 s0 a1 s1; apply multiBody_quiet].
    - apply (lgW_bind false); [apply lg_sipX|]. intros v s' _. apply (lgW_of false). lg.
    - apply (lgW_of false). apply lg_quiet. eapply (sfx_good 1). eapply (goodAt_bind 1 9); [apply gd_rawHeader; lia|lia|intros; good]. }
  destruct H as [G1 G2 G3]. split; assumption.
Qed.

(** ** Header blocks *)
Lemma headersBody_atWsp {A} (hdr : A -> option bytes -> N -> P A) a e s x s' : atWsp (rest s) -> headersBody hdr a e s <> Ok x s'.
Proof.
  intros W E. unfold headersBody, onRest in E. assert (W' := W). destruct W' as (y & t & R & Wy). rewrite R in E.
  assert (Nc : IsCRLF (y :: t) = false). { destruct (IsCRLF (y :: t)) eqn:C; [|reflexivity]. apply IsCRLF_spec in C as (q & [= -> ->]). discriminate. }
  rewrite Nc in E. apply bind_inv in E as (ni & s1 & E & _). exact (headerName_atWsp e s _ _ W E).
Qed.
Lemma lg_headersIter o e : forall n a s, lgAt false (iterL n (headersBodyL (orErr "parsed header name failed" parseHeaderNameL) (oneHeaderL o)) a) (iterP n (headersBody (oneHeader o)) a) e s.
Proof.
  induction n as [|n IH]; intros a s; cbn [iterL iterP]; [split; cbn; auto|].
  assert (B : lgW (headersBodyL (orErr "parsed header name failed" parseHeaderNameL) (oneHeaderL o) a) (headersBody (oneHeader o) a) e s).
  { unfold headersBodyL, headersBody. destruct s as [r u].
    assert (Hb : forall r0, r0 = r -> lgW (match r0 with [] => retL (inr a) | x :: r1 => if IsCRLF r0 then gotoL (tl r1) ;+> retL (inr a)
        else ni <+ orErr "parsed header name failed" parseHeaderNameL ;+ (a' <+ oneHeaderL o a (fst ni) (snd ni) ;+ retL (inl a')) end)
      (match r0 with [] => ret (inr a) | x :: r1 => if IsCRLF r0 then goto (tl r1) ;;; ret (inr a) else ni <- parseHeaderName ;; (a' <- oneHeader o a (fst ni) (snd ni) ;; ret (inl a')) end) e (mkst r u)).
    { intros r0 ->. destruct r as [|x r1]; [apply (lgW_of false); lg|]. destruct (IsCRLF (x :: r1)) eqn:E.
      - apply IsCRLF_spec in E as (t & E). injection E as -> ->. apply (lgW_of false). apply lg_goto_bind; [exists [13; 10]; reflexivity|lg].
      - apply (lgW_bind false); [lg|]. intros ni s' _. destruct (lgW_oneHeader o a (fst ni) (snd ni) e s') as [F1 F2 F3]. unfold bindL, bind. split; rewrite <- ?F1;
          destruct (oneHeaderL o a (fst ni) (snd ni) e s') as [[a1 s1|s1| |] l] eqn:E1; cbn [retL silent ret fst snd] in *; rewrite ?app_nil_r; auto. }
    destruct (Hb r eq_refl) as [G1 G2 G3]. split; assumption. }
  destruct B as [G1 G2 G3].
  destruct (headersBodyL (orErr "parsed header name failed" parseHeaderNameL) (oneHeaderL o) a e s) as [r l] eqn:E. cbn [fst snd] in *.
  destruct r as [[a'|b'] s'|s'| |]; unfold bindL, bind.
  - destruct (IH a' s') as [F1 F2 F3]. destruct G2 as [Gl Su]. split; rewrite ?E, <- ?G1; destruct (iterL n (headersBodyL (orErr "parsed header name failed" parseHeaderNameL) (oneHeaderL o)) a' e s') as [r' l'] eqn:E'; cbn [fst snd] in *.
    + exact F1.
    + destruct r' as [z s2|s2| |]; auto; [|destruct F2 as [_ F2]; split; [discriminate|exact (suffix_trans _ _ _ F2 Su)]].
      destruct F2 as [-> F2]. rewrite app_nil_r. split; [|exact (suffix_trans _ _ _ F2 Su)]. destruct Gl as [->|W]; [reflexivity|]. exfalso. symmetry in F1. destruct n as [|n]; [discriminate|]. cbn [iterP] in F1.
      apply bind_inv in F1 as (q & s3 & F1 & _). exact (headersBody_atWsp _ _ _ _ _ _ W F1).
    + apply Forall_app. split; [exact G3|apply (Forall_suffix _ _ _ Su F3)].
  - (* the last round adds nothing *)
    assert (Hl : l = []).
    { clear IH. unfold headersBodyL, onRestL in E. unfold headersBody, onRest in G1. destruct (rest s) as [|x r1]; [injection E as _ _ <-; reflexivity|]. destruct (IsCRLF _); [injection E as _ _ <-; reflexivity|].
      symmetry in G1. apply bind_inv in G1 as (ni & s1 & _ & G1). apply bind_inv in G1 as (a1 & s2 & _ & G1). discriminate. }
    subst l. destruct G2 as [_ Su]. split; rewrite ?E, <- ?G1; cbn [retL silent ret fst snd app]; auto.
  - split; rewrite ?E, <- ?G1; cbn [fst snd]; auto. split; [discriminate|exact G2].
  - split; rewrite ?E, <- ?G1; cbn [fst snd]; auto.
  - split; rewrite ?E, <- ?G1; cbn [fst snd]; auto.
Qed.
Lemma lg_headers o e s : lgAt false (parseHeadersL o) (parseHeaders o) e s.
Proof. destruct (lg_headersIter o e (S (List.length (rest s))) (emptyHdrs o) s) as [G1 G2 G3]. split; assumption. Qed.
#[export] Hint Resolve lg_headers : lg.

(** ** Bodies *)
Lemma sfx_allocCString d e s : sfx (allocCString d) e s.
Proof. unfold sfx, allocCString. destruct (leMem _ _); apply suffix_refl. Qed.
Lemma lg_singleBody b h e s : lgAt b (parseSingleBodyL h) (parseSingleBody h) e s.
Proof.
  unfold parseSingleBodyL, parseSingleBody. destruct s as [r u]. apply lg_onRest. cbn [rest]. cbv zeta. destruct (_ =? 0); [lg|]. apply lg_alloc_bind. intros u1. apply lg_bind; [|intros; lg].
  apply (lg_orErr b false), lg_quiet. apply sfx_allocCString.
Qed.
Lemma attempt_keeps {A} (p : P A) e s : (forall a s', p e s = Ok a s' -> rest s' = rest s) -> (forall s', p e s = Fail s' -> rest s' = rest s) ->
  match attempt p e s with Ok _ s' => rest s' = rest s | Fail _ => False | _ => True end.
Proof. intros H1 H2. unfold attempt. destruct (p e s) eqn:E; eauto. Qed.
Lemma lg_multipartBody dl bs e s : lgAt false (multipartBodyL dl bs) (multipartBody dl bs) e s.
Proof.
  unfold multipartBodyL, multipartBody. destruct s as [r u]. apply lg_onRest. cbn [rest]. destruct r as [|x [|y r2]]; [lg|lg|]. destruct (_ || _)%bool; [lg|].
  destruct (FindCrlf _) as [[v r1]|] eqn:F; [|apply lg_goto_bind; [apply suffix_nil|lg]]. apply FindCrlf_suffix in F as (Su & _). apply lg_goto_bind; [exact Su|]. apply lg_alloc_bind. intros u1. apply lg_bind; [lg|].
  intros h s2 _. destruct s2 as [r3 u3]. apply lg_onRest. cbn [rest]. destruct (splitAt dl r3) as [[d r4]|] eqn:E; [|lg]. apply splitAt_app in E.
  assert (K : match attempt (allocCString d) e (mkst r3 u3) with Ok _ s' => rest s' = r3 | Fail _ => False | _ => True end).
  { apply (attempt_keeps (allocCString d) e (mkst r3 u3)); intros; unfold allocCString in *; destruct (leMem _ _); try discriminate.
    - injection H as _ <-. reflexivity.
    - injection H as <-. reflexivity. }
  apply lg_bind; [apply lg_keeps; cbn [rest]; exact K|]. intros o s' Eo. rewrite Eo in K. apply lg_goto_bind; [rewrite K, E; exists (d ++ dl); apply app_assoc|]. lg.
Qed.
Lemma lg_multiBodyAll b e s : lgAt false (parseMultiBodyL b) (parseMultiBody b) e s.
Proof.
  unfold parseMultiBodyL, parseMultiBody. destruct s as [r u]. apply lg_onRest. cbn [rest]. destruct (stripPrefix _ _) as [r'|] eqn:E; [|lg]. apply stripPrefix_app in E.
  apply lg_goto_bind; [exists (45 :: 45 :: b); exact E|]. apply lg_loop. intros. apply lg_multipartBody.
Qed.
#[export] Hint Resolve lg_singleBody lg_multiBodyAll : lg.
Lemma lg_msgBody h e s : lgAt false (parseMsgBodyL h) (parseMsgBody h) e s.
Proof. unfold parseMsgBodyL, parseMsgBody. lg. Qed.
#[export] Hint Resolve lg_msgBody : lg.

(** ** Messages *)
Lemma lg_msg b e s : lgAt b parseMsgL parseMsg e s.
Proof. unfold parseMsgL, parseMsg. lg. Qed.

(** ** Encoding *)
Lemma lg_allocC d e s : lgAt false (silent (allocCString d)) (allocCString d) e s.
Proof. apply lg_quiet, sfx_allocCString. Qed.
#[export] Hint Resolve lg_allocC : lg.
Lemma lg_setBoundary v e s : lgAt false (setBoundaryL v) (setBoundary v) e s.
Proof. unfold setBoundaryL, setBoundary. lg. Qed.
#[export] Hint Resolve lg_setBoundary : lg.
Lemma lg_findOrCreate h e s : lgAt false (findOrCreateBoundaryL h) (findOrCreateBoundary h) e s.
Proof. unfold findOrCreateBoundaryL, findOrCreateBoundary. lg. Qed.
#[export] Hint Resolve lg_findOrCreate : lg.
Lemma lg_ensureLength b h e s : lgAt b (ensureLengthL h) (ensureLength h) e s.
Proof. unfold ensureLengthL, ensureLength. lg. Qed.
#[export] Hint Resolve lg_ensureLength : lg.
Lemma lg_encMsg b pre m e s : lgAt b (encMsgL pre m) (encMsg pre m) e s.
Proof. unfold encMsgL, encMsg. lg. Qed.
