(** C65: the error before the newest one names the header that is wrong. *)
From Verif Require Import Base BaseLemmas Charset Num Lws Str Monad Good Inv Rt MethodTree HeaderTree Lookup Host Uri Tel GenParam Addr StartLine Headers RawHeaders Msg MsgSpec MsgProofs MsgRt Log LogProofs LogAddr LogMsg Errors P05_Uri P22_Errors.
From Coq Require Import String.
Local Open Scope N_scope.

(** ** Specification *)
(** What an error says about a wrong value of a header: a complaint that ends in " for NAME header". The texts of Max-Forwards and Content-Length speak of CSeq. *)
Definition names (k : hkind) (t : string) : Prop :=
  match k with
  | KMaxForwards => t = "parse num failed for CSeq header"%string \/ t = "no mem for Max-Forwards header"%string
  | KContentLength => t = "parse num failed for CSeq header"%string \/ t = "no mem for Content-Length header"%string
  | _ => exists w, s2b t = s2b w ++ s2b " for " ++ hName k ++ s2b " header"
  end.
(** A value of a header of type [k] cannot be read: the first one, or (if the header may have several) one after a comma. *)
Inductive valueFails (e : env) (k : hkind) : bool -> st -> st -> Prop :=
| VFnow several s s' : parseSipX k e s = Fail s' -> valueFails e k several s s'
| VFlater s v s1 r s' : parseSipX k e s = Ok v s1 -> rest s1 <> [] -> IsOnlyCRLF (rest s1) = false -> ParseSWSMarkCanOmmit 44 (rest s1) = (r, true, true) ->
    valueFails e k true (mkst r (used s1)) s' -> valueFails e k true s s'.
(** The values can be read, but the line does not end behind them. *)
Inductive endFails (e : env) (k : hkind) : bool -> st -> st -> Prop :=
| EFone s v s1 s' : parseSipX k e s = Ok v s1 -> pCRLF e s1 = Fail s' -> endFails e k false s s'
| EFlast s v s1 s' : parseSipX k e s = Ok v s1 -> rest s1 <> [] -> IsOnlyCRLF (rest s1) = false -> (forall r, ParseSWSMarkCanOmmit 44 (rest s1) <> (r, true, true)) -> pCRLF e s1 = Fail s' -> endFails e k true s s'
| EFlater s v s1 r s' : parseSipX k e s = Ok v s1 -> rest s1 <> [] -> IsOnlyCRLF (rest s1) = false -> ParseSWSMarkCanOmmit 44 (rest s1) = (r, true, true) ->
    endFails e k true (mkst r (used s1)) s' -> endFails e k true s s'.
Section Owner.
Variable o : owner.
(** Whole headers are read between the two positions. *)
Inductive headersRead (e : env) : hset -> st -> hset -> st -> Prop :=
| HRnone a s : headersRead e a s a s
| HRone a s n i s1 a1 s2 a' s' : rest s <> [] -> IsCRLF (rest s) = false -> parseHeaderName e s = Ok (n, i) s1 -> oneHeader o a n i e s1 = Ok a1 s2 -> headersRead e a1 s2 a' s' -> headersRead e a s a' s'.
(** What is wrong with the header at which the parse stopped. *)
Inductive fault := InName | InValue (k : hkind) | InLineEnd (k : hkind) | InRaw.
Definition faultAt (e : env) (s : st) (f : fault) (s' : st) : Prop :=
  rest s <> [] /\ IsCRLF (rest s) = false /\
  match f with
  | InName => parseHeaderName e s = Fail s'
  | InValue k => exists n i s1 several, parseHeaderName e s = Ok (n, i) s1 /\ needParse o e i = Some (k, several) /\ valueFails e k several s1 s'
  | InLineEnd k => exists n i s1 several, parseHeaderName e s = Ok (n, i) s1 /\ needParse o e i = Some (k, several) /\ endFails e k several s1 s'
  | InRaw => exists n i s1, parseHeaderName e s = Ok (n, i) s1 /\ needParse o e i = None /\ rawHeader n i e s1 = Fail s'
  end.
Definition faultIn (e : env) (s : st) (f : fault) (s' : st) : Prop := exists a s1, headersRead e (emptyHdrs o) s a s1 /\ faultAt e s1 f s'.

(** ** Values *)
Definition ends {A} (q : string -> Prop) (p : L A) : Prop := forall e s s' l, p e s = (Fail s', l) -> exists l0 t, l = l0 ++ [mkerr (rest s') t] /\ q t.
Lemma ends_orErr {A} (q : string -> Prop) d (p : L A) : q d -> ends q (orErr d p).
Proof. intros H e s s' l E. unfold orErr in E. destruct (p e s) as [[a s1|s1| |] l1]; try discriminate. injection E as <- <-. eauto. Qed.
Lemma ends_bind {A B} q (p : L A) (f : A -> L B) : ends q p -> (forall a, ends q (f a)) -> ends q (bindL p f).
Proof.
  intros Hp Hf e s s' l E. unfold bindL in E. destruct (p e s) as [[a s1|s1| |] l1] eqn:Ep; try discriminate.
  - destruct (f a e s1) as [r l2] eqn:Ef. injection E as -> <-. destruct (Hf a _ _ _ _ Ef) as (l0 & t & -> & Ht). exists (l1 ++ l0), t. now rewrite app_assoc.
  - injection E as <- <-. exact (Hp _ _ _ _ Ep).
Qed.
Lemma ends_never {A} q (p : L A) : (forall e s s' l, p e s <> (Fail s', l)) -> ends q p. Proof. intros H e s s' l E. now apply H in E. Qed.
Lemma ends_ret {A} q (a : A) : ends q (retL a). Proof. apply ends_never. intros e s s' l. discriminate. Qed.
Lemma ends_goto q r : ends q (gotoL r). Proof. apply ends_never. intros e s s' l. discriminate. Qed.
Lemma ends_onRest {A} q (f : bytes -> L A) : (forall r, ends q (f r)) -> ends q (onRestL f). Proof. intros H e s s' l. unfold onRestL. apply H. Qed.
Lemma ends_impl {A} (q q' : string -> Prop) (p : L A) : (forall t, q t -> q' t) -> ends q p -> ends q' p.
Proof. intros H Hp e s s' l E. destruct (Hp _ _ _ _ E) as (l0 & t & -> & Ht). eauto. Qed.
Lemma s2b_text a b : s2b (a ++ b)%string = s2b a ++ s2b b.
Proof. induction a as [|c a IH]; [reflexivity|]. cbn [String.append s2b app]. now rewrite IH. Qed.
Lemma names_text k w label : match k with KMaxForwards | KContentLength => False | _ => True end -> s2b label = hName k -> names k (hText w label).
Proof.
  intros Hk El. unfold names, hText. assert (G : exists w0, s2b (w ++ " for " ++ label ++ " header")%string = s2b w0 ++ s2b " for " ++ hName k ++ s2b " header").
  { exists w. now rewrite !s2b_text, El. }
  destruct k; try exact G; contradiction.
Qed.
Lemma label_name k : s2b (hLabel k) = hName k. Proof. destruct k; reflexivity. Qed.
Ltac en := match goal with
  | |- ends _ (orErr _ _) => apply ends_orErr; first [apply names_text; [exact Logic.I|first [reflexivity|apply label_name]]|cbn; auto]
  | |- ends _ (bindL _ _) => apply ends_bind; [|intros]
  | |- ends _ (retL _) => apply ends_ret
  | |- ends _ (gotoL _) => apply ends_goto
  | |- ends _ (silent pSWS) => apply ends_never; intros; discriminate
  | |- ends _ (failL _) => apply ends_orErr; apply names_text; [exact Logic.I|reflexivity]
  | |- ends _ (onRestL _) => apply ends_onRest; intros
  | |- ends _ (match ?r with [] => _ | _ :: _ => _ end) => destruct r
  | |- ends _ (if ?b then _ else _) => destruct b
  end.
Lemma ends_sentProtocol : ends (names KVia) (orErr (hText "parse sent-protocol failed" "Via") parseSentProtocolL). Proof. en. Qed.
Lemma ends_fromTo k : match k with KMaxForwards | KContentLength => False | _ => True end -> ends (names k) (parseFromToL k).
Proof.
  intros H. unfold parseFromToL, parseParamsL. apply ends_bind; [apply ends_orErr; apply names_text; [exact H|apply label_name]|intros a].
  apply ends_bind; [apply ends_orErr; apply names_text; [exact H|apply label_name]|intros tp]. apply ends_ret.
Qed.
Lemma ends_hval k : ends (names k) (parseHValL k).
Proof.
  destruct k; cbn [parseHValL]; unfold parseViaL, parseContactL, parseRouteL, parsePaiL, parseCSeqL, parseRAckL, parseNumL, parseContentTypeL, parseContentDispositionL, parseCallIDL, parseParamsL; repeat first [apply ends_fromTo; exact Logic.I|en].
Qed.
Lemma ends_sipX k : ends (names k) (parseSipXL k).
Proof. unfold parseSipXL. apply ends_bind; [|intros; apply ends_hval]. destruct k; en. Qed.
(** ** Several values *)
Lemma bindL_fail {A B} (p : L A) (f : A -> L B) e s s' l : bindL p f e s = (Fail s', l) -> p e s = (Fail s', l) \/ exists a s1 l1 l2, p e s = (Ok a s1, l1) /\ f a e s1 = (Fail s', l2) /\ l = l1 ++ l2.
Proof. unfold bindL. destruct (p e s) as [[a s1|s1| |] l1]; try discriminate; [|intros [= -> ->]; left; reflexivity]. destruct (f a e s1) as [r l2] eqn:E. intros [= -> <-]. right. exists a, s1, l1, l2. auto. Qed.
Lemma bindL_ok {A B} (p : L A) (f : A -> L B) e s b s' l : bindL p f e s = (Ok b s', l) -> exists a s1 l1 l2, p e s = (Ok a s1, l1) /\ f a e s1 = (Ok b s', l2) /\ l = l1 ++ l2.
Proof. unfold bindL. destruct (p e s) as [[a s1|s1| |] l1]; try discriminate. destruct (f a e s1) as [r l2] eqn:E. intros [= -> <-]. exists a, s1, l1, l2. auto. Qed.
Lemma sipXL_fst k e s r l : parseSipXL k e s = (r, l) -> parseSipX k e s = r.
Proof. intros H. destruct (lg_sipX false k e s) as [G _ _]. now rewrite H in G. Qed.
Lemma sipXL_ok k e s v s' l : parseSipXL k e s = (Ok v s', l) -> parseSipX k e s = Ok v s' /\ l = [].
Proof. intros H. destruct (lg_sipX false k e s) as [G1 G2 _]. rewrite H in G1, G2. cbn [fst snd] in *. now destruct G2. Qed.
Definition told (f : fault) (s' : st) (l : list err) : Prop :=
  match f with
  | InName => exists l0, l = l0 ++ [mkerr (rest s') "parsed header name failed"]
  | InValue k => exists l0 t, l = l0 ++ [mkerr (rest s') t] /\ names k t
  | InLineEnd _ => l = [] \/ exists x, l = [mkerr x "reach end before mark for SWSMark"]
  | InRaw => l = []
  end.
Lemma crlf_bindL {B} (b : B) e s s' l : (silent pCRLF ;+> retL b) e s = (Fail s', l) -> pCRLF e s = Fail s' /\ l = [].
Proof. intros H. apply bindL_fail in H as [H|(a & s1 & l1 & l2 & _ & H & _)]; [|discriminate]. injection H as H <-. auto. Qed.
Lemma multi_told k set e : forall n a v s s0 s' l, parseSipX k e s0 = Ok v s -> iterL n (multiBodyL k set) (a, v) e s = (Fail s', l) ->
  valueFails e k true s0 s' /\ told (InValue k) s' l \/ endFails e k true s0 s' /\ told (InLineEnd k) s' l.
Proof.
  induction n as [|n IH]; intros a v s s0 s' l E0 H; [discriminate|]. cbn [iterL] in H.
  assert (Stop : forall b, (silent pCRLF ;+> retL (@inr (hset * hval) hset b)) e s <> (Ok (inl (a, v)) s', l)) by (intros b Hb; apply bindL_ok in Hb as (? & ? & ? & ? & _ & Hb & _); discriminate).
  destruct (rest s) as [|x r1] eqn:R. { apply bindL_fail in H as [H|(y & s1 & l1 & l2 & H & H2 & _)]; unfold multiBodyL, onRestL in H; rewrite R in H; [discriminate|]. injection H as <- _ _. discriminate. }
  assert (NE : rest s <> []) by (rewrite R; discriminate).
  destruct (IsOnlyCRLF (rest s)) eqn:Oc.
  { apply bindL_fail in H as [H|(y & s1 & l1 & l2 & H & H2 & _)]; unfold multiBodyL, onRestL in H; rewrite R in H; rewrite <- R, Oc in H; [discriminate|]. apply bindL_ok in H as (? & ? & ? & ? & _ & H & _). injection H as <- _ _. discriminate. }
  destruct (ParseSWSMarkCanOmmit 44 (rest s)) as [[r' m] d] eqn:M.
  destruct m, d.
  - apply bindL_fail in H as [H|(y & s1 & l1 & l2 & H & H2 & El)]; unfold multiBodyL, onRestL in H; rewrite R in H; rewrite <- R, Oc, M in H.
    + apply bindL_fail in H as [H|(y & s1 & l1 & l2 & H1 & H & El)]; [discriminate|]. injection H1 as _ <- <-. cbn [app] in El. subst l2. apply bindL_fail in H as [H|(y2 & s2 & l3 & l4 & _ & H & _)]; [|discriminate]. left.
      split; [|exact (ends_sipX k _ _ _ _ H)]. apply (VFlater e k s0 v s r' s' E0 NE Oc M). apply VFnow. exact (sipXL_fst _ _ _ _ _ H).
    + apply bindL_ok in H as (z & s2 & l3 & l4 & H1 & H & El1). injection H1 as _ <- <-. apply bindL_ok in H as (v1 & s3 & l5 & l6 & H1 & H & El2). injection H as <- <- <-.
      apply sipXL_ok in H1 as [H1 ->]. cbn [app] in El2. subst l4. cbn [app] in El1. subst l1. cbn [app] in El. subst l2.
      destruct (IH _ _ _ _ _ _ H1 H2) as [[V T]|[V T]]; [left|right]; split; try exact T; [apply (VFlater e k s0 v s r' s' E0 NE Oc M V)|apply (EFlater e k s0 v s r' s' E0 NE Oc M V)].
  - right. apply bindL_fail in H as [H|(y & s1 & l1 & l2 & H & H2 & El)]; unfold multiBodyL, onRestL in H; rewrite R in H; rewrite <- R, Oc, M in H.
    + destruct ((silent pCRLF ;+> retL (inr (set (fst (a, v)) (snd (a, v))))) e s) as [z lz] eqn:Ez. injection H as -> <-. apply crlf_bindL in Ez as [Ez ->]. split; [|right; eauto].
      apply (EFlast e k s0 v s s' E0 NE Oc); [|exact Ez]. intros r Hr. rewrite Hr in M. discriminate.
    + destruct ((silent pCRLF ;+> retL (inr (set (fst (a, v)) (snd (a, v))))) e s) as [z lz] eqn:Ez. injection H as -> _. apply bindL_ok in Ez as (? & ? & ? & ? & _ & Ez & _). injection Ez as <- _ _. discriminate.
  - right. apply bindL_fail in H as [H|(y & s1 & l1 & l2 & H & H2 & El)]; unfold multiBodyL, onRestL in H; rewrite R in H; rewrite <- R, Oc, M in H.
    + apply crlf_bindL in H as [Ez ->]. split; [|left; reflexivity]. apply (EFlast e k s0 v s s' E0 NE Oc); [|exact Ez]. intros r Hr. rewrite Hr in M. discriminate.
    + apply bindL_ok in H as (? & ? & ? & ? & _ & Ez & _). injection Ez as <- _ _. discriminate.
  - right. apply bindL_fail in H as [H|(y & s1 & l1 & l2 & H & H2 & El)]; unfold multiBodyL, onRestL in H; rewrite R in H; rewrite <- R, Oc, M in H.
    + destruct ((silent pCRLF ;+> retL (inr (set (fst (a, v)) (snd (a, v))))) e s) as [z lz] eqn:Ez. injection H as -> <-. apply crlf_bindL in Ez as [Ez ->]. split; [|right; eauto].
      apply (EFlast e k s0 v s s' E0 NE Oc); [|exact Ez]. intros r Hr. rewrite Hr in M. discriminate.
    + destruct ((silent pCRLF ;+> retL (inr (set (fst (a, v)) (snd (a, v))))) e s) as [z lz] eqn:Ez. injection H as -> _. apply bindL_ok in Ez as (? & ? & ? & ? & _ & Ez & _). injection Ez as <- _ _. discriminate.
Qed.
(** ** One header and all headers *)
Lemma headerNameL_fst e s r l : orErr "parsed header name failed" parseHeaderNameL e s = (r, l) -> parseHeaderName e s = r.
Proof. intros H. destruct (lg_headerName false e s) as [G _ _]. unfold orErr in H. destruct (parseHeaderNameL e s) as [[a s1|s1| |] l1]; cbn [fst] in G; injection H as <- _; congruence. Qed.
Lemma headerNameL_ok e s a s' l : orErr "parsed header name failed" parseHeaderNameL e s = (Ok a s', l) -> parseHeaderName e s = Ok a s' /\ l = [].
Proof. intros H. split; [exact (headerNameL_fst _ _ _ _ H)|]. destruct (lg_headerName false e s) as [_ G _]. unfold orErr in H. destruct (parseHeaderNameL e s) as [[b s1|s1| |] l1]; try discriminate. injection H as _ _ <-. now destruct G. Qed.
Lemma one_told a n i e s0 s s' l : rest s0 <> [] -> IsCRLF (rest s0) = false -> parseHeaderName e s0 = Ok (n, i) s -> oneHeaderL o a n i e s = (Fail s', l) -> exists f, faultAt e s0 f s' /\ told f s' l.
Proof.
  intros Hr Hc En H. unfold oneHeaderL, withEnvL in H. destruct (needParse o e i) as [[k [] ]|] eqn:Np.
  - apply bindL_fail in H as [H|(v & s1 & l1 & l2 & H1 & H & ->)].
    + exists (InValue k). split; [|exact (ends_sipX k _ _ _ _ H)]. split; [exact Hr|]. split; [exact Hc|]. exists n, i, s, true. split; [exact En|]. split; [exact Np|]. apply VFnow. exact (sipXL_fst _ _ _ _ _ H).
    + apply sipXL_ok in H1 as [H1 ->]. destruct (multi_told _ _ _ _ _ _ _ _ _ _ H1 H) as [[V T]|[V T]]; [exists (InValue k)|exists (InLineEnd k)]; (split; [|exact T]); split; auto; split; auto; exists n, i, s, true; auto.
  - apply bindL_fail in H as [H|(v & s1 & l1 & l2 & H1 & H & ->)].
    + exists (InValue k). split; [|exact (ends_sipX k _ _ _ _ H)]. split; [exact Hr|]. split; [exact Hc|]. exists n, i, s, false. split; [exact En|]. split; [exact Np|]. apply VFnow. exact (sipXL_fst _ _ _ _ _ H).
    + apply sipXL_ok in H1 as [H1 ->]. apply crlf_bindL in H as [H ->]. exists (InLineEnd k). split; [|left; reflexivity]. split; [exact Hr|]. split; [exact Hc|]. exists n, i, s, false. split; [exact En|]. split; [exact Np|]. exact (EFone _ _ _ _ _ _ H1 H).
  - exists InRaw. injection H as H <-. split; [|reflexivity]. split; [exact Hr|]. split; [exact Hc|]. exists n, i, s. split; [exact En|]. split; [exact Np|].
    unfold bind in H. destruct (rawHeader n i e s); try discriminate. injection H as <-. reflexivity.
Qed.
Lemma name_fault e s a a1 s1 f s' : atWsp (rest s) -> headersRead e a s a1 s1 -> faultAt e s1 f s' -> f = InName.
Proof.
  intros W H F. destruct H as [a s|a s n i s1 b s2 a' s3 _ _ En _ _]; [|exfalso; exact (headerName_atWsp _ _ _ _ W En)].
  destruct F as (_ & _ & F). destruct f as [|k|k|]; [reflexivity|destruct F as (n & i & s1 & sv & En & _)|destruct F as (n & i & s1 & sv & En & _)|destruct F as (n & i & s1 & En & _)]; exfalso; exact (headerName_atWsp _ _ _ _ W En).
Qed.
Lemma headers_told e : forall n a s s' l, iterL n (headersBodyL (orErr "parsed header name failed" parseHeaderNameL) (oneHeaderL o)) a e s = (Fail s', l) ->
  exists f a1 s1, headersRead e a s a1 s1 /\ faultAt e s1 f s' /\ told f s' l.
Proof.
  induction n as [|n IH]; intros a s s' l H; [discriminate|]. cbn [iterL] in H. destruct (rest s) as [|x r] eqn:R.
  { apply bindL_fail in H as [H|(y & s1 & l1 & l2 & H & H2 & _)]; unfold headersBodyL, onRestL in H; rewrite R in H; [discriminate|]. injection H as <- _ _. discriminate. }
  assert (NE : rest s <> []) by (rewrite R; discriminate). destruct (IsCRLF (rest s)) eqn:C.
  { apply bindL_fail in H as [H|(y & s1 & l1 & l2 & H & H2 & _)]; unfold headersBodyL, onRestL in H; rewrite R in H; rewrite <- R, C in H; [discriminate|]. apply bindL_ok in H as (? & ? & ? & ? & _ & H & _). injection H as <- _ _. discriminate. }
  apply bindL_fail in H as [H|(y & s1 & l1 & l2 & H & H2 & El)]; unfold headersBodyL, onRestL in H; rewrite R in H; rewrite <- R, C in H.
  - apply bindL_fail in H as [H|(ni & s1 & l1 & l2 & H1 & H & ->)].
    + exists InName, a, s. split; [constructor|]. split; [split; [exact NE|split; [exact C|exact (headerNameL_fst _ _ _ _ H)]]|]. unfold orErr in H. destruct (parseHeaderNameL e s) as [[b s1|s1| |] l1]; try discriminate. injection H as -> <-. exists l1. reflexivity.
    + apply headerNameL_ok in H1 as [H1 ->]. destruct ni as [nm i]. apply bindL_fail in H as [H|(? & ? & ? & ? & _ & H & _)]; [|discriminate]. cbn [fst snd app] in *.
      destruct (one_told _ _ _ _ _ _ _ _ NE C H1 H) as (f & F & T). exists f, a, s. split; [constructor|auto].
  - apply bindL_ok in H as (ni & s2 & l3 & l4 & H1 & H & ->). apply headerNameL_ok in H1 as [H1 ->]. destruct ni as [nm i]. apply bindL_ok in H as (a2 & s3 & l5 & l6 & H3 & H & ->). injection H as <- <- <-. cbn [fst snd app] in *. rewrite app_nil_r in El.
    destruct (IH _ _ _ _ H2) as (f & a3 & s4 & HR & F & T). exists f, a3, s4. destruct (lgW_oneHeader o a nm i e s2) as [G1 G2 _]. rewrite H3 in G1, G2. cbn [fst snd] in *. destruct G2 as [G2 _].
    split; [exact (HRone e a s nm i s2 a2 s3 a3 s4 NE C H1 (eq_sym G1) HR)|]. split; [exact F|]. destruct G2 as [->|W]; [subst l; exact T|]. pose proof (name_fault _ _ _ _ _ _ _ W HR F) as ->. destruct T as [l0 ->]. exists (l5 ++ l0). rewrite El. apply app_assoc.
Qed.
(** ** A fault makes the parse fail *)
Lemma value_fails e k b s s' : valueFails e k b s s' -> forall i a, bind (parseSipX k) (fun v => if b then loopP (multiBody k (setCommon o i true)) (a, v) else pCRLF ;;; ret (setCommon o i false a v)) e s = Fail s'.
Proof.
  intros H i. induction H as [b s s' H|s v s1 r s' H Hr Ho M _ IH]; intros a; unfold bind at 1; rewrite H; [reflexivity|].
  rewrite loopP_unfold by apply multi_progresses. unfold multiBody at 1, onRest. destruct (rest s1) as [|x r1] eqn:R; [congruence|]. rewrite Ho, M. rewrite goto_bind. cbn [fst snd]. specialize (IH (setCommon o i true a v)).
  unfold bind at 1 in IH. unfold bind at 1. cbn [used]. destruct (parseSipX k e (mkst r (used s1))) as [v1 s2|s2| |]; try discriminate; [exact IH|exact IH].
Qed.
Lemma end_fails e k b s s' : endFails e k b s s' -> forall i a, bind (parseSipX k) (fun v => if b then loopP (multiBody k (setCommon o i true)) (a, v) else pCRLF ;;; ret (setCommon o i false a v)) e s = Fail s'.
Proof.
  intros H i. induction H as [s v s1 s' H Hc|s v s1 s' H Hr Ho M Hc|s v s1 r s' H Hr Ho M _ IH]; intros a; unfold bind at 1; rewrite H.
  - unfold bind. now rewrite Hc.
  - rewrite loopP_unfold by apply multi_progresses. unfold multiBody at 1, onRest. destruct (rest s1) as [|x r1] eqn:R; [congruence|]. rewrite Ho. destruct (ParseSWSMarkCanOmmit 44 (x :: r1)) as [[r m] d] eqn:Em.
    assert (Q : forall b : hset, (pCRLF ;;; ret (@inr (hset * hval) hset b)) e s1 = Fail s') by (intros b; unfold bind; now rewrite Hc).
    destruct m, d; [now elim (M r)| | |]; now rewrite Q.
  - rewrite loopP_unfold by apply multi_progresses. unfold multiBody at 1, onRest. destruct (rest s1) as [|x r1] eqn:R; [congruence|]. rewrite Ho, M. rewrite goto_bind. cbn [fst snd]. specialize (IH (setCommon o i true a v)).
    unfold bind at 1 in IH. unfold bind at 1. cbn [used]. destruct (parseSipX k e (mkst r (used s1))) as [v1 s2|s2| |]; try discriminate; [exact IH|exact IH].
Qed.
Lemma fault_fails e s f s' : faultAt e s f s' -> forall a, headersBody (oneHeader o) a e s = Fail s'.
Proof.
  intros (Hr & Hc & F) a. unfold headersBody, onRest. destruct (rest s) as [|x r] eqn:R; [congruence|]. rewrite Hc. destruct f as [|k|k|].
  - unfold bind. now rewrite F.
  - destruct F as (n & i & s1 & sv & En & Np & V). unfold bind at 1. rewrite En. cbn [fst snd]. unfold bind at 1. unfold oneHeader, withEnv. rewrite Np. rewrite (value_fails _ _ _ _ _ V). reflexivity.
  - destruct F as (n & i & s1 & sv & En & Np & V). unfold bind at 1. rewrite En. cbn [fst snd]. unfold bind at 1. unfold oneHeader, withEnv. rewrite Np. rewrite (end_fails _ _ _ _ _ V). reflexivity.
  - destruct F as (n & i & s1 & En & Np & V). unfold bind at 1. rewrite En. cbn [fst snd]. unfold bind at 1. unfold oneHeader, withEnv. rewrite Np. unfold bind. now rewrite V.
Qed.
Lemma value_not_end e k b s s1 : valueFails e k b s s1 -> forall s2, endFails e k b s s2 -> False.
Proof.
  intros H. induction H as [b s s' H|s v s1 r s' H Hr Ho M _ IH]; intros s2 F; inversion F; subst; try congruence.
  - match goal with Hb : parseSipX k e s = Ok ?v2 ?t |- _ => lazymatch t with s1 => fail | _ => idtac end; assert (X : Ok v s1 = Ok v2 t) by congruence; injection X as <- <- end.
    match goal with Hb : ParseSWSMarkCanOmmit 44 (rest s1) = (?r2, true, true) |- _ => lazymatch r2 with r => fail | _ => idtac end; assert (X : (r, true, true) = (r2, true, true)) by congruence; injection X as <- end. eauto.
Qed.
Lemma faultAt_one e s f1 s1 f2 s2 : faultAt e s f1 s1 -> faultAt e s f2 s2 -> f1 = f2 /\ s1 = s2.
Proof.
  intros F1 F2. pose proof (fault_fails _ _ _ _ F1 (emptyHdrs o)) as E1. pose proof (fault_fails _ _ _ _ F2 (emptyHdrs o)) as E2. rewrite E1 in E2. injection E2 as <-. split; [|reflexivity].
  destruct F1 as (_ & _ & F1), F2 as (_ & _ & F2). destruct f1 as [|k1|k1|], f2 as [|k2|k2|]; try reflexivity;
    repeat match goal with H : exists _, _ |- _ => destruct H | H : _ /\ _ |- _ => destruct H end; try congruence;
    match goal with Ha : parseHeaderName e s = Ok (?n1, ?i1) ?t1, Hb : parseHeaderName e s = Ok (?n2, ?i2) ?t2 |- _ => lazymatch t2 with t1 => fail | _ => idtac end; assert (X : Ok (n1, i1) t1 = Ok (n2, i2) t2) by congruence; injection X as <- <- <- end; try congruence;
    match goal with Ha : needParse o e ?i = Some (?k, ?b), Hb : needParse o e ?i = Some (?k', ?b') |- _ => assert (X : Some (k, b) = Some (k', b')) by congruence; injection X as <- <- end; try reflexivity;
    exfalso; eauto using value_not_end.
Qed.
Lemma fault_stop e s f s' a n i s1 a1 s2 : faultAt e s f s' -> parseHeaderName e s = Ok (n, i) s1 -> oneHeader o a n i e s1 = Ok a1 s2 -> False.
Proof.
  intros F En Eo. pose proof (fault_fails _ _ _ _ F a) as E. destruct F as (Hr & Hc & _). unfold headersBody, onRest in E. destruct (rest s) as [|x r] eqn:R; [congruence|]. rewrite Hc in E. unfold bind in E. rewrite En in E. cbn [fst snd] in E. rewrite Eo in E. discriminate.
Qed.
Lemma read_one e a s a1 t1 : headersRead e a s a1 t1 -> forall f1 s1, faultAt e t1 f1 s1 -> forall a2 t2 f2 s2, headersRead e a s a2 t2 -> faultAt e t2 f2 s2 -> f1 = f2 /\ s1 = s2.
Proof.
  intros H. induction H as [a s|a s n i t b t2 a' t3 Hr Hc En Eo _ IH]; intros f1 s1 F1 a2 t' f2 s2 H2 F2.
  - inversion H2; subst; [exact (faultAt_one _ _ _ _ _ _ F1 F2)|exfalso; eapply (fault_stop _ _ _ _ _ _ _ _ _ _ F1); eauto].
  - inversion H2; subst; [exfalso; eapply (fault_stop _ _ _ _ _ _ _ _ _ _ F2); eauto|].
    match goal with Hb : parseHeaderName e s = Ok (?n2, ?i2) ?t4 |- _ => assert (X : Ok (n, i) t = Ok (n2, i2) t4) by congruence; injection X as <- <- <- end.
    match goal with Hb : oneHeader o a n i e t = Ok ?b2 ?t4 |- _ => assert (X : Ok b t2 = Ok b2 t4) by congruence; injection X as <- <- end. eauto.
Qed.
Lemma read_fails e a s a1 t1 : headersRead e a s a1 t1 -> forall f s', faultAt e t1 f s' -> loopP (headersBody (oneHeader o)) a e s = Fail s'.
Proof.
  intros H. induction H as [a s|a s n i t b t2 a' t3 Hr Hc En Eo _ IH]; intros f s' F; rewrite loopP_unfold by apply one_progresses.
  - now rewrite (fault_fails _ _ _ _ F).
  - assert (E : headersBody (oneHeader o) a e s = Ok (inl b) t2). { unfold headersBody, onRest. destruct (rest s) as [|x r] eqn:R; [congruence|]. rewrite Hc. unfold bind. rewrite En. cbn [fst snd]. now rewrite Eo. }
    rewrite E. eauto.
Qed.
Lemma headersL_told e s s' l : parseHeadersL o e s = (Fail s', l) -> exists f, faultIn e s f s' /\ told f s' l.
Proof. intros H. destruct (headers_told e _ _ _ _ _ H) as (f & a & s1 & R & F & T). exists f. split; [exists a, s1; auto|exact T]. Qed.

End Owner.

(** ** C65 *)
(** The headers cannot be read exactly when there is a fault, and then there is one fault only. *)
Theorem C65_faults : forall o e s s', (parseHeaders o e s = Fail s' <-> exists f, faultIn o e s f s') /\ (forall f1 s1 f2 s2, faultIn o e s f1 s1 -> faultIn o e s f2 s2 -> f1 = f2 /\ s1 = s2).
Proof.
  intros o e s s'. split; [split|].
  - intros H. destruct (lg_headers o e s) as [G _ _]. rewrite H in G. destruct (parseHeadersL o e s) as [r l] eqn:E. cbn [fst] in G. subst r. apply headersL_told in E as (f & F & _). eauto.
  - intros (f & a & s1 & R & F). exact (read_fails _ _ _ _ _ _ R _ _ F).
  - intros f1 s1 f2 s2 (a1 & t1 & R1 & F1) (a2 & t2 & R2 & F2). exact (read_one _ _ _ _ _ _ R1 _ _ F1 _ _ _ _ R2 F2).
Qed.
(** What stands in Errors when SipMsg.Parse stops in the headers: behind the old errors those of this call, of which the newest speaks of the headers and the one before it names the header. *)
Theorem C65_names : forall e c src start pos c' f s', start <= len src -> callOn e c AMsg src start = Some (false, pos, c') ->
  (exists l s1, parseStartLine e (mkst (skipn (N.to_nat start) src) (cUsed c)) = Ok l s1 /\ rest s1 <> [] /\ faultIn OMsg e s1 f s') ->
  rest s' = skipn (N.to_nat pos) src /\
  exists new y, cErrs c' = cErrs c ++ new ++ [y] /\ rText y = "parse headers failed for sip msg"%string /\ rPos y = pos /\
    match f with
    | InName => exists old x, new = old ++ [x] /\ rText x = "parsed header name failed"%string /\ rPos x = pos
    | InValue k => exists old x, new = old ++ [x] /\ names k (rText x) /\ rPos x = pos
    | InLineEnd k => new = [] \/ exists x, new = [x] /\ rText x = "reach end before mark for SWSMark"%string
    | InRaw => new = []
    end.
Proof.
  intros e c src start pos c' f s' Hs H (l & s1 & El & Hr & F).
  destruct (C51_one_call _ _ _ _ _ _ _ _ Hs H) as ((s2 & Er & Eu & Ep) & _). cbn [apiP] in Ep.
  assert (Eh : parseHeaders OMsg e s1 = Fail s') by (apply C65_faults; eauto).
  assert (Eq : s2 = s'). { unfold bind in Ep. unfold parseMsg, bind, onRest in Ep. rewrite El in Ep. destruct (rest s1); [congruence|]. rewrite Eh in Ep. now injection Ep. }
  subst s2. split; [exact Er|]. destruct (parseHeadersL OMsg e s1) as [r lh] eqn:EL. destruct (lg_headers OMsg e s1) as [G _ _]. rewrite EL, Eh in G. cbn [fst] in G. subst r.
  destruct (headersL_told _ _ _ _ _ EL) as (f' & F' & T). assert (f' = f) as -> by (apply (proj2 (C65_faults OMsg e s1 s') _ _ _ _ F' F)).
  assert (Em : parseMsgL e (mkst (skipn (N.to_nat start) src) (cUsed c)) = (Fail s', lh ++ [mkerr (rest s') textHeaders])).
  { unfold parseMsgL. unfold bindL at 1. rewrite (orErr_ok textStart parseStartLineL _ e _ _ _ (lg_startLine _ _ _) El). unfold onRestL. destruct (rest s1) as [|x r] eqn:R; [congruence|]. unfold bindL at 1. unfold orErr at 1. rewrite EL. reflexivity. }
  unfold callOn in H. cbn [apiL] in H. unfold bindL in H. rewrite Em in H. injection H as <- <-. cbn [cErrs cUsed] in *. rewrite map_app.
  exists (map (record src) lh), (record src (mkerr (rest s') textHeaders)). split; [reflexivity|]. split; [reflexivity|]. split; [reflexivity|].
  destruct f as [|k|k|]; cbn [told] in T.
  - destruct T as [l0 ->]. rewrite map_app. eexists _, _. split; [reflexivity|]. split; reflexivity.
  - destruct T as (l0 & t & -> & T). rewrite map_app. eexists _, _. split; [reflexivity|]. split; [exact T|reflexivity].
  - destruct T as [->|[x ->]]; [left; reflexivity|right]. eexists. split; reflexivity.
  - subst lh. reflexivity.
Qed.
(** The texts tell the headers apart, but for the three whose texts speak of CSeq. *)
Definition saysCSeq (k : hkind) : Prop := k = KCSeq \/ k = KMaxForwards \/ k = KContentLength.
Definition lastWord (t : bytes) : bytes := rev (fst (span (fun x => negb (x =? 32)) (skipn 7 (rev t)))).
Lemma lastWord_app w n : forallb (fun x => negb (x =? 32)) n = true -> lastWord (w ++ s2b " for " ++ n ++ s2b " header") = n.
Proof.
  intros H. unfold lastWord. rewrite !rev_app_distr, <- !app_assoc. change (skipn 7 (rev (s2b " header") ++ rev n ++ rev (s2b " for ") ++ rev w)) with (rev n ++ 32 :: ([114; 111; 102; 32] ++ rev w)).
  assert (F : forallb (fun x => negb (x =? 32)) (rev n) = true). { rewrite forallb_forall in *. intros x Hx. apply H. now apply in_rev. }
  assert (G : forall m t, forallb (fun x => negb (x =? 32)) m = true -> fst (span (fun x => negb (x =? 32)) (m ++ 32 :: t)) = m).
  { clear. induction m as [|x m IH]; intros t H; [reflexivity|]. cbn [forallb] in H. apply andb_prop in H as [Hx H]. cbn [app span]. rewrite Hx. specialize (IH t H). destruct (span _ (m ++ 32 :: t)) as [p q]. cbn [fst] in *. now rewrite IH. }
  rewrite G by exact F. apply rev_involutive.
Qed.
Lemma names_word k t : names k t -> lastWord (s2b t) = hName k \/ saysCSeq k /\ lastWord (s2b t) = hName KCSeq.
Proof.
  intros H. destruct k; cbn [names] in H; try (destruct H as [w H]; left; rewrite H; apply lastWord_app; reflexivity); destruct H as [->| ->]; unfold saysCSeq;
    first [left; vm_compute; reflexivity|right; split; [tauto|vm_compute; reflexivity]].
Qed.
Theorem C65_tells_apart : forall k k' t, names k t -> names k' t -> k = k' \/ saysCSeq k /\ saysCSeq k'.
Proof.
  intros k k' t H H'. apply names_word in H as [H|[S H]]; apply names_word in H' as [H'|[S' H']].
  - left. rewrite H in H'. destruct k, k'; try reflexivity; discriminate.
  - right. split; [|exact S']. rewrite H in H'. destruct k; try discriminate; unfold saysCSeq; auto.
  - right. split; [exact S|]. rewrite H in H'. destruct k'; try discriminate; unfold saysCSeq; auto.
  - auto.
Qed.
(** A wrong Max-Forwards and a wrong Content-Length are reported as a wrong CSeq. *)
Definition hdrText (h : string) : bytes := s2b "INVITE sip:b SIP/2.0" ++ [13; 10] ++ s2b h ++ [13; 10; 13; 10].
Definition namesOf (h : string) (c : list string * list N * N) : Prop :=
  exists pos c', callOn (exNet (Some 4000)) (mkctx [] 0) AMsg (hdrText h) 0 = Some (false, pos, c') /\ (map rText (cErrs c'), map rPos (cErrs c'), pos) = c.
Theorem C65_own_name_refuted : exists k c, In k [KMaxForwards; KContentLength] /\ (forall t, In t (fst (fst c)) -> forall w, s2b t <> s2b w ++ s2b " for " ++ hName k ++ s2b " header") /\
  (exists l s1 s', parseStartLine (exNet (Some 4000)) (mkst (hdrText "Max-Forwards: x") 0) = Ok l s1 /\ rest s1 <> [] /\ faultIn OMsg (exNet (Some 4000)) s1 (InValue k) s') /\ namesOf "Max-Forwards: x" c /\ namesOf "CSeq: x" (fst (fst c), [28; 28], 28).
Proof.
  exists KMaxForwards, (["parse num failed for CSeq header"; "parse headers failed for sip msg"]%string, [36; 36], 36). split; [left; reflexivity|]. split; [|split; [|split]].
  - intros t Ht w E. apply (f_equal lastWord) in E. rewrite lastWord_app in E by reflexivity. destruct Ht as [<-|[<-|[]]]; vm_compute in E; discriminate.
  - eexists _, _, _. split; [vm_compute; reflexivity|]. split; [discriminate|]. eexists _, _. split; [constructor|]. split; [discriminate|]. split; [reflexivity|]. eexists _, _, _, _. split; [vm_compute; reflexivity|]. split; [vm_compute; reflexivity|].
    apply VFnow. vm_compute. reflexivity.
  - eexists _, _. vm_compute. split; reflexivity.
  - eexists _, _. vm_compute. split; reflexivity.
Qed.
(** One message of each kind; the silent ones leave the newest error alone. *)
Example C65_case_value : namesOf "Route: <sip:a>, sip:b" (["LAQUOT parse: no '<'"; "parse sip-addr failed for Route header"; "parse headers failed for sip msg"]%string, [41; 41; 41], 41).
Proof. eexists _, _. vm_compute. split; reflexivity. Qed.
Example C65_case_name : namesOf "@: 1" (["empty"; "parsed header name failed"; "parse headers failed for sip msg"]%string, [22; 22; 22], 22). Proof. eexists _, _. vm_compute. split; reflexivity. Qed.
Example C65_case_line : namesOf "Call-ID: a b" (["parse headers failed for sip msg"]%string, [32], 32). Proof. eexists _, _. vm_compute. split; reflexivity. Qed.
Example C65_case_end : exists pos c', callOn (exNet (Some 4000)) (mkctx [] 0) AMsg (s2b "INVITE sip:b SIP/2.0" ++ [13; 10] ++ s2b "P-Asserted-Identity: sip:a  ") 0 = Some (false, pos, c') /\
  map rText (cErrs c') = ["reach end before mark for SWSMark"; "parse headers failed for sip msg"]%string.
Proof. eexists _, _. vm_compute. split; reflexivity. Qed.
Example C65_case_raw : exists pos c', callOn (exNet (Some 4000)) (mkctx [] 0) AMsg (s2b "INVITE sip:b SIP/2.0" ++ [13; 10] ++ s2b "X: a") 0 = Some (false, pos, c') /\
  map rText (cErrs c') = ["parse headers failed for sip msg"]%string.
Proof. eexists _, _. vm_compute. split; reflexivity. Qed.

Print Assumptions C65_faults.
Print Assumptions C65_names.
Print Assumptions C65_tells_apart.
Print Assumptions C65_own_name_refuted.
