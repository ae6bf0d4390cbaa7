(** Header fields, blocks, bodies and messages: the parsers accept exactly the grammars of GrammarWhole. *)
From Verif Require Import Base BaseLemmas Charset CharsetSpec CharsetProofs Num NumSpec Lws LwsSpec LwsProofs Str StrSpec StrProofs MethodTree HeaderTree Lookup NameSpec NameProofs NameExact Monad Good Rt Seq Inv
  Host HostSpec HostProofs Uri UriSpec GenParam GenParamProofs Addr StartLine StartLineSpec StartLineProofs Headers HeadersSpec HeadersProofs RawHeaders RawSpec RawProofs Msg MsgSpec MsgProofs MsgRt
  GrammarSpec Exact ExactUri GrammarMsg ExactMsg ExactHead GrammarWhole ExactName.
From Verif Require ParsedMsg2.

(** ** Loops *)
Inductive Iter {A B} (R : A -> bytes -> A + B -> bytes -> Prop) : A -> bytes -> B -> bytes -> Prop :=
| ItStop a t b k : R a t (inr b) k -> Iter R a t b k
| ItMore a a' t ts b k : R a t (inl a') (ts ++ k) -> Iter R a' ts b k -> Iter R a (t ++ ts) b k.
Lemma exact_loop {A B} e (body : A -> P (A + B)) R : progresses body -> (forall a, exact e (body a) (R a)) -> forall a, exact e (loopP body a) (Iter R a).
Proof.
  intros Pr H a. split.
  - assert (G : forall n a s v s', (List.length (rest s) <= n)%nat -> loopP body a e s = Ok v s' -> exists t, rest s = t ++ rest s' /\ Iter R a t v (rest s')).
    { induction n as [|n IH]; intros a0 s v s' L E; rewrite (loopP_unfold body a0 e s Pr) in E; destruct (body a0 e s) as [[a1|b] s1|s1| |] eqn:E1; try discriminate.
      - pose proof (Pr _ _ _ _ _ E1). lia.
      - injection E as <- <-. apply (ex_sound _ _ _ (H a0)) in E1 as (t & Et & Ht). exists t. split; [exact Et|now apply ItStop].
      - pose proof (Pr _ _ _ _ _ E1) as L1. apply (ex_sound _ _ _ (H a0)) in E1 as (t & Et & Ht). apply IH in E as (ts & Ets & Hts); [|lia]. exists (t ++ ts). rewrite Et, Ets, app_assoc. split; [reflexivity|]. rewrite Ets in Ht. now apply (ItMore _ _ a1).
      - injection E as <- <-. apply (ex_sound _ _ _ (H a0)) in E1 as (t & Et & Ht). exists t. split; [exact Et|now apply ItStop]. }
    intros s v s'. now apply (G (List.length (rest s))).
  - intros HI t v k u I. revert u. induction I as [a t b k Hr|a a' t ts b k Hr I IH]; intros u; rewrite (loopP_unfold body a e _ Pr).
    + destruct (ex_complete _ _ _ (H a) HI _ _ _ u Hr) as [u1 E1]. rewrite E1. eauto.
    + destruct (ex_complete _ _ _ (H a) HI _ _ _ u Hr) as [u1 E1]. rewrite <- app_assoc, E1. apply IH.
Qed.
Lemma exact_env {A} e (f : env -> P A) R : exact e (f e) R -> exact e (withEnv f) R.
Proof. intros [S C]. split; [exact S|exact C]. Qed.

(** ** Fields *)
Lemma exact_text e : exact e rawValue TextRead.
Proof.
  split.
  - intros s v s' H. apply rawValue_ok in H as (line & (Er & Fl & Nw) & C). exists (line ++ [10]). rewrite Er, <- app_assoc. split; [reflexivity|]. exists line. auto.
  - intros HI t v k u (line & -> & Fl & Nw & C). rewrite <- app_assoc. cbn [app]. unfold rawValue. rewrite onRest_eq. assert (E : FindCrlf (line ++ 10 :: k) = Some (v, k)) by (apply FindCrlf_spec; exists line; split; [split; auto|exact C]).
    rewrite E, goto_bind. cbn [used]. rewrite (rt_allocCString e v k u HI). eauto.
Qed.
Lemma exact_raw e n i : exact e (rawHeader n i) (fun t h k => exists v, h = mkraw i n v /\ TextRead t v k).
Proof. apply exact_seq_alloc, (exact_map e rawValue (mkraw i n)), exact_text. Qed.
Lemma exact_sipX e h : exact e (parseSipX h) (ValueRead e h).
Proof. apply exact_seq_alloc, exact_value. Qed.
(** What follows a value of a header that may have several. *)
Inductive MoreRead (e : env) (h : hkind) : bytes -> list hval -> bytes -> Prop :=
| MOend : MoreRead e h [] [] []
| MOline k : ~ commaNext (13 :: 10 :: k) -> MoreRead e h [13; 10] [] k
| MOmore m t v ts vs k : Mark 44 m (t ++ ts ++ k) -> ValueRead e h t v (ts ++ k) -> MoreRead e h ts vs k -> MoreRead e h (m ++ t ++ ts) (v :: vs) k.
Lemma values_more e h t vs k : ValuesRead e h t vs k <-> exists t1 v ts vs', t = t1 ++ ts /\ vs = v :: vs' /\ ValueRead e h t1 v (ts ++ k) /\ MoreRead e h ts vs' k.
Proof.
  split.
  - intros H. induction H as [t v H|t v k H Nc|t v m ts vs k H Hm Hs (t1 & w & ts' & vs' & -> & -> & H1 & H2)].
    + exists t, v, [], []. rewrite app_nil_r. split; [reflexivity|]. split; [reflexivity|]. split; [exact H|apply MOend].
    + exists t, v, [13; 10], []. split; [reflexivity|]. split; [reflexivity|]. split; [exact H|now apply MOline].
    + exists t, v, (m ++ t1 ++ ts'), (w :: vs'). split; [reflexivity|]. split; [reflexivity|]. rewrite <- !app_assoc in *. split; [exact H|]. now apply MOmore.
  - intros (t1 & v & ts & vs' & -> & -> & H1 & H2). revert t1 v H1. induction H2 as [|k Nc|m t w ts vs k Hm Hv Hs IH]; intros t1 v H1.
    + rewrite app_nil_r. now apply VSend.
    + now apply VSline.
    + rewrite <- !app_assoc in H1. apply VSmore; [rewrite <- app_assoc; exact H1|rewrite <- app_assoc; exact Hm|now apply IH].
Qed.
Definition multiStep (e : env) (h : hkind) (set : hset -> hval -> hset) (st : hset * hval) (t : bytes) (x : (hset * hval) + hset) (k : bytes) : Prop :=
  (x = inr (set (fst st) (snd st)) /\ (t = [] /\ k = [] \/ t = [13; 10] /\ ~ commaNext (13 :: 10 :: k))) \/
  (exists m tv w, t = m ++ tv /\ Mark 44 m (tv ++ k) /\ ValueRead e h tv w k /\ x = inl (set (fst st) (snd st), w)).
Lemma comma_mark r : commaNext r <-> exists m r', r = m ++ r' /\ Mark 44 m r'.
Proof.
  split.
  - intros (w & r' & -> & Sw). destruct (sws_split r') as (b & Eb & Sb). exists (w ++ 44 :: b), (ParseSWS_2 r'). rewrite <- app_assoc. cbn [app]. rewrite <- Eb. split; [reflexivity|]. exists w, b. rewrite <- Eb. auto.
  - intros (m & r' & -> & a & b & -> & Sa & Sb). exists a, (b ++ r'). rewrite <- app_assoc. auto.
Qed.
Lemma comma_omit r : (exists r', ParseSWSMarkCanOmmit 44 r = (r', true, true)) <-> commaNext r.
Proof.
  rewrite comma_mark. split.
  - intros (r' & E). pose proof (mark_omit 44 r) as M. rewrite E in M. destruct M as (m & -> & Hm). eauto.
  - intros (m & r' & -> & Hm). exists r'. now apply mark_omit_yes.
Qed.
Lemma comma_crlf k : IsOnlyCRLF (13 :: 10 :: k) = true -> ~ commaNext (13 :: 10 :: k).
Proof. intros H (w & r' & E & Sw). apply onlyCRLF_sws in H as [H _]. rewrite E in H. rewrite (skip_eq _ _ Sw) in H. assert (Q := f_equal (fun l => match l with x :: _ => x | [] => 0 end) (eq_trans H (eq_sym E))). discriminate. Qed.
Lemma exact_multiBody e h set st : exact e (multiBody h set st) (multiStep e h set st).
Proof.
  split.
  - intros s v s' H. unfold multiBody, onRest in H. destruct (rest s) as [|x r1] eqn:R; [injection H as <- <-; exists []; rewrite R; split; [reflexivity|]; left; auto|]. cbv zeta in H. destruct (IsOnlyCRLF (x :: r1)) eqn:Eo.
    + pose proof (IsOnlyCRLF_len _ Eo) as (t & Et). rewrite Et in *. injection Et as -> ->. rewrite goto_bind in H. injection H as <- <-. cbn [rest tl]. exists [13; 10]. split; [reflexivity|]. left. split; [reflexivity|]. right. split; [reflexivity|]. now apply comma_crlf.
    + assert (K : ParseSWSMarkCanOmmit 44 (x :: r1) = (fst (fst (ParseSWSMarkCanOmmit 44 (x :: r1))), true, true) \/ (~ commaNext (x :: r1) /\ (pCRLF ;;; ret (@inr (hset * hval) hset (set (fst st) (snd st)))) e s = Ok v s')).
      { pose proof (comma_omit (x :: r1)) as C. destruct (ParseSWSMarkCanOmmit 44 (x :: r1)) as [[r' []] []]; [left; reflexivity|right; split; [rewrite <- C; intros (q & [=])|exact H]..]. }
      destruct K as [K|[Nc K]].
      * rewrite K in H. pose proof (mark_omit 44 (x :: r1)) as M. rewrite K in M. destruct M as (m & Em & Hm). set (r' := fst (fst (ParseSWSMarkCanOmmit 44 (x :: r1)))) in *. rewrite goto_bind in H. apply bind_inv in H as (w & s1 & E & H). injection H as <- <-.
        apply (ex_sound _ _ _ (exact_sipX e h)) in E as (tv & Etv & Hv). cbn [rest] in Etv. exists (m ++ tv). rewrite Em, Etv, app_assoc. split; [reflexivity|]. right. exists m, tv, w. rewrite <- Etv. auto.
      * apply bind_inv in K as (x0 & s1 & E & K). injection K as <- <-. apply (ex_sound _ _ _ (exact_crlf e)) in E as (t & Et & ->). rewrite R in Et. exists [13; 10]. split; [exact Et|]. left. split; [reflexivity|]. right. split; [reflexivity|]. rewrite Et in Nc. exact Nc.
  - intros HI t v k u [[-> [[-> ->]|[-> Nc]]]|(m & tv & w & -> & Hm & Hv & ->)].
    + exists u. reflexivity.
    + exists u. unfold multiBody. rewrite onRest_eq. cbn [app]. cbv zeta. destruct (IsOnlyCRLF (13 :: 10 :: k)); [rewrite goto_bind; reflexivity|]. pose proof (comma_omit (13 :: 10 :: k)) as C.
      assert (E : (pCRLF ;;; ret (@inr (hset * hval) hset (set (fst st) (snd st)))) e (mkst (13 :: 10 :: k) u) = Ok (inr (set (fst st) (snd st))) (mkst k u)) by (rewrite (bind_ok _ _ _ _ _ _ (rt_CRLF e k u)); reflexivity).
      destruct (ParseSWSMarkCanOmmit 44 (13 :: 10 :: k)) as [[r' []] []]; try exact E. exfalso. apply Nc, C. eauto.
    + destruct (ex_complete _ _ _ (exact_sipX e h) HI _ _ _ u Hv) as [u1 E1]. exists u1. rewrite <- app_assoc. unfold multiBody. rewrite onRest_eq. pose proof (mark_omit_yes 44 m (tv ++ k) Hm) as M.
      assert (Nc : commaNext (m ++ tv ++ k)) by (apply comma_mark; eauto). destruct (m ++ tv ++ k) as [|x r1] eqn:R; [destruct Nc as (w0 & r' & E0 & _); destruct w0; discriminate|]. cbv zeta.
      destruct (IsOnlyCRLF (x :: r1)) eqn:Eo; [exfalso; pose proof (IsOnlyCRLF_len _ Eo) as (t & Et); rewrite Et in *; now apply comma_crlf in Eo|]. rewrite M, goto_bind. cbn [used]. rewrite (bind_ok _ _ _ _ _ _ E1). reflexivity.
Qed.
Lemma iter_more e h set a v t a' k : Iter (multiStep e h set) (a, v) t a' k <-> exists vs, MoreRead e h t vs k /\ a' = fold_left set (v :: vs) a.
Proof.
  split.
  - remember (a, v) as st eqn:Es. intros I. revert a v Es. induction I as [st t b k Hr|st st' t ts b k Hr I IH]; intros a v ->.
    + destruct Hr as [[Hx [[-> ->]|[-> Nc]]]|(m & tv & w & _ & _ & _ & [=])]; injection Hx as ->; exists []; (split; [|reflexivity]); [apply MOend|now apply MOline].
    + destruct Hr as [[[=] _]|(m & tv & w & -> & Hm & Hv & Hx)]. injection Hx as ->. cbn [fst snd] in *. destruct (IH _ _ eq_refl) as (vs & Hs & ->). exists (w :: vs). split; [|reflexivity]. rewrite <- app_assoc. now apply MOmore.
  - intros (vs & H & ->). revert a v. induction H as [|k Nc|m t w ts vs k Hm Hv Hs IH]; intros a v.
    + apply ItStop. left. auto.
    + apply ItStop. left. auto.
    + rewrite app_assoc. cbn [fold_left]. eapply ItMore; [|apply (IH (set a v) w)]. right. exists m, t, w. auto.
Qed.

(** ** One field *)
Lemma lookedUp_first : forallb (fun q => match fst q with x :: _ => negb (asciiLower x =? 13) | [] => false end) lookedUp = true.
Proof. vm_compute. reflexivity. Qed.
Lemma crAfter_first a : In (map asciiLower a) crDashAfter -> exists x q, a = x :: q /\ x <> 13.
Proof. intros H. destruct a as [|x q]; [destruct H as [H|[H|[H|[H|[]]]]]; discriminate|]. exists x, q. split; [reflexivity|]. intros ->. destruct H as [H|[H|[H|[H|[]]]]]; discriminate. Qed.
Lemma name_first p n i : NameRead p n i -> exists x q, p = x :: q /\ x <> 13.
Proof.
  intros [p' name j Hi Hs|p' Tp _].
  - pose proof lookedUp_first as F. rewrite forallb_forall in F. apply F in Hi. cbn [fst] in Hi. destruct Hs as [Hs|(a & b & -> & Ia & _)].
    + unfold sameNoCase in Hs. destruct name as [|y name]; [discriminate|]. destruct p' as [|x q]; [discriminate|]. exists x, q. split; [reflexivity|]. intros ->. cbn [map] in Hs. injection Hs as Hs _. rewrite <- Hs in Hi. discriminate.
    + apply crAfter_first in Ia as (x & q & -> & Hx). exists x, (q ++ 13 :: b). auto.
  - destruct Tp as [[Hne Tp]|(a & b & -> & Ia & _)].
    + destruct p' as [|x q]; [congruence|]. exists x, q. split; [reflexivity|]. intros ->. discriminate.
    + apply crAfter_first in Ia as (x & q & -> & Hx). exists x, (q ++ 13 :: b). auto.
Qed.
Lemma fieldName_first t v k r : FieldNameRead t v k -> exists x q, t ++ r = x :: q /\ x <> 13.
Proof. intros (p & c & -> & Hn & _). apply name_first in Hn as (x & q & -> & Hx). exists x, (q ++ c ++ r). cbn [app]. rewrite <- app_assoc. auto. Qed.
(** What is done with a field. *)
Definition setField (o : owner) (a : hset) (f : field) : hset := match f with FValues i vs => fold_left (setCommon o i (maySeveral i)) vs a | FRaw h => addRaw a h end.
Lemma several_only : forallb (fun q => Bool.eqb (maySeveral (fst q)) (snd (snd q))) structured = true.
Proof. vm_compute. reflexivity. Qed.
Lemma readAs_several o e i h m : readAs o e i h m -> maySeveral i = m.
Proof. intros [I _]. pose proof several_only as F. rewrite forallb_forall in F. apply F in I. now apply eqb_prop in I. Qed.
(** A field without its name. *)
Definition RestRead (e : env) (o : owner) (n : option bytes) (i : N) (t : bytes) (f : field) (k : bytes) : Prop :=
  (exists h t1 v, t = t1 ++ [13; 10] /\ readAs o e i h false /\ ValueRead e h t1 v (13 :: 10 :: k) /\ f = FValues i [v]) \/
  (exists h vs, readAs o e i h true /\ ValuesRead e h t vs k /\ f = FValues i vs) \/
  (exists v, (forall h several, ~ readAs o e i h several) /\ TextRead t v k /\ f = FRaw (mkraw i n v)).
Lemma field_rest e o t f k : FieldRead e o t f k <-> exists tn n i tr, t = tn ++ tr /\ FieldNameRead tn (n, i) (tr ++ k) /\ RestRead e o n i tr f k.
Proof.
  split.
  - intros [tn n i h t1 v k1 Hn Hr Hv|tn n i h t1 vs k1 Hn Hr Hv|tn n i t1 v k1 Hn Hr Hv]; exists tn, n, i.
    + exists (t1 ++ [13; 10]). rewrite <- app_assoc. split; [reflexivity|]. split; [exact Hn|]. left. eauto 9.
    + exists t1. split; [reflexivity|]. split; [exact Hn|]. right. left. eauto.
    + exists t1. split; [reflexivity|]. split; [exact Hn|]. right. right. eauto.
  - intros (tn & n & i & tr & -> & Hn & [(h & t1 & v & -> & Hr & Hv & ->)|[(h & vs & Hr & Hv & ->)|(v & Hr & Hv & ->)]]).
    + apply (FRone e o tn n i h); auto. rewrite <- app_assoc in Hn. exact Hn.
    + now apply (FRmany e o tn n i h).
    + now apply FRraw.
Qed.
Lemma exact_oneHeader e o a n i : exact e (oneHeader o a n i) (fun t a' k => exists f, RestRead e o n i t f k /\ a' = setField o a f).
Proof.
  unfold oneHeader. apply exact_env. destruct (needParse o e i) as [[h m]|] eqn:En.
  - pose proof (proj2 (readAs_need _ _ _ _ _) En) as Ra. pose proof (readAs_several _ _ _ _ _ Ra) as Ms.
    assert (U : forall h' m', readAs o e i h' m' -> h' = h /\ m' = m) by (intros h' m' R'; apply readAs_need in R'; rewrite En in R'; injection R' as <- <-; auto).
    destruct m.
    + eapply exact_iff; [|eapply exact_bind; [apply (exact_sipX e h)|intros v; apply (exact_loop e _ (multiStep e h (setCommon o i true))); [apply multi_progresses|intros st; apply exact_multiBody]]].
      intros t a' k. cbn beta. split.
      * intros (t1 & v & t2 & -> & Hv & I). apply iter_more in I as (vs & Hm & ->). exists (FValues i (v :: vs)). split; [|cbn [setField]; now rewrite Ms]. right. left. exists h, (v :: vs). split; [exact Ra|]. split; [|reflexivity]. apply values_more. eauto 9.
      * intros (f & [(h' & t1 & v & _ & Hr & _)|[(h' & vs & Hr & Hv & ->)|(v & Hr & _)]] & ->); [apply U in Hr as [_ [=]]| |exfalso; exact (Hr _ _ Ra)]. apply U in Hr as [-> _]. apply values_more in Hv as (t1 & v & ts & vs' & -> & -> & Hv & Hm).
        exists t1, v, ts. split; [reflexivity|]. split; [exact Hv|]. apply iter_more. exists vs'. split; [exact Hm|]. cbn [setField]. now rewrite Ms.
    + eapply exact_iff; [|eapply exact_bind; [apply (exact_sipX e h)|intros v; apply exact_seq; [apply exact_crlf|apply exact_ret]]].
      intros t a' k. cbn beta. split.
      * intros (t1 & v & t2 & -> & Hv & t3 & x & t4 & -> & -> & -> & ->). exists (FValues i [v]). split; [|cbn [setField fold_left]; now rewrite Ms]. left. exists h, t1, v. auto.
      * intros (f & [(h' & t1 & v & -> & Hr & Hv & ->)|[(h' & vs & Hr & Hv & ->)|(v & Hr & _)]] & ->); [|apply U in Hr as [_ [=]]|exfalso; exact (Hr _ _ Ra)]. apply U in Hr as [-> _].
        exists t1, v, [13; 10]. split; [reflexivity|]. split; [exact Hv|]. exists [13; 10], tt, []. split; [reflexivity|]. split; [reflexivity|]. split; [reflexivity|]. cbn [setField fold_left]. now rewrite Ms.
  - pose proof (proj2 (not_read _ _ _) En) as Ra. eapply exact_iff; [|apply (exact_map e _ (addRaw a)), exact_raw]. intros t a' k. cbn beta. split.
    + intros (x & -> & v & -> & Hv). exists (FRaw (mkraw i n v)). split; [|reflexivity]. right. right. eauto.
    + intros (f & [(h' & t1 & v & _ & Hr & _)|[(h' & vs & Hr & _)|(v & _ & Hv & ->)]] & ->); [exfalso; exact (Ra _ _ Hr)..|]. exists (mkraw i n v). split; [reflexivity|]. eauto.
Qed.

(** ** Header blocks *)
Definition fieldStep (e : env) (o : owner) (a : hset) (t : bytes) (x : hset + hset) (k : bytes) : Prop :=
  (x = inr a /\ (t = [] /\ k = [] \/ t = [13; 10])) \/ (exists f, FieldRead e o t f k /\ x = inl (setField o a f)).
Lemma not_crlf x q : x <> 13 -> IsCRLF (x :: q) = false.
Proof. intros H. destruct (IsCRLF (x :: q)) eqn:E; [|reflexivity]. apply IsCRLF_spec in E as (t & [= -> _]). congruence. Qed.
Lemma exact_blockBody {A} e (hdr : A -> option bytes -> N -> P A) (R : A -> option bytes -> N -> bytes -> A -> bytes -> Prop) a : (forall a n i, exact e (hdr a n i) (R a n i)) ->
  exact e (headersBody hdr a) (fun t x k => (x = inr a /\ (t = [] /\ k = [] \/ t = [13; 10])) \/ exists tn n i tr a', t = tn ++ tr /\ FieldNameRead tn (n, i) (tr ++ k) /\ R a n i tr a' k /\ x = inl a').
Proof.
  intros Hh. set (after := fun ni : option bytes * N => a' <- hdr a (fst ni) (snd ni) ;; ret (@inl A A a')).
  assert (Y : exact e (bind parseHeaderName after) (fun t x k => exists tn n i tr a', t = tn ++ tr /\ FieldNameRead tn (n, i) (tr ++ k) /\ R a n i tr a' k /\ x = inl a')).
  { eapply exact_iff; [|apply (exact_bind e _ _ FieldNameRead (fun ni t v k => exists x, v = inl x /\ R a (fst ni) (snd ni) t x k)); [apply exact_fieldName|intros [n i]; exact (exact_map e _ (@inl A A) _ (Hh a n i))]]. intros t x k. cbn [fst snd]. split.
    - intros (tn & [n i] & tr & -> & Hn & a' & -> & Hf). exists tn, n, i, tr, a'. auto.
    - intros (tn & n & i & tr & a' & -> & Hn & Hf & ->). exists tn, (n, i), tr. split; [reflexivity|]. split; [exact Hn|]. eauto. }
  split.
  - intros s v s' H. unfold headersBody, onRest in H. destruct (rest s) as [|x r1] eqn:Rs; [injection H as <- <-; exists []; rewrite Rs; split; [reflexivity|]; left; auto|]. destruct (IsCRLF (x :: r1)) eqn:Ec.
    + apply IsCRLF_spec in Ec as (t & Et). injection Et as -> ->. rewrite goto_bind in H. injection H as <- <-. exists [13; 10]. split; [reflexivity|]. left. auto.
    + apply (ex_sound _ _ _ Y) in H as (t & Et & H). rewrite Rs in Et. exists t. split; [exact Et|]. right. exact H.
  - intros HI t v k u [[-> [[-> ->] | ->]]|Hf].
    + exists u. reflexivity.
    + exists u. unfold headersBody. rewrite onRest_eq. cbn [app IsCRLF]. rewrite !N.eqb_refl. cbn [andb]. rewrite goto_bind. reflexivity.
    + destruct (ex_complete _ _ _ Y HI t v k u Hf) as [u1 E1]. exists u1. rewrite <- E1. unfold headersBody. rewrite onRest_eq. destruct Hf as (tn & n & i & tr & a' & -> & Hn & _ & _).
      destruct (fieldName_first tn (n, i) (tr ++ k) (tr ++ k) Hn) as (x & q & Eq & Hx). rewrite <- app_assoc, Eq, (not_crlf x q Hx). reflexivity.
Qed.
Lemma exact_headersBody e o a : exact e (headersBody (oneHeader o) a) (fieldStep e o a).
Proof.
  eapply exact_iff; [|apply exact_blockBody; intros; apply exact_oneHeader]. intros t x k. unfold fieldStep. cbn beta. split; (intros [H|H]; [left; exact H|right]).
  - destruct H as (tn & n & i & tr & a' & -> & Hn & (f & Hf & ->) & ->). exists f. split; [|reflexivity]. apply field_rest. eauto 9.
  - destruct H as (f & Hf & ->). apply field_rest in Hf as (tn & n & i & tr & -> & Hn & Hf). exists tn, n, i, tr, (setField o a f). eauto 9.
Qed.
Lemma exact_rawHeaders e : exact e parseRawHeaders RawFieldsRead.
Proof.
  set (Rs := fun (a : list raw) (t : bytes) (x : list raw + list raw) (k : bytes) => (x = inr a /\ (t = [] /\ k = [] \/ t = [13; 10])) \/ exists tn n i tr v, t = tn ++ tr /\ FieldNameRead tn (n, i) (tr ++ k) /\ TextRead tr v k /\ x = inl (a ++ [mkraw i n v])).
  assert (Hb : forall a, exact e (headersBody (fun a n i => h <- rawHeader n i ;; ret (a ++ [h])) a) (Rs a)).
  { intros a. eapply exact_iff; [|apply exact_blockBody; intros a' n i; apply (exact_map e _ (fun h => a' ++ [h])), exact_raw]. intros t x k. unfold Rs. cbn beta. split; (intros [H|H]; [left; exact H|right]).
    - destruct H as (tn & n & i & tr & a' & -> & Hn & (h & -> & v & -> & Ht) & ->). exists tn, n, i, tr, v. auto.
    - destruct H as (tn & n & i & tr & v & -> & Hn & Ht & ->). exists tn, n, i, tr, (a ++ [mkraw i n v]). split; [reflexivity|]. split; [exact Hn|]. split; [|reflexivity]. eauto. }
  eapply exact_iff; [|apply (exact_loop e _ Rs); [apply (headers_progresses 1 9); intros; apply gd_rawHdr; lia|exact Hb]].
  assert (K : forall a t v k, Iter Rs a t v k <-> exists hs, RawFieldsRead t hs k /\ v = a ++ hs); [|intros t v k; rewrite K; cbn [app]; split; [intros (hs & H & ->); exact H|eauto]].
  intros a t v k. split.
  - intros I. induction I as [a t b k Hr|a a1 t ts b k Hr I IH].
    + destruct Hr as [[Hx [[-> ->] | ->]]|(tn & n & i & tr & v & _ & _ & _ & [=])]; injection Hx as ->; exists []; rewrite app_nil_r; (split; [|reflexivity]); [apply RFend|apply RFline].
    + destruct Hr as [[[=] _]|(tn & n & i & tr & v & -> & Hn & Ht & Hx)]. injection Hx as ->. destruct IH as (hs & Hs & ->). exists (mkraw i n v :: hs). rewrite <- !app_assoc. split; [|reflexivity]. now apply RFcons.
  - intros (hs & H & ->). revert a. induction H as [|k|tn n i t v ts hs k Hn Ht Hs IH]; intros a.
    + rewrite app_nil_r. apply ItStop. left. auto.
    + rewrite app_nil_r. apply ItStop. left. auto.
    + specialize (IH (a ++ [mkraw i n v])). rewrite <- app_assoc in IH. cbn [app] in IH. rewrite app_assoc. eapply ItMore; [|exact IH]. right. exists tn, n, i, t, v. auto.
Qed.
Lemma iter_fields e o a t a' k : Iter (fieldStep e o) a t a' k <-> exists fs, FieldsRead e o t fs k /\ a' = fold_left (setField o) fs a.
Proof.
  split.
  - intros I. induction I as [a t b k Hr|a a1 t ts b k Hr I IH].
    + destruct Hr as [[Hx [[-> ->] | ->]]|(f & _ & [=])]; injection Hx as ->; exists []; (split; [|reflexivity]); [apply FSend|apply FSline].
    + destruct Hr as [[[=] _]|(f & Hf & Hx)]. injection Hx as ->. destruct IH as (fs & Hs & ->). exists (f :: fs). split; [|reflexivity]. now apply FScons.
  - intros (fs & H & ->). revert a. induction H as [|k|t f ts fs k Hf Hs IH]; intros a.
    + apply ItStop. left. auto.
    + apply ItStop. left. auto.
    + cbn [fold_left]. eapply ItMore; [|apply IH]. right. eauto.
Qed.
(** The fields of a block are kept in the places of their numbers. *)
Definition fieldOk (o : owner) (f : field) : Prop := match f with
  | FValues i vs => nth_error (slotIndexes o) (slotOf o i) = Some i /\ i <> SIP_HDR_UNKNOWN /\ (maySeveral i = false -> exists v, vs = [v])
  | FRaw _ => True end.
Lemma structured_slots : forallb (fun q => match nth_error (slotIndexes OMsg) (slotOf OMsg (fst q)) with Some j => (j =? fst q) && negb (fst q =? SIP_HDR_UNKNOWN) | None => false end) structured = true.
Proof. vm_compute. reflexivity. Qed.
Lemma readAs_slot o e i h m : readAs o e i h m -> nth_error (slotIndexes o) (slotOf o i) = Some i /\ i <> SIP_HDR_UNKNOWN.
Proof.
  intros [I Ir]. destruct o.
  - pose proof structured_slots as F. rewrite forallb_forall in F. apply F in I. cbn [fst] in I. destruct (nth_error _ _) as [j|]; [|discriminate]. apply andb_prop in I as [I1 I2]. apply N.eqb_eq in I1. subst j. split; [reflexivity|]. apply negb_true_iff, N.eqb_neq in I2. exact I2.
  - assert (K : In i [SIP_HDR_CONTENT_TYPE; SIP_HDR_CONTENT_LENGTH; SIP_HDR_CONTENT_DISPOSITION]) by (unfold isRead in Ir; destruct (fHeaderAsRaw e); [exact Ir|right; exact Ir]). clear - K. destruct K as [<-|[<-|[<-|[]]]]; split; try reflexivity; discriminate.
Qed.
Lemma field_ok e o t f k : FieldRead e o t f k -> fieldOk o f.
Proof.
  intros [tn n i h t1 v k1 Hn Hr Hv|tn n i h t1 vs k1 Hn Hr Hv|tn n i t1 v k1 Hn Hr Hv]; cbn [fieldOk]; [| |exact Logic.I]; pose proof (readAs_slot _ _ _ _ _ Hr) as [A B]; (split; [exact A|]; split; [exact B|]).
  - eauto.
  - rewrite (readAs_several _ _ _ _ _ Hr). discriminate.
Qed.
Lemma fields_ok e o t fs k : FieldsRead e o t fs k -> Forall (fieldOk o) fs.
Proof. intros H. induction H as [|k|t f ts fs k Hf Hs IH]; constructor; [now apply field_ok in Hf|exact IH]. Qed.
Lemma indexes_nodup o : NoDup (slotIndexes o).
Proof. destruct o; cbn [slotIndexes]; repeat (constructor; [cbn; intros H; repeat (destruct H as [H|H]; [discriminate|]); exact H|]); constructor. Qed.
Lemma fold_several o i vs : forall a, (slotOf o i < List.length (hsCommon a))%nat -> fold_left (setCommon o i true) vs a = mkhset (setNth (hsCommon a) (slotOf o i) (nth (slotOf o i) (hsCommon a) [] ++ vs)) (hsRaw a).
Proof.
  induction vs as [|v vs IH]; intros a L; cbn [fold_left].
  - rewrite app_nil_r, setNth_same. now destruct a.
  - rewrite IH; unfold setCommon; cbn [hsCommon hsRaw]; [|now rewrite setNth_len]. rewrite setNth_nth by exact L. now rewrite setNth_twice, <- app_assoc.
Qed.
Lemma setNth_map {A B} (f g : A -> B) l n i x : NoDup l -> nth_error l n = Some i -> g i = x -> (forall j, j <> i -> g j = f j) -> setNth (map f l) n x = map g l.
Proof.
  revert n. induction l as [|y l IH]; intros n Nd Hn Hg Hf; [destruct n; discriminate|]. apply NoDup_cons_iff in Nd as [Ny Nd]. destruct n as [|n]; cbn in *.
  - injection Hn as ->. rewrite Hg. f_equal. apply map_ext_in. intros j Hj. symmetry. apply Hf. congruence.
  - f_equal; [symmetry; apply Hf; intros ->; apply Ny; now apply nth_error_In in Hn|]. now apply IH.
Qed.
Lemma nth_map {A B} (f : A -> B) l n i d : nth_error l n = Some i -> nth n (map f l) d = f i.
Proof. intros H. apply nth_error_nth. now apply map_nth_error. Qed.
Lemma values_snoc i fs f : valuesOf i (fs ++ [f]) = valuesOf i fs ++ match f with FValues j vs => if j =? i then [vs] else [] | FRaw _ => [] end.
Proof. unfold valuesOf. rewrite flat_map_app. cbn [flat_map]. now rewrite app_nil_r. Qed.
Lemma collect_snoc o fs f : fieldOk o f -> setField o (collect o fs) f = collect o (fs ++ [f]).
Proof.
  intros Hf. destruct f as [i vs|h]; unfold collect; rewrite flat_map_app; cbn [flat_map]; rewrite !app_nil_r.
  - cbn [fieldOk] in Hf. destruct Hf as (Hs & Hu & Hv). cbn [setField].
    assert (Q : forall x, x = slotValues (fs ++ [FValues i vs]) i -> setNth (map (slotValues fs) (slotIndexes o)) (slotOf o i) x = map (slotValues (fs ++ [FValues i vs])) (slotIndexes o)).
    { intros x ->. apply (setNth_map _ _ _ _ i); [apply indexes_nodup|exact Hs|reflexivity|]. intros j Hj. unfold slotValues. rewrite values_snoc. apply not_eq_sym in Hj. rewrite (proj2 (N.eqb_neq i j) Hj), app_nil_r. reflexivity. }
    assert (L : (slotOf o i < List.length (map (slotValues fs) (slotIndexes o)))%nat) by (rewrite map_length; apply slot_bound).
    destruct (maySeveral i) eqn:Ms.
    + rewrite fold_several by exact L. cbn [hsCommon hsRaw]. f_equal. apply Q. rewrite (nth_map _ _ _ _ _ Hs). unfold slotValues. rewrite Ms, values_snoc, N.eqb_refl, concat_app. cbn [List.concat]. now rewrite app_nil_r.
    + destruct (Hv eq_refl) as [v ->]. cbn [fold_left]. unfold setCommon. cbn [hsCommon hsRaw]. f_equal. apply Q. unfold slotValues. now rewrite Ms, values_snoc, N.eqb_refl, last_last.
  - cbn [setField]. unfold addRaw. cbn [hsCommon hsRaw]. f_equal. apply map_ext. intros i. unfold slotValues. now rewrite values_snoc, app_nil_r.
Qed.
Lemma collect_fold o fs : Forall (fieldOk o) fs -> fold_left (setField o) fs (emptyHdrs o) = collect o fs.
Proof.
  intros H. rewrite <- (rev_involutive fs) in *. induction (rev fs) as [|f l IH]; cbn [rev] in *.
  - destruct o; reflexivity.
  - apply Forall_app in H as [H1 H2]. rewrite fold_left_app. cbn [fold_left]. rewrite IH by exact H1. apply collect_snoc. now inversion H2.
Qed.
Lemma exact_headers e o : exact e (parseHeaders o) (fun t h k => exists fs, FieldsRead e o t fs k /\ h = collect o fs).
Proof.
  eapply exact_iff; [|apply (exact_loop e _ (fieldStep e o)); [apply (headers_progresses 230 408); intros; apply gd_oneHeader; lia|intros; apply exact_headersBody]].
  intros t h k. rewrite iter_fields. split; intros (fs & H & ->); exists fs; (split; [exact H|]); [|symmetry]; apply collect_fold; exact (fields_ok _ _ _ _ _ H).
Qed.

(** ** Bodies *)
Lemma exact_bind_if {A B} e (p : P A) (q : A -> P B) R1 R2 : exact e p R1 -> (forall a t k, R1 t a k -> exact e (q a) (R2 a)) ->
  exact e (bind p q) (fun t v k => exists t1 a t2, t = t1 ++ t2 /\ R1 t1 a (t2 ++ k) /\ R2 a t2 v k).
Proof.
  intros [S C] H. split.
  - intros s v s' E. apply bind_inv in E as (a & s1 & E1 & E2). apply S in E1 as (t1 & Er1 & H1). apply (ex_sound _ _ _ (H a _ _ H1)) in E2 as (t2 & Er2 & H2). exists (t1 ++ t2). rewrite Er1, Er2, app_assoc. split; [reflexivity|].
    exists t1, a, t2. rewrite Er2 in H1. auto.
  - intros HI t v k u (t1 & a & t2 & -> & H1 & H2). destruct (C HI _ _ _ u H1) as [u1 E1]. destruct (ex_complete _ _ _ (H a _ _ H1) HI _ _ _ u1 H2) as [u2 E2]. exists u2. rewrite <- app_assoc. now rewrite (bind_ok _ _ _ _ _ _ E1).
Qed.
Lemma exact_some {A} e (p : P A) R : exact e p R -> exact e (onRest (fun r => match r with [] => pfail | _ => p end)) (fun t v k => t ++ k <> [] /\ R t v k).
Proof.
  intros [S C]. split.
  - intros s v s' E. unfold onRest in E. destruct (rest s) as [|x r] eqn:R0; [discriminate|]. apply S in E as (t & Et & H). exists t. rewrite R0 in Et. split; [exact Et|]. split; [rewrite <- Et; discriminate|exact H].
  - intros HI t v k u [Hne H]. destruct (C HI _ _ _ u H) as [u1 E1]. exists u1. rewrite onRest_eq. destruct (t ++ k) as [|x r]; [congruence|exact E1].
Qed.
Lemma same_front {A} (a b x y : list A) : List.length a = List.length b -> a ++ x = b ++ y -> a = b /\ x = y.
Proof. revert b. induction a as [|c a IH]; intros [|d b] L E; try discriminate; [auto|]. cbn [app] in E. injection E as -> E. injection L as L. destruct (IH b L E) as [-> ->]. auto. Qed.
Lemma first_at p d k r : splitAt p r = Some (d, k) <-> r = d ++ p ++ k /\ FirstAt p d k.
Proof.
  split.
  - intros E. pose proof (splitAt_app _ _ _ _ E) as Er. split; [exact Er|]. intros d' k' E'. rewrite Er, E' in E. now apply ParsedMsg2.split_first in E.
  - intros [-> F]. destruct (splitAt p (d ++ p ++ k)) as [[d' k']|] eqn:E.
    + pose proof (ParsedMsg2.split_first _ _ _ _ _ E) as L1. apply splitAt_app in E as E2. apply F in E2 as L2. assert (L : List.length d = List.length d') by lia.
      destruct (same_front _ _ _ _ L E2) as [-> E3]. apply app_inv_head in E3. now subst.
    + exfalso. clear F. induction d as [|x d IH]; cbn [app] in E.
      * assert (H : stripPrefix p (p ++ k) = Some k) by (apply stripPrefix_app; reflexivity). destruct (p ++ k); cbn [splitAt] in E; rewrite H in E; discriminate.
      * cbn [splitAt] in E. destruct (stripPrefix p (x :: d ++ p ++ k)); [discriminate|]. destruct (splitAt p (d ++ p ++ k)) as [[? ?]|]; [discriminate|]. now apply IH.
Qed.
Definition partStep (e : env) (b : bytes) (bs : list body) (t : bytes) (x : list body + list body) (k : bytes) : Prop :=
  (x = inr bs /\ exists a c, t = [a; c] /\ (a = 45 \/ c = 45)) \/
  (exists line tf fs d data, t = line ++ 10 :: tf ++ d ++ delimiter b /\ noDash (line ++ 10 :: tf ++ d ++ delimiter b ++ k) /\ folded line /\ ~ startsWsp (tf ++ d ++ delimiter b ++ k) /\
    FieldsRead e OBody tf fs (d ++ delimiter b ++ k) /\ FirstAt (delimiter b) d k /\ (data = d \/ memend e <> None /\ data = []) /\ x = inl (bs ++ [mkbody (collect OBody fs) data])).
Lemma exact_multipartBody e b bs : exact e (multipartBody (13 :: 10 :: 45 :: 45 :: b) bs) (partStep e b bs).
Proof.
  split.
  - intros s v s' H. unfold multipartBody in H. unfold onRest in H at 1. destruct (rest s) as [|x [|y r2]] eqn:R; [discriminate..|]. destruct ((x =? 45) || (y =? 45))%bool eqn:Ed.
    + rewrite goto_bind in H. injection H as <- <-. exists [x; y]. split; [reflexivity|]. left. split; [reflexivity|]. exists x, y. split; [reflexivity|]. now rewrite orb_true_iff, !N.eqb_eq in Ed.
    + apply orb_false_iff in Ed as [Ex Ey]. apply N.eqb_neq in Ex, Ey. destruct (FindCrlf (x :: y :: r2)) as [[w r1]|] eqn:F; [|discriminate]. apply FindCrlf_spec in F as (line & (Er & Fl & Nw) & _). rewrite goto_bind in H.
      apply bind_inv in H as (z & s1 & E1 & H). apply alloc_inv in E1 as [E1 _]. cbn [Base.rest] in E1. apply bind_inv in H as (h & s2 & E2 & H). apply (ex_sound _ _ _ (exact_headers e OBody)) in E2 as (tf & Etf & fs & Hf & ->). rewrite E1 in Etf.
      unfold onRest in H. destruct (splitAt _ (rest s2)) as [[d r4]|] eqn:Sp; [|discriminate]. apply first_at in Sp as [Es Fa]. apply bind_inv in H as (o & s3 & E3 & H). rewrite goto_bind in H. injection H as <- <-. cbn [Base.rest].
      exists (line ++ 10 :: tf ++ d ++ delimiter b). rewrite Er, Etf, Es. change (13 :: 10 :: 45 :: 45 :: b) with (delimiter b) in *. split; [repeat rewrite <- app_assoc; cbn [app]; repeat rewrite <- app_assoc; reflexivity|]. right. exists line, tf, fs, d, (match o with Some t => t | None => [] end).
      rewrite Etf, Es in Er, Nw. rewrite Es in Hf. split; [reflexivity|]. split; [intros x0 y0 r0 E0; rewrite <- Er in E0; injection E0 as -> -> _; auto|]. split; [exact Fl|]. split; [exact Nw|]. split; [exact Hf|]. split; [exact Fa|]. split; [|reflexivity].
      unfold attempt, allocCString in E3. destruct (leMem _ _) eqn:Lm; injection E3 as <- _; [left; reflexivity|right]. split; [|reflexivity]. intros Hm. unfold leMem in Lm. rewrite Hm in Lm. discriminate.
  - intros HI t v k u [[-> (a & c & -> & Hd)]|(line & tf & fs & d & data & -> & Nd & Fl & Nw & Hf & Fa & Hdata & ->)].
    + exists u. unfold multipartBody. rewrite onRest_eq. cbn [app]. rewrite (proj2 (orb_true_iff _ _)) by (rewrite !N.eqb_eq; exact Hd). rewrite goto_bind. reflexivity.
    + assert (data = d) by (destruct Hdata as [->|[Hm _]]; [reflexivity|congruence]). subst data. clear Hdata.
      assert (Er : (line ++ 10 :: tf ++ d ++ delimiter b) ++ k = line ++ 10 :: tf ++ d ++ delimiter b ++ k) by (repeat rewrite <- app_assoc; cbn [app]; repeat rewrite <- app_assoc; reflexivity). rewrite Er. clear Er.
      unfold multipartBody. rewrite onRest_eq. destruct (line ++ 10 :: tf ++ d ++ delimiter b ++ k) as [|x [|y r2]] eqn:R.
      * destruct line; discriminate.
      * exfalso. apply (f_equal (@List.length _)) in R. rewrite app_length in R. cbn [List.length] in R. rewrite !app_length in R. unfold delimiter in R. rewrite !app_length in R. cbn in R. lia.
      * destruct (Nd _ _ _ eq_refl) as [Hx Hy]. rewrite (proj2 (N.eqb_neq x 45) Hx), (proj2 (N.eqb_neq y 45) Hy). cbn [orb]. rewrite <- R.
        pose proof (cut_line line) as C. cbv zeta in C. match type of C with cutCR _ ?v => assert (X : FindCrlf (line ++ 10 :: tf ++ d ++ delimiter b ++ k) = Some (v, tf ++ d ++ delimiter b ++ k)) by (apply FindCrlf_spec; exists line; split; [split; auto|exact C]) end.
        rewrite X, goto_bind. cbn [used]. destruct (ex_complete _ _ _ (exact_alloc e 16) HI [] tt (tf ++ d ++ delimiter b ++ k) u eq_refl) as [u1 E1]. cbn [app] in E1. rewrite (bind_ok _ _ _ _ _ _ E1).
        destruct (ex_complete _ _ _ (exact_headers e OBody) HI tf (collect OBody fs) (d ++ delimiter b ++ k) u1) as [u2 E2]; [eauto|]. rewrite (bind_ok _ _ _ _ _ _ E2). rewrite onRest_eq. change (13 :: 10 :: 45 :: 45 :: b) with (delimiter b).
        rewrite (proj2 (first_at (delimiter b) d k _)) by auto. unfold attempt, bind at 1. rewrite (rt_allocCString e d _ u2 HI), goto_bind. cbn [ret]. eexists. reflexivity.
Qed.
Lemma iter_parts e b bs t bs' k : Iter (partStep e b) bs t bs' k <-> exists l, PartsRead e b t l k /\ bs' = bs ++ l.
Proof.
  split.
  - intros I. induction I as [bs t b' k Hr|bs bs1 t ts b' k Hr I IH].
    + destruct Hr as [[Hx (a & c & -> & Hd)]|(line & tf & fs & d & data & _ & _ & _ & _ & _ & _ & _ & [=])]. injection Hx as ->. exists []. rewrite app_nil_r. split; [now apply PAend|reflexivity].
    + destruct Hr as [[[=] _]|(line & tf & fs & d & data & -> & Nd & Fl & Nw & Hf & Fa & Hdata & Hx)]. injection Hx as ->. destruct IH as (l & Hl & ->). exists (mkbody (collect OBody fs) data :: l). split; [|now rewrite <- app_assoc].
      replace ((line ++ 10 :: tf ++ d ++ delimiter b) ++ ts) with (line ++ 10 :: tf ++ d ++ delimiter b ++ ts) by (repeat rewrite <- app_assoc; cbn [app]; repeat rewrite <- app_assoc; reflexivity). now apply PApart.
  - intros (l & H & ->). revert bs. induction H as [x y k Hd|line tf fs d data ts bs0 k Nd Fl Nw Hf Fa Hdata Hp IH]; intros bs.
    + rewrite app_nil_r. apply ItStop. left. split; [reflexivity|]. eauto.
    + replace (line ++ 10 :: tf ++ d ++ delimiter b ++ ts) with ((line ++ 10 :: tf ++ d ++ delimiter b) ++ ts) by (repeat rewrite <- app_assoc; cbn [app]; repeat rewrite <- app_assoc; reflexivity).
      eapply ItMore; [right; exists line, tf, fs, d, data; split; [reflexivity|]; split; [exact Nd|]; split; [exact Fl|]; split; [exact Nw|]; split; [exact Hf|]; split; [exact Fa|]; split; [exact Hdata|reflexivity]|].
      specialize (IH (bs ++ [mkbody (collect OBody fs) data])). now rewrite <- app_assoc in IH.
Qed.
Lemma exact_parts e b : exact e (parseMultiBody b) (fun t bs k => exists ts, t = s2b "--" ++ b ++ ts /\ PartsRead e b ts bs k).
Proof.
  assert (X : exact e (loopP (multipartBody (13 :: 10 :: 45 :: 45 :: b)) []) (PartsRead e b)).
  { eapply exact_iff; [|apply (exact_loop e _ (partStep e b)); [apply multipart_progresses|intros; apply exact_multipartBody]]. intros t bs k. rewrite iter_parts. cbn [app]. split; [intros (l & H & ->); exact H|eauto]. }
  split.
  - intros s v s' H. unfold parseMultiBody in H. unfold onRest in H at 1. destruct (stripPrefix _ (rest s)) as [r'|] eqn:E; [|discriminate]. apply stripPrefix_app in E. rewrite goto_bind in H. apply (ex_sound _ _ _ X) in H as (t & Et & H). cbn [Base.rest] in Et.
    exists (s2b "--" ++ b ++ t). rewrite E, Et. split; [repeat rewrite <- app_assoc; reflexivity|]. eauto.
  - intros HI t v k u (ts & -> & H). destruct (ex_complete _ _ _ X HI _ _ _ u H) as [u1 E1]. exists u1. unfold parseMultiBody. rewrite onRest_eq. repeat rewrite <- app_assoc.
    rewrite (proj2 (stripPrefix_app (45 :: 45 :: b) _ (ts ++ k))) by reflexivity. rewrite goto_bind. exact E1.
Qed.
Lemma exact_single e h : exact e (parseSingleBody h) (fun t bs k => t = [] /\ (firstn (N.to_nat (statedLength h)) k = [] /\ bs = [] \/
  firstn (N.to_nat (statedLength h)) k <> [] /\ bs = [mkbody (mkhset [[]; []; []] []) (firstn (N.to_nat (statedLength h)) k)])).
Proof.
  assert (Sz : forall r, firstn (N.to_nat (match contentLengthOf h with Some (VNum n) => N.min n (len r) | _ => 0 end)) r = firstn (N.to_nat (statedLength h)) r).
  { intros r. unfold contentLengthOf, statedLength. destruct (nth 7 (hsCommon h) []) as [|v l]; [reflexivity|]. cbn [hd_error]. destruct v as [ad t1 ps| |pr tr hp t1 ps|n mt|rr c0 mt|n|mn sb t1 ps|d t1 ps|w0 w2]; try reflexivity.
    unfold len. rewrite N2Nat.inj_min, Nat2N.id. destruct (Nat.le_ge_cases (N.to_nat n) (List.length r)) as [L|L]; [now rewrite Nat.min_l|]. rewrite Nat.min_r by exact L. now rewrite (firstn_all2 (n := N.to_nat n)) , firstn_all by exact L. }
  assert (Z : forall r, match contentLengthOf h with Some (VNum n) => N.min n (len r) | _ => 0 end = 0 <-> firstn (N.to_nat (statedLength h)) r = []).
  { intros r. unfold contentLengthOf, statedLength. assert (F0 : firstn (N.to_nat 0) r = []) by reflexivity. destruct (nth 7 (hsCommon h) []) as [|v l]; [split; auto|]. cbn [hd_error]. destruct v as [ad t1 ps| |pr tr hp t1 ps|n mt|rr c0 mt|n|mn sb t1 ps|d t1 ps|w0 w2]; try (split; auto; fail).
    destruct r as [|x r]; [rewrite firstn_nil; unfold len; cbn [List.length]; split; [reflexivity|lia]|]. destruct (N.to_nat n) as [|q] eqn:En; [cbn [firstn]; split; [reflexivity|unfold len; lia]|]. cbn [firstn]. unfold len. cbn [List.length]. split; [lia|discriminate]. }
  split.
  - intros s v s' H. unfold parseSingleBody, onRest in H. cbv zeta in H. pose proof (Z (rest s)) as Zs. pose proof (Sz (rest s)) as Ss. destruct (N.eqb_spec (match contentLengthOf h with Some (VNum n) => N.min n (len (rest s)) | _ => 0 end) 0) as [E0|N0].
    + injection H as <- <-. exists []. split; [reflexivity|]. split; [reflexivity|]. left. split; [now apply Zs|reflexivity].
    + rewrite Ss in H. apply bind_inv in H as (z & s1 & E1 & H). apply alloc_inv in E1 as [E1 _]. apply bind_inv in H as (d & s2 & E2 & H). unfold allocCString in E2. destruct (leMem _ _); [|discriminate]. injection E2 as <- <-. injection H as <- <-. cbn [rest].
      rewrite E1. exists []. split; [reflexivity|]. split; [reflexivity|]. right. split; [rewrite <- Zs; exact N0|reflexivity].
  - intros HI t v k u [-> H]. cbn [app]. unfold parseSingleBody. rewrite onRest_eq. cbv zeta. pose proof (Z k) as Zs. pose proof (Sz k) as Ss. destruct (N.eqb_spec (match contentLengthOf h with Some (VNum n) => N.min n (len k) | _ => 0 end) 0) as [E0|N0].
    + apply Zs in E0. destruct H as [[_ ->]|[H _]]; [|congruence]. exists u. reflexivity.
    + destruct H as [[H _]|[_ ->]]; [exfalso; apply N0, Zs, H|]. destruct (ex_complete _ _ _ (exact_alloc e 16) HI [] tt k u eq_refl) as [u1 E1]. cbn [app] in E1. rewrite (bind_ok _ _ _ _ _ _ E1), Ss, (bind_ok _ _ _ _ _ _ (rt_allocCString e _ _ u1 HI)). eexists. reflexivity.
Qed.
Definition typeSlot (h : hset) : Prop := nth 10 (hsCommon h) [] = [] \/ exists m s t ps, nth 10 (hsCommon h) [] = [VType m s t ps].
Lemma exact_none {A} e : exact e (@pfail A) (fun _ _ _ => False).
Proof. split; [intros s v s' [=]|intros _ t v k u []]. Qed.
Lemma exact_msgBody e h : typeSlot h -> exact e (parseMsgBody h) (BodiesRead e h).
Proof.
  intros [Hn|(m & s & tb & ps & Hn)]; unfold parseMsgBody, contentTypeOf; rewrite Hn; cbn [hd_error].
  - eapply exact_iff; [|apply exact_ret]. intros t v k. cbn beta. split; [intros [-> ->]; now apply BOnone|]. intros H. destruct H as [k _|k (m & s & t & ps & Hs & _) _|k (m & s & t & ps & Hs & _) _|b t bs k (m & s & tbl & p & ps & Hs & _) _]; [auto|congruence..].
  - pose proof (CStringEqualNoCase_spec m (s2b "multipart") ltac:(discriminate)) as Sp. pose proof (CStringEqualNoCase_total m (s2b "multipart") ltac:(discriminate)) as To. destruct (CStringEqualNoCase m (s2b "multipart")) as [[]|]; [| |congruence].
    + pose proof (proj1 Sp eq_refl) as Sm. clear Sp To. cbn [boundaryParam].
      assert (Ki : forall t bs k, BodiesRead e h t bs k -> exists b ts, t = s2b "--" ++ b ++ ts /\ boundaryIs h b /\ PartsRead e b ts bs k).
      { intros t bs k H. destruct H as [k N0|k (m' & s' & t' & ps' & Hs & Ns) _|k (m' & s' & t' & ps' & Hs & Ns) _|b t bs k Hb Hp]; [unfold noType in N0; congruence|rewrite Hn in Hs; injection Hs as <- _ _ _; contradiction..|eauto 6]. }
      assert (Bi : forall b, boundaryIs h b -> exists tbl p, tb = Some tbl /\ nth 0 tbl None = Some p /\ b = match gpValue p with Some (GToken x) | Some (GQuoted x) | Some (GBracket x) => x | None => [] end).
      { intros b (m' & s' & tbl & p & ps' & Hs & _ & Hp & Hb). rewrite Hn in Hs. injection Hs as _ _ -> _. eauto. }
      destruct (match tb with Some tbl => nth 0 tbl None | None => None end) as [p|] eqn:Ep.
      * destruct tb as [tbl|]; [|discriminate]. assert (Eb : match gvalueText (gpValue p) with Some b => b | None => [] end = match gpValue p with Some (GToken x) | Some (GQuoted x) | Some (GBracket x) => x | None => [] end) by (destruct (gpValue p) as [[]|]; reflexivity).
        rewrite Eb. eapply exact_iff; [|apply exact_parts]. intros t bs k. cbn beta. split.
        -- intros (ts & -> & Hp). apply BOmany; [|exact Hp]. exists m, s, tbl, p, ps. auto.
        -- intros H. apply Ki in H as (b & ts & -> & Hb & Hp). apply Bi in Hb as (tbl' & p' & [= <-] & Ep' & ->). rewrite Ep in Ep'. injection Ep' as <-. eauto.
      * eapply exact_iff; [|apply exact_none]. intros t bs k. split; [intros []|]. intros H. apply Ki in H as (b & ts & _ & Hb & _). apply Bi in Hb as (tbl' & p' & -> & Ep' & _). congruence.
    + assert (Ns : ~ sameNoCase m (s2b "multipart")) by (intros H; apply Sp in H; discriminate). clear Sp To. assert (St : singleType h) by (exists m, s, tb, ps; auto). eapply exact_iff; [|apply exact_single]. intros t bs k. cbn beta. split.
      * intros [-> [[H ->]|[H ->]]]; [now apply BOempty|now apply BOone].
      * intros H. destruct H as [k N0|k _ Hl|k _ Hl|b t bs k (m' & s' & tbl & p & ps' & Hs & Sm & _) _]; [unfold noType in N0; congruence|auto..|]. rewrite Hn in Hs. injection Hs as <- _ _ _. contradiction.
Qed.
Lemma fields_type e t fs k : FieldsRead e OMsg t fs k -> typeSlot (collect OMsg fs).
Proof.
  intros H. unfold typeSlot. change (nth 10 (hsCommon (collect OMsg fs)) []) with (slotValues fs SIP_HDR_CONTENT_TYPE). unfold slotValues. change (maySeveral SIP_HDR_CONTENT_TYPE) with false. cbv iota.
  assert (K : Forall (fun vs => exists m s t ps, vs = [VType m s t ps]) (valuesOf SIP_HDR_CONTENT_TYPE fs)).
  { induction H as [|k|t f ts fs k Hf Hs IH]; [constructor..|]. unfold valuesOf. cbn [flat_map]. apply Forall_app. split; [|exact IH]. destruct f as [i vs|]; [|constructor]. destruct (N.eqb_spec i SIP_HDR_CONTENT_TYPE) as [->|]; [|constructor]. constructor; [|constructor].
    remember (FValues SIP_HDR_CONTENT_TYPE vs) as f eqn:Ef. clear - Hf Ef. destruct Hf as [tn n i h t1 v k1 Hn Hr Hv|tn n i h t1 vs' k1 Hn Hr Hv|tn n i t1 v k1 Hn Hr Hv]; [| |discriminate]; injection Ef as -> <-.
    - assert (h = KContentType). { destruct Hr as [I _]. cbn in I. repeat (destruct I as [I|I]; [first [discriminate | now injection I as <-]|]). destruct I. } subst h. inversion Hv; subst; try discriminate; eauto. exfalso. match goal with I : In KContentType _ |- _ => destruct I as [I|[I|[I|[]]]]; discriminate end.
    - exfalso. apply readAs_several in Hr. discriminate. }
  revert K. generalize (valuesOf SIP_HDR_CONTENT_TYPE fs). intros l K. destruct l as [|x l] using rev_ind; [left; reflexivity|]. rewrite last_last. apply Forall_app in K as [_ K]. right. now inversion K.
Qed.
(** ** Messages *)
Lemma exact_msg e : exact e parseMsg (MessageRead e).
Proof.
  assert (Xh : forall l, exact e (h <- parseHeaders OMsg ;; bs <- parseMsgBody h ;; ret (mkmsg l h bs)) (fun t m k => exists tf h tb, t = tf ++ tb /\ (exists fs, FieldsRead e OMsg tf fs (tb ++ k) /\ h = collect OMsg fs) /\ exists bs, m = mkmsg l h bs /\ BodiesRead e h tb bs k)).
  { intros l. apply (exact_bind_if e _ _ (fun t h k => exists fs, FieldsRead e OMsg t fs k /\ h = collect OMsg fs) (fun h t m k => exists bs, m = mkmsg l h bs /\ BodiesRead e h t bs k)); [apply exact_headers|].
    intros h t k (fs & Hf & ->). exact (exact_map e _ (mkmsg l (collect OMsg fs)) _ (exact_msgBody e _ (fields_type _ _ _ _ Hf))). }
  unfold parseMsg. eapply exact_iff; [|eapply exact_bind; [apply exact_startLine|intros l; apply exact_some, Xh]]. intros t v k. cbn beta. split.
  - intros (tl & l & t2 & -> & Hl & Hne & tf & h & tb & -> & (fs & Hf & ->) & bs & -> & Hb). rewrite <- app_assoc in *. now apply MRead.
  - intros H. destruct H as [tl l tf fs tb bs k Hl Hne Hf Hb]. exists tl, l, (tf ++ tb). rewrite <- app_assoc. split; [reflexivity|]. split; [exact Hl|]. split; [exact Hne|]. exists tf, (collect OMsg fs), tb. eauto 9.
Qed.
