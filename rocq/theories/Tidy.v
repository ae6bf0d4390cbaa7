(** What a successful parse of a header value reads: a piece of text whose line feeds are all followed by a blank, unless a line feed is escaped
    or stands in brackets. *)
From Verif Require Import Base Charset CharsetProofs BaseLemmas Num NumSpec NumProofs Lws LwsSpec LwsProofs Str Monad Good MethodTree HeaderTree Lookup NameProofs Host HostSpec HostProofs Uri Tel GenParam GenParamSpec Addr StartLine Headers RawHeaders RawSpec RawProofs Msg.

(** No line feed behind a backslash; behind an opening bracket that is not closed yet every line feed is followed by a blank. *)
Definition clean (t : bytes) : Prop :=
  (forall a b, t <> a ++ 92 :: 10 :: b) /\ (forall a x y b, t = a ++ 91 :: x ++ 10 :: y :: b -> ~ In 93 x -> wsp y).
Lemma clean_mid a t b : clean (a ++ t ++ b) -> clean t.
Proof.
  intros (H1 & H2). split.
  - intros p q ->. apply (H1 (a ++ p) (q ++ b)). now rewrite <- !app_assoc.
  - intros p x y q -> Hx. apply (H2 (a ++ p) x y (q ++ b)); [|exact Hx]. now rewrite <- !app_assoc; cbn; rewrite <- !app_assoc.
Qed.
Lemma clean_l a b : clean (a ++ b) -> clean a. Proof. intros H. apply (clean_mid [] a b). exact H. Qed.
Lemma clean_r a b : clean (a ++ b) -> clean b. Proof. intros H. apply (clean_mid a b []). now rewrite app_nil_r. Qed.
Lemma folded_app x y : folded x -> folded y -> folded (x ++ y).
Proof.
  intros Hx Hy a b E. destruct (app_eq_app _ _ _ _ E) as (l & [(E1 & E2)|(E1 & E2)]).
  - destruct l as [|z l]; [cbn in E2; apply (Hy [] b); symmetry; exact E2|]. cbn in E2. injection E2 as <- E2. subst b x. apply startsWsp_app. apply (Hx a l). reflexivity.
  - apply (Hy l b). exact E2.
Qed.
(** A line feed that is not the last character is followed by a blank. *)
Definition upto (p : bytes) : Prop := forall a y b, p = a ++ 10 :: y :: b -> wsp y.
(** In what is read, if it is clean, every line feed is followed by a blank; and so it is in a part of it that is clean. *)
Definition tidy (t : bytes) : Prop := (clean t -> folded t) /\ forall p q, t = p ++ q -> clean p -> upto p.
Lemma tidy_of_folded t : folded t -> tidy t.
Proof. intros H. split; [intros _; exact H|]. intros p q -> _ a y b ->. destruct (H a (y :: b ++ q)) as (z & l & E & W); [now rewrite <- app_assoc|]. injection E as <- _. exact W. Qed.
Lemma tidy_app t1 t2 : tidy t1 -> tidy t2 -> tidy (t1 ++ t2).
Proof.
  intros (F1 & P1) (F2 & P2). split.
  - intros C. apply folded_app; [apply F1; eapply clean_l; exact C|apply F2; eapply clean_r; exact C].
  - intros p q E C. destruct (app_eq_app _ _ _ _ E) as (l & [(E1 & E2)|(E1 & E2)]).
    + apply (P1 p l E1 C).
    + subst p. pose proof (F1 (clean_l _ _ C)) as G. pose proof (P2 l q E2 (clean_r _ _ C)) as U. intros a y b Eq. destruct (app_eq_app _ _ _ _ Eq) as (m & [(M1 & M2)|(M1 & M2)]).
      * destruct m as [|z m]; [cbn in M2; apply (U [] y b); symmetry; exact M2|]. cbn in M2. injection M2 as <- M2. subst t1. destruct (G a m eq_refl) as (w & m' & -> & W). cbn in M2. injection M2 as <- _. exact W.
      * apply (U m y b M2).
Qed.
Lemma tidy_bracket x : ~ In 93 x -> tidy (91 :: x ++ [93]).
Proof.
  intros H. assert (U : forall p q, 91 :: x ++ [93] = p ++ q -> clean p -> upto p).
  { intros p q E (_ & C) a y b ->. destruct a as [|z a]; [discriminate|]. cbn in E. injection E as <- E. apply (C [] a y b); [reflexivity|]. intros Hi. apply H. rewrite <- app_assoc in E. cbn in E.
    destruct (exists_last (l := y :: b ++ q) ltac:(discriminate)) as (l & w & El). rewrite El in E. change (a ++ 10 :: l ++ [w]) with (a ++ (10 :: l) ++ [w]) in E. rewrite app_assoc in E. apply app_inj_tail in E as [-> _]. apply in_or_app. now left. }
  split; [|exact U]. intros C a b E. destruct b as [|y b].
  - exfalso. change (a ++ [10]) with (a ++ [10]) in E. change (91 :: x ++ [93]) with ((91 :: x) ++ [93]) in E. apply app_inj_tail in E as [_ E]. discriminate.
  - exists y, b. split; [reflexivity|]. apply (U _ [] (eq_sym (app_nil_r _)) C a y b E).
Qed.

Definition tidyTo (r r' : bytes) : Prop := exists t, r = t ++ r' /\ tidy t.
Lemma tidy_refl r : tidyTo r r. Proof. exists []. split; [reflexivity|]. apply tidy_of_folded, folded_nil. Qed.
Lemma tidy_trans a b c : tidyTo a b -> tidyTo b c -> tidyTo a c.
Proof. intros (t1 & E1 & H1) (t2 & E2 & H2). subst. exists (t1 ++ t2). split; [now rewrite app_assoc|]. now apply tidy_app. Qed.
Lemma tidy_nolf t r : ~ In 10 t -> tidyTo (t ++ r) r.
Proof. intros H. exists t. split; [reflexivity|]. now apply tidy_of_folded, folded_nolf. Qed.
Lemma tidy_cons x r r' : x <> 10 -> tidyTo r r' -> tidyTo (x :: r) r'.
Proof. intros H. apply tidy_trans. apply (tidy_nolf [x]). intros [E|[]]. congruence. Qed.
Definition tidyAt {A} (p : P A) (e : env) (s : st) : Prop := forall a s', p e s = Ok a s' -> tidyTo (rest s) (rest s').

Lemma td_ret {A} (a : A) e s : tidyAt (ret a) e s. Proof. intros a' s' E. injection E as <- <-. apply tidy_refl. Qed.
Lemma td_pfail {A} e s : tidyAt (@pfail A) e s. Proof. intros a' s' E. discriminate. Qed.
Lemma td_panic {A} e s : tidyAt (@panic A) e s. Proof. intros a' s' E. discriminate. Qed.
Lemma td_goto r e s : tidyTo (rest s) r -> tidyAt (goto r) e s. Proof. intros H a' s' E. injection E as <- <-. exact H. Qed.
Lemma td_bind {A B} (p : P A) (q : A -> P B) e s : tidyAt p e s -> (forall a s', tidyAt (q a) e s') -> tidyAt (bind p q) e s.
Proof.
  intros Hp Hq b s' E. unfold bind in E. destruct (p e s) as [a s1|s1| |] eqn:E1; try discriminate. exact (tidy_trans _ _ _ (Hp a s1 E1) (Hq a s1 b s' E)).
Qed.
Lemma td_goto_bind {B} r (q : P B) e s : tidyTo (rest s) r -> tidyAt q e (mkst r (used s)) -> tidyAt (goto r ;;; q) e s.
Proof. intros H Hq b s' E. unfold bind, goto in E. exact (tidy_trans _ _ _ H (Hq b s' E)). Qed.
Lemma td_onRest {A} (f : bytes -> P A) e s : tidyAt (f (rest s)) e s -> tidyAt (onRest f) e s. Proof. intros H. exact H. Qed.
Lemma td_withEnv {A} (f : env -> P A) e s : tidyAt (f e) e s -> tidyAt (withEnv f) e s. Proof. intros H. exact H. Qed.
Lemma td_iterP {A B} (body : A -> P (A + B)) e : (forall a s, tidyAt (body a) e s) -> forall n a s, tidyAt (iterP n body a) e s.
Proof. intros Hb. induction n as [|n IH]; intros a s; [intros b s' E; discriminate|]. cbn [iterP]. apply td_bind; [apply Hb|]. intros [a'|b] s'; [apply IH|apply td_ret]. Qed.
Lemma td_loopP {A B} (body : A -> P (A + B)) a e s : (forall a s, tidyAt (body a) e s) -> tidyAt (loopP body a) e s.
Proof. intros Hb. exact (td_iterP body e Hb _ a s). Qed.
Lemma td_orRestore {A} (p q : P A) e s : tidyAt p e s -> (forall u, tidyAt q e (mkst (rest s) u)) -> tidyAt (orRestore p q) e s.
Proof. intros Hp Hq b s' E. unfold orRestore in E. destruct (p e s) as [a s1|s1| |] eqn:E1; try discriminate; [injection E as -> ->; exact (Hp _ _ E1)|]. exact (Hq _ _ _ E). Qed.

Lemma td_alloc n e s : tidyAt (allocStruct n) e s.
Proof. intros a s' E. unfold allocStruct in E. destruct (leMem _ _); [|discriminate]. injection E as <- <-. apply tidy_refl. Qed.
Lemma td_allocCString t e s : tidyAt (allocCString t) e s.
Proof. intros a s' E. unfold allocCString in E. destruct (leMem _ _); [|discriminate]. injection E as <- <-. apply tidy_refl. Qed.
Lemma td_setKnown {A} names (name : A -> bytes) t p e s : tidyAt (setKnown names name t p) e s.
Proof.
  unfold setKnown. destruct (findName names (name p) 0) as [i|]; [|apply td_ret]. destruct t as [tbl|]; [apply td_ret|].
  intros a s' E. destruct (leMem _ _); [injection E as <- <-; apply tidy_refl|]. destruct (Nat.ltb i 4); [injection E as <- <-; apply tidy_refl|discriminate].
Qed.
(** Runs of a character class without the line feed. *)
Lemma no10 f t : f 10 = false -> forallb f t = true -> ~ In 10 t.
Proof. intros Hf Ha Hi. rewrite forallb_forall in Ha. apply Ha in Hi. congruence. Qed.
Lemma tidy_run f t r : f 10 = false -> forallb f t = true -> tidyTo (t ++ r) r.
Proof. intros Hf Ha. apply tidy_nolf. exact (no10 f t Hf Ha). Qed.
Lemma tidy_span f r t q : f 10 = false -> span f r = (t, q) -> tidyTo r q.
Proof. intros Hf E. rewrite (span_app _ _ _ _ E). apply (tidy_run f); [exact Hf|]. exact (span_all _ _ _ _ E). Qed.
Lemma td_cstring cs e s : inset cs 10 = false -> tidyAt (paCString cs) e s.
Proof.
  intros Hc a s' E. unfold paCString in E. destruct (negb _); [discriminate|]. destruct (span (inset cs) (rest s)) as [tok r] eqn:Es. destruct (negb _); [discriminate|].
  destruct tok as [|x tok]; [discriminate|]. destruct (negb _); [discriminate|]. injection E as <- <-. exact (tidy_span _ _ _ _ Hc Es).
Qed.
Lemma td_fromPos mid cs e s : inset cs 10 = false -> tidyTo (rest s) mid -> tidyAt (paCStringFromPos mid cs) e s.
Proof.
  intros Hc Hm a s' E. unfold paCStringFromPos in E. destruct (_ && _)%bool; [discriminate|]. destruct (negb _); [discriminate|]. destruct (span (inset cs) mid) as [tok r] eqn:Es. destruct (negb _); [discriminate|].
  destruct (_ ++ tok); [discriminate|]. destruct (negb _); [discriminate|]. injection E as <- <-. exact (tidy_trans _ _ _ Hm (tidy_span _ _ _ _ Hc Es)).
Qed.
Lemma td_tel cs e s : inset cs 10 = false -> tidyAt (paTelNumber cs) e s.
Proof.
  intros Hc a s' E. unfold paTelNumber in E. destruct (negb _); [discriminate|].
  destruct (match rest s with x :: r => if x =? 43 then ([43], r) else ([], rest s) | [] => ([], rest s) end) as [pl r0] eqn:E0.
  assert (T0 : tidyTo (rest s) r0).
  { destruct (rest s) as [|x r]; [injection E0 as <- <-; apply tidy_refl|]. destruct (N.eqb_spec x 43) as [->|]; injection E0 as <- <-; [apply tidy_cons; [lia|apply tidy_refl]|apply tidy_refl]. }
  destruct (span (inset cs) r0) as [run q] eqn:Es. destruct (negb _); [discriminate|]. destruct (filter _ run); [discriminate|]. destruct (negb _); [discriminate|]. injection E as <- <-.
  exact (tidy_trans _ _ _ T0 (tidy_span _ _ _ _ Hc Es)).
Qed.
Lemma hex_no10 x : negb (IsHex x) = false -> x <> 10. Proof. intros H ->. discriminate. Qed.
Lemma escLoop_tidy cs e : inset cs 10 = false -> forall n r u tok q, (List.length r <= n)%nat -> escLoop cs e u r = EStop tok q -> tidyTo r q.
Proof.
  intros Hc. induction n as [|n IH]; intros r u tok q Hn E; (destruct r as [|x r]; [injection E as <- <-; apply tidy_refl|]); cbn [List.length] in Hn; [lia|]. cbn [escLoop] in E.
  destruct (inset cs x) eqn:Hx.
  { destruct (ltMem _ _); [|discriminate]. destruct (escLoop cs e (u + 1) r) as [t q1| | |] eqn:E1; try discriminate. injection E as <- <-. apply tidy_cons; [congruence|]. apply (IH r (u + 1) t q1); [lia|exact E1]. }
  destruct (N.eqb_spec x 37) as [->|]; [|injection E as <- <-; apply tidy_refl]. destruct r as [|v1 [|v2 r2]]; try discriminate. cbn [List.length] in Hn.
  destruct (negb (IsHex v1)) eqn:H1; [discriminate|]. destruct (negb (IsHex v2)) eqn:H2; [discriminate|]. cbn [orb] in E.
  destruct (ltMem _ _); [|discriminate]. destruct (escLoop cs e (u + 1) r2) as [t q1| | |] eqn:E1; try discriminate. injection E as <- <-.
  apply tidy_cons; [lia|]. apply tidy_cons; [now apply hex_no10|]. apply tidy_cons; [now apply hex_no10|]. apply (IH r2 (u + 1) t q1); [lia|exact E1].
Qed.
Lemma td_escapable cs e s : inset cs 10 = false -> tidyAt (paEscapable cs) e s.
Proof.
  intros Hc a s' E. unfold paEscapable in E. destruct (negb _); [discriminate|]. destruct (escLoop cs e (used s + 2) (rest s)) as [[|x tok] q|q| |] eqn:Es; try discriminate. destruct (negb _); [discriminate|]. injection E as <- <-.
  exact (escLoop_tidy cs e Hc _ _ _ _ _ (le_n _) Es).
Qed.
Lemma td_escapableEmpty cs e s : inset cs 10 = false -> tidyAt (paEscapableEmpty cs) e s.
Proof.
  intros Hc a s' E. unfold paEscapableEmpty in E. destruct (negb _); [discriminate|]. destruct (escLoop cs e (used s + 2) (rest s)) as [tok q|q| |] eqn:Es; try discriminate. destruct (negb _); [discriminate|]. injection E as <- <-.
  exact (escLoop_tidy cs e Hc _ _ _ _ _ (le_n _) Es).
Qed.
(** White space: a line end is read only together with the blank behind it. *)
Lemma wsp_no10 w : Forall wsp w -> ~ In 10 w.
Proof. intros H Hi. rewrite Forall_forall in H. destruct (H _ Hi); discriminate. Qed.
Lemma tidy_fold w1 w2 r : Forall wsp w1 -> w2 <> [] -> Forall wsp w2 -> tidyTo (w1 ++ 13 :: 10 :: w2 ++ r) r.
Proof.
  intros H1 Hn H2. exists (w1 ++ 13 :: 10 :: w2). split; [now rewrite <- app_assoc|]. apply tidy_of_folded. change (w1 ++ 13 :: 10 :: w2) with (w1 ++ [13] ++ 10 :: w2). rewrite app_assoc.
  apply folded_cons; [|apply folded_nolf, wsp_no10, H2|].
  - intros Hi. apply in_app_or in Hi as [Hi|[Hi|[]]]; [exact (wsp_no10 _ H1 Hi)|discriminate].
  - destruct w2 as [|x w2]; [congruence|]. exists x, w2. split; [reflexivity|]. now inversion H2.
Qed.
Lemma tidy_LWS r q : ParseLWS r = (q, true) -> tidyTo r q.
Proof.
  intros E. unfold ParseLWS in E. destruct (skipWsp_decomp r) as (w & Er & Hw & Hs). remember (skipWsp r) as r1. rewrite Er. clear Heqr1 Er.
  assert (P0 : tidyTo (w ++ r1) r1) by (apply tidy_nolf, wsp_no10, Hw).
  destruct r1 as [|a [|b r2]]; [injection E as <-; exact P0|injection E as <-; exact P0|]. destruct (N.eqb_spec a 13) as [->|]; [|injection E as <-; exact P0].
  destruct (N.eqb_spec b 10) as [->|]; [|injection E as <-; exact P0]. cbn [andb] in E. destruct r2 as [|x r2]; [discriminate|]. destruct (isWsp x) eqn:Hx; [|discriminate]. cbn [negb] in E. injection E as <-.
  destruct (skipWsp_decomp (x :: r2)) as (w2 & E2 & Hw2 & Hs2). rewrite E2 at 1. apply tidy_fold; [exact Hw| |exact Hw2].
  intros ->. cbn [app] in E2. apply Hs2. rewrite <- E2. exists x, r2. split; [reflexivity|]. now apply isWsp_spec.
Qed.
Lemma tidy_SWS r : tidyTo r (ParseSWS_2 r).
Proof.
  unfold ParseSWS_2. destruct r as [|x r]; [apply tidy_refl|]. destruct (negb _); [apply tidy_refl|]. destruct (ParseLWS (x :: r)) as [q [|]] eqn:E; [|apply tidy_refl]. now apply tidy_LWS.
Qed.
Lemma td_SWS e s : tidyAt pSWS e s. Proof. intros a s' E. injection E as <- <-. apply tidy_SWS. Qed.
Lemma td_liftB f e s : (forall r q, f r = (q, true) -> tidyTo r q) -> tidyAt (liftB f) e s.
Proof. intros H a s' E. unfold liftB in E. destruct (f (rest s)) as [q [|]] eqn:Ef; [|discriminate]. injection E as <- <-. exact (H _ _ Ef). Qed.
Lemma td_LWS e s : tidyAt pLWS e s. Proof. apply td_liftB. apply tidy_LWS. Qed.
Lemma tidy_mark m r q : m <> 10 -> ParseSWSMark m r = (q, true) -> tidyTo r q.
Proof.
  intros Hm E. unfold ParseSWSMark in E. pose proof (tidy_SWS r) as H. destruct (ParseSWS_2 r) as [|x r']; [discriminate|]. destruct (N.eqb_spec x m) as [->|]; [|discriminate]. injection E as <-.
  eapply tidy_trans; [exact H|]. apply tidy_cons; [exact Hm|]. apply tidy_SWS.
Qed.
Lemma td_SWSMark m e s : m <> 10 -> tidyAt (pSWSMark m) e s. Proof. intros H. apply td_liftB. intros r q. now apply tidy_mark. Qed.
Lemma tidy_mark2 m r q mt : m <> 10 -> ParseSWSMarkCanOmmit m r = (q, mt, true) -> tidyTo r q.
Proof.
  intros Hm E. unfold ParseSWSMarkCanOmmit in E. pose proof (tidy_SWS r) as H. destruct (ParseSWS_2 r) as [|x r']; [discriminate|]. destruct (N.eqb_spec x m) as [->|]; cbn [negb] in E; injection E as <- <-; [|exact H].
  eapply tidy_trans; [exact H|]. apply tidy_cons; [exact Hm|]. apply tidy_SWS.
Qed.
Lemma td_Mark2 m e s : m <> 10 -> tidyAt (pSWSMarkCanOmmit m) e s.
Proof. intros Hm a s' E. unfold pSWSMarkCanOmmit in E. destruct (ParseSWSMarkCanOmmit m (rest s)) as [[q mt] [|]] eqn:Ep; [|discriminate]. injection E as <- <-. exact (tidy_mark2 _ _ _ _ Hm Ep). Qed.
Lemma td_LAQ e s : tidyAt pLeftAngleQuote e s.
Proof.
  apply td_liftB. intros r q E. unfold ParseLeftAngleQuote in E. destruct r as [|y r]; [discriminate|]. pose proof (tidy_SWS (y :: r)) as H. destruct (ParseSWS_2 (y :: r)) as [|x r']; [discriminate|].
  destruct (N.eqb_spec x 60) as [->|]; [|discriminate]. injection E as <-. eapply tidy_trans; [exact H|]. apply tidy_cons; [lia|apply tidy_refl].
Qed.
Lemma td_RAQ e s : tidyAt pRightAngleQuote e s.
Proof.
  apply td_liftB. intros r q E. unfold ParseRightAngleQuote in E. destruct r as [|x r']; [discriminate|]. destruct (N.eqb_spec x 62) as [->|]; [|discriminate]. injection E as <-. apply tidy_cons; [lia|apply tidy_SWS].
Qed.
Lemma td_UInt e s : tidyAt pUInt e s.
Proof.
  unfold pUInt. apply td_onRest. destruct (ParseUInt (rest s)) as [[[v n] q]|] eqn:E; [|apply td_pfail]. apply td_goto_bind; [|apply td_ret].
  apply ParseUInt_spec in E as (ds & -> & _ & Hd & _). apply (tidy_run isDec); [reflexivity|exact Hd].
Qed.
(** Quoted strings. *)
Lemma copyLWS_tidy e u r w q : copyLWS e u r = Some (w, q, true) -> tidyTo r q.
Proof.
  intros E. unfold copyLWS in E. destruct (span isWsp r) as [w1 r1] eqn:Es. assert (H1 : Forall wsp w1) by (apply forallb_wsp; exact (span_all _ _ _ _ Es)). rewrite (span_app _ _ _ _ Es). destruct (negb _); [discriminate|].
  assert (P0 : tidyTo (w1 ++ r1) r1) by (apply tidy_nolf, wsp_no10, H1).
  destruct r1 as [|a [|b r2]]; [injection E as <- <-; exact P0|injection E as <- <-; exact P0|]. destruct (N.eqb_spec a 13) as [->|]; [|injection E as <- <-; exact P0].
  destruct (N.eqb_spec b 10) as [->|]; [|injection E as <- <-; exact P0]. cbn [andb] in E. destruct (negb _); [discriminate|]. destruct r2 as [|x r2]; [discriminate|]. destruct (isWsp x) eqn:Hx; [|discriminate]. cbn [negb] in E.
  destruct (span isWsp (x :: r2)) as [w2 r3] eqn:E2. destruct (negb _); [discriminate|]. injection E as <- <-. rewrite (span_app _ _ _ _ E2). apply tidy_fold; [exact H1| |apply forallb_wsp; exact (span_all _ _ _ _ E2)].
  intros ->. apply span_stops in E2 as E3. apply span_app in E2. cbn in E2. rewrite <- E2 in E3. cbn in E3. rewrite Hx in E3. discriminate.
Qed.
Lemma lws_no10 v : IsLwsChar v = false -> v <> 10. Proof. intros H ->. discriminate. Qed.
Lemma qLoop_tidy e : forall n u U r tok q, qLoop n e u U r = QOk tok q -> tidyTo r q.
Proof.
  induction n as [|n IH]; intros u U r tok q E; [discriminate|]. cbn [qLoop] in E. destruct r as [|v r1]; [discriminate|]. destruct (N.eqb_spec v 34) as [->|]; [injection E as <- <-; apply tidy_cons; [lia|apply tidy_refl]|].
  destruct (IsLwsChar v) eqn:Hl.
  { destruct (copyLWS e u (v :: r1)) as [[[w r2] [|]]|] eqn:C; try discriminate. destruct (qLoop n e (u + len w) (u + len w) r2) as [t q1| | |] eqn:Q; try discriminate. injection E as <- <-.
    exact (tidy_trans _ _ _ (copyLWS_tidy _ _ _ _ _ C) (IH _ _ _ _ _ Q)). }
  destruct (IsSipQuotedText v) eqn:Ht.
  { destruct (ltMem _ _); [|discriminate]. destruct (qLoop n e (u + 1) U r1) as [t q1| | |] eqn:Q; try discriminate. injection E as <- <-. apply tidy_cons; [now apply lws_no10|]. exact (IH _ _ _ _ _ Q). }
  destruct (N.eqb_spec v 92) as [->|]; [|discriminate]. destruct r1 as [|x r2]; [discriminate|]. destruct (leMem _ _); [|discriminate]. destruct (qLoop n e (u + 2) U r2) as [t q1| | |] eqn:Q; try discriminate. injection E as <- <-.
  apply (tidy_trans _ r2); [|exact (IH _ _ _ _ _ Q)]. exists [92; x]. split; [reflexivity|]. split.
  - intros (C & _). apply folded_nolf. intros [Hi|[Hi|[]]]; [discriminate|]. subst x. exact (C [] [] eq_refl).
  - intros p0 q0 Ep _ a y b ->. destruct a as [|? [|? [|? ?]]]; discriminate.
Qed.
Lemma td_quoted e s : tidyAt paQuoted e s.
Proof.
  intros a s' E. unfold paQuoted in E. pose proof (tidy_SWS (rest s)) as H. destruct (ParseSWS_2 (rest s)) as [|x r1]; [discriminate|]. destruct (N.eqb_spec x 34) as [->|]; [|discriminate]. cbn [negb] in E.
  destruct (qLoop _ e _ _ r1) as [t q| | |] eqn:Q; try discriminate. destruct (negb _); [discriminate|]. injection E as <- <-. eapply tidy_trans; [exact H|]. apply tidy_cons; [lia|]. exact (qLoop_tidy _ _ _ _ _ _ _ Q).
Qed.

(** ** The parsers *)
#[export] Hint Resolve td_ret td_pfail td_panic td_alloc td_allocCString td_setKnown td_cstring td_tel td_escapable td_escapableEmpty td_SWS td_LWS td_SWSMark td_Mark2 td_LAQ td_RAQ td_UInt td_quoted : tidy.
#[export] Hint Resolve tidy_refl : tidy.
#[export] Hint Extern 0 (inset _ 10 = false) => reflexivity : tidy.
#[export] Hint Extern 0 (@eq bool _ false) => reflexivity : tidy.
#[export] Hint Extern 0 (_ <> 10) => discriminate : tidy.
Lemma lc_no10 x c : lc x c = true -> c <> 42 -> x <> 10.
Proof. unfold lc. intros H Hc ->. apply N.eqb_eq in H. apply Hc. rewrite <- H. reflexivity. Qed.
Ltac no10 := first [discriminate | lazymatch goal with H : (?x =? ?c) = true |- ?x <> 10 => apply N.eqb_eq in H; rewrite H; discriminate | H : lc ?x ?c = true |- ?x <> 10 => apply (lc_no10 x c H); discriminate end].
Ltac ands := repeat match goal with H : negb _ = false |- _ => apply negb_false_iff in H | H : (_ && _)%bool = true |- _ => apply andb_prop in H as [? ?] end.
Ltac tidyGo := cbn [rest]; ands; repeat first [assumption | apply tidy_refl | apply tidy_cons; [no10|]].
Lemma td_goto_fail {A} r e s : tidyAt (goto r ;;; @pfail A) e s. Proof. intros a s' E. discriminate. Qed.
Ltac td1 := cbn [rest used fst snd];
  lazymatch goal with
  | |- tidyAt (goto _) _ _ => apply td_goto; tidyGo
  | |- tidyAt (onRest _) _ ?s => (tryif is_var s then destruct s else idtac); apply td_onRest; cbn [rest]
  | |- tidyAt (withEnv _) _ _ => apply td_withEnv
  | |- tidyAt (bind (goto _) (fun _ => pfail)) _ _ => apply td_goto_fail
  | |- tidyAt (bind (goto _) _) _ _ => apply td_goto_bind; [tidyGo|]
  | |- tidyAt (bind _ _) _ _ => apply td_bind; [|intros]
  | |- tidyAt (match ?x with _ => _ end) _ _ => destruct x eqn:?
  | |- tidyAt _ _ _ => solve [eauto 3 with tidy]
  end.
Ltac td := repeat td1.
Lemma td_UIntW w e s : tidyAt (pUIntW w) e s. Proof. unfold pUIntW. td. Qed.
Lemma td_addParam {A} en names (name : A -> bytes) a p e s : tidyAt (addParam en names name a p) e s. Proof. unfold addParam. td. Qed.
#[export] Hint Resolve td_UIntW td_addParam : tidy.
Lemma quad_no10 t a b c d : DottedQuad t a b c d -> ~ In 10 t.
Proof.
  intros (da & db & dc & dd & -> & Qa & Qb & Qc & Qd) Hi. assert (D : forall ds v, quadPart ds v -> ~ In 10 ds) by (intros ds v (_ & H & _); exact (no10 isDec ds eq_refl H)).
  repeat (apply in_app_or in Hi as [Hi|Hi]; [eapply D; [|exact Hi]; eassumption|]; try (destruct Hi as [Hi|Hi]; [discriminate|])). eapply D; eassumption.
Qed.
Lemma td_host e s : tidyAt parseHost e s.
Proof.
  unfold parseHost. apply td_onRest. destruct (rest s) as [|x r1] eqn:Er; [apply td_pfail|]. destruct (N.eqb_spec x 91) as [->|].
  - intros h s' E. unfold parseIpv6, onRest, bind, goto in E. cbn [rest] in E. destruct (span (fun y => negb (y =? 93)) r1) as [txt q] eqn:Es. destruct q as [|y r2]; [discriminate|]. unfold withEnv in E.
    destruct (ipParse e txt); [|discriminate]. unfold allocStruct in E. destruct (leMem _ _); [|discriminate]. injection E as <- <-. cbn [rest]. rewrite Er.
    assert (Y : y = 93) by (apply span_stops in Es; cbn in Es; rewrite negb_involutive in Es; now apply N.eqb_eq in Es). subst y. rewrite (span_app _ _ _ _ Es).
    assert (N93 : ~ In 93 txt). { intros Hi. pose proof (span_all _ _ _ _ Es) as Ha. rewrite forallb_forall in Ha. specialize (Ha _ Hi). discriminate. }
    exists (91 :: txt ++ [93]). split; [cbn; now rewrite <- app_assoc|]. now apply tidy_bracket.
  - destruct (IsAlpha x); [unfold parseHostname; td|]. destruct (parseIpv4 (x :: r1)) as [[[[[a b] c] d] r2]|] eqn:E4; [|unfold parseHostname; td].
    apply td_goto_bind; [|td]. rewrite Er. apply parseIpv4_spec in E4 as (t & -> & Q & _). apply tidy_nolf. exact (quad_no10 _ _ _ _ _ Q).
Qed.
#[export] Hint Resolve td_host : tidy.
Lemma td_hostPort e s : tidyAt parseHostPort e s. Proof. unfold parseHostPort. td. Qed.
#[export] Hint Resolve td_hostPort : tidy.
Lemma td_sepLoop {A} c (one : A -> P A) a e s : c <> 10 -> (forall a s, tidyAt (one a) e s) -> tidyAt (sepLoop c one a) e s.
Proof.
  intros Hc H. unfold sepLoop, contIf. apply td_loopP. intros a' s'. apply td_onRest. destruct (rest s'); [apply td_ret|]. apply td_bind; [apply H|]. intros a1 s1. apply td_onRest. destruct (rest s1) as [|x r1] eqn:E1; [apply td_ret|].
  destruct (N.eqb_spec x c) as [->|]; [|apply td_ret]. apply td_goto_bind; [|apply td_ret]. rewrite E1. apply tidy_cons; [exact Hc|apply tidy_refl].
Qed.
Lemma td_uriParams {S} cn cv (set : S -> uparam -> P S) a e s : inset cn 10 = false -> inset cv 10 = false -> (forall a p s, tidyAt (set a p) e s) -> tidyAt (parseUriParams cn cv set a) e s.
Proof. intros Hn Hv H. unfold parseUriParams. td. apply td_sepLoop; [discriminate|]. intros a' s'. unfold uriParamOne, parseUriParam. td; apply H. Qed.
Lemma td_uriHeaders e s : tidyAt parseUriHeaders e s.
Proof. unfold parseUriHeaders. td. apply td_sepLoop; [discriminate|]. intros a' s'. unfold uriHeaderOne, parseUriHeader. td. Qed.
Lemma td_userinfo e s : tidyAt parseUserinfo e s. Proof. unfold parseUserinfo, parsePassword. td. Qed.
#[export] Hint Resolve td_uriHeaders td_userinfo : tidy.
Lemma td_uriAfter c e s : tidyAt (parseUriAfterScheme c) e s.
Proof. unfold parseUriAfterScheme. td. apply td_uriParams; [reflexivity..|]. intros. unfold sipUriSet. td. Qed.
Lemma td_uriAfterNo c e s : tidyAt (parseUriAfterSchemeNoParam c) e s. Proof. unfold parseUriAfterSchemeNoParam. td. Qed.
Lemma td_telNumber e s : tidyAt parseTelNumber e s. Proof. unfold parseTelNumber. td. Qed.
#[export] Hint Resolve td_uriAfter td_uriAfterNo td_telNumber : tidy.
Lemma td_telAfter e s : tidyAt parseTelAfterScheme e s.
Proof. unfold parseTelAfterScheme. td. apply td_uriParams; [reflexivity..|]. intros. unfold telSet. td. Qed.
Lemma td_telAfterNo e s : tidyAt parseTelAfterSchemeNoParam e s. Proof. unfold parseTelAfterSchemeNoParam. td. Qed.
#[export] Hint Resolve td_telAfter td_telAfterNo : tidy.
Lemma td_genValue e s : tidyAt parseGenValue e s.
Proof.
  unfold parseGenValue. apply td_onRest. destruct (rest s) as [|v r] eqn:Er; [td|]. destruct (IsSipToken v); [td|]. destruct (_ || _)%bool; [td|]. destruct (N.eqb_spec v 91) as [->|]; [|td].
  destruct (cutAfter 93 (91 :: r)) as [[tok q]|] eqn:C; [|td]. unfold paSlice. apply td_bind; [|intros; td]. intros b s' E. unfold bind in E. destruct (allocCString tok e s) as [t1 s1|s1| |] eqn:E1; try discriminate. cbn in E. injection E as <- <-. cbn [rest].
  apply cutAfter_some in C as (x & -> & Ex & Hx). destruct x as [|z x]; [discriminate|]. injection Ex as <- ->. rewrite Er. exists (91 :: x ++ [93]). split; [cbn; now rewrite <- app_assoc|]. apply tidy_bracket. intros Hi. apply Hx. now right.
Qed.
#[export] Hint Resolve td_genValue : tidy.
Lemma td_genParams on names e s : tidyAt (parseGenParams 59 on names) e s.
Proof.
  unfold parseGenParams. apply td_loopP. intros a s1. unfold gpBody, parseGenParam. td. all: eapply tidy_mark2; [|eassumption]; discriminate.
Qed.
Lemma td_spec c u e s : tidyAt (parseSpec c u) e s. Proof. unfold parseSpec. td. Qed.
Lemma td_other e s : tidyAt otherScheme e s. Proof. unfold otherScheme. td. Qed.
#[export] Hint Resolve td_spec td_other : tidy.
Lemma td_scheme e s : tidyAt parseScheme e s. Proof. unfold parseScheme. td. Qed.
Lemma td_tokens e s : tidyAt parseTokens e s.
Proof.
  unfold parseTokens, storeSince. td. apply td_loopP. intros a s1. unfold tokensBody. td. destruct (span (inset SIP_TOKEN) (n :: b)) as [t q] eqn:Es. eapply tidy_trans; [exact (tidy_span (inset SIP_TOKEN) _ _ _ eq_refl Es)|]. now apply tidy_LWS.
Qed.
#[export] Hint Resolve td_scheme td_tokens : tidy.
Lemma td_displayName e s : tidyAt parseDisplayName e s. Proof. unfold parseDisplayName. td. Qed.
#[export] Hint Resolve td_displayName : tidy.
Lemma td_nameAddr e s : tidyAt parseNameAddr e s. Proof. unfold parseNameAddr. td. Qed.
#[export] Hint Resolve td_nameAddr : tidy.
Lemma td_addr c e s : tidyAt (parseAddr c) e s. Proof. unfold parseAddr. td. apply td_orRestore; [td|intros u; td]. Qed.
Lemma td_method e s : tidyAt parseMethod e s.
Proof.
  unfold parseMethod. apply td_onRest. destruct (GetSipMethodIndex (rest s)) as [[i mid]|] eqn:E; [|td]. apply method_skips in E as (p & E & Hp).
  assert (T : tidyTo (rest s) mid) by (rewrite E; apply (tidy_run IsSipToken); [reflexivity|exact Hp]). destruct (i =? _); [|td]. apply td_bind; [|intros; td]. apply td_fromPos; [reflexivity|exact T].
Qed.
Lemma td_params k e s : tidyAt (parseParams k) e s. Proof. apply td_genParams. Qed.
#[export] Hint Resolve td_addr td_method td_params : tidy.
Lemma td_hval k e s : tidyAt (parseHVal k) e s.
Proof.
  unfold parseHVal, parseFromTo, parseVia, parseSentProtocol, otherProtocol, parseContact, parseFromTo, parseRoute, parsePai, parseCSeq, parseRAck, parseNum, parseContentType, parseContentDisposition, parseCallID. td.
Qed.
Lemma td_sipX k e s : tidyAt (parseSipX k) e s. Proof. unfold parseSipX. apply td_bind; [apply td_alloc|]. intros. apply td_hval. Qed.
