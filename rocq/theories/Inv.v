(** What successful parses return: facts about every [Ok] result, in any arena. *)
From Verif Require Import Base Charset CharsetSpec BaseLemmas Num NumSpec NumProofs Lws LwsSpec LwsProofs Str StrSpec StrProofs Monad Good Rt Seq.

Lemma bind_inv {A B} (p : P A) (f : A -> P B) e s b s' : bind p f e s = Ok b s' -> exists a s1, p e s = Ok a s1 /\ f a e s1 = Ok b s'.
Proof. unfold bind. destruct (p e s) as [a s1|s1| |]; try discriminate. intros H. exists a, s1. auto. Qed.
Lemma iterP_inv {A B} (Q : A -> Prop) (R : B -> Prop) (body : A -> P (A + B)) :
  (forall a e s x s', Q a -> body a e s = Ok x s' -> match x with inl a' => Q a' | inr b => R b end) ->
  forall f a e s b s', Q a -> iterP f body a e s = Ok b s' -> R b.
Proof.
  intros H. induction f as [|f IH]; intros a e s b s' Ha E; [discriminate|]. cbn [iterP] in E. apply bind_inv in E as (x & s1 & E1 & E2).
  apply H in E1; [|exact Ha]. destruct x as [a'|b']; [exact (IH _ _ _ _ _ E1 E2)|]. injection E2 as <- _. exact E1.
Qed.
Lemma sepLoop_inv {A} (Q : A -> Prop) c (one : A -> P A) : (forall a e s a' s', Q a -> one a e s = Ok a' s' -> Q a') ->
  forall a e s b s', Q a -> sepLoop c one a e s = Ok b s' -> Q b.
Proof.
  intros H a e s b s' Ha E. unfold sepLoop, loopP in E. revert E. apply (iterP_inv Q Q); [|exact Ha]. clear a e s b s' Ha.
  intros a e s x s' Ha E. unfold onRest in E. destruct (rest s); [injection E as <- _; exact Ha|]. apply bind_inv in E as (a1 & s1 & E1 & E2).
  apply H in E1; [|exact Ha]. unfold contIf, onRest in E2. destruct (rest s1) as [|y r]; [injection E2 as <- _; exact E1|].
  destruct (y =? c); [|injection E2 as <- _; exact E1]. apply bind_inv in E2 as (? & ? & _ & E2). injection E2 as <- _. exact E1.
Qed.
Lemma escLoop_bytes cs e : forall n r u tok r', (List.length r <= n)%nat -> escLoop cs e u r = EStop tok r' -> allBytes tok.
Proof.
  induction n as [|n IH]; intros r u tok r' Hn H.
  - destruct r; [|cbn in Hn; lia]. injection H as <- _. constructor.
  - destruct r as [|v r1]; [injection H as <- _; constructor|]. cbn [escLoop] in H. cbn [List.length] in Hn. destruct (inset cs v) eqn:Ev.
    + destruct (ltMem e u); [|discriminate]. destruct (escLoop cs e (u + 1) r1) as [t q|q| |] eqn:E; try discriminate. injection H as <- <-. constructor; [exact (inset_byte _ _ Ev)|]. eapply (IH r1); [lia|exact E].
    + destruct (v =? 37); [|injection H as <- _; constructor]. destruct r1 as [|v1 [|v2 r2]]; try discriminate.
      destruct (negb (IsHex v1) || negb (IsHex v2))%bool eqn:Eh; [discriminate|]. apply orb_false_iff in Eh as [E1 E2]. apply negb_false_iff in E1, E2.
      destruct (ltMem e u); [|discriminate]. destruct (escLoop cs e (u + 1) r2) as [t q|q| |] eqn:E; try discriminate. injection H as <- <-. cbn [List.length] in Hn. constructor; [|eapply (IH r2); [lia|exact E]].
      unfold isByte, unescapeToByte. apply IsHex_hexVal in E1, E2. unfold hexDigitValue in *. lia.
Qed.
Lemma escapable_inv cs e s b s' : paEscapable cs e s = Ok b s' -> b <> [] /\ allBytes b.
Proof.
  unfold paEscapable. destruct (negb _); [discriminate|]. destruct (escLoop cs e (used s + 2) (rest s)) as [tok r|r| |] eqn:E; try discriminate.
  destruct tok as [|x tok]; [discriminate|]. destruct (negb _); [discriminate|]. intros [= <- _]. split; [discriminate|]. eapply escLoop_bytes; [apply le_n|exact E].
Qed.
Lemma escapableEmpty_inv cs e s b s' : paEscapableEmpty cs e s = Ok b s' -> allBytes b.
Proof.
  unfold paEscapableEmpty. destruct (negb _); [discriminate|]. destruct (escLoop cs e (used s + 2) (rest s)) as [tok r|r| |] eqn:E; try discriminate.
  destruct (negb _); [discriminate|]. intros [= <- _]. eapply escLoop_bytes; [apply le_n|exact E].
Qed.
Lemma cstring_inv cs e s b s' : paCString cs e s = Ok b s' -> b <> [] /\ forallb (inset cs) b = true /\ rest s = b ++ rest s' /\ stops (inset cs) (rest s') = true.
Proof.
  unfold paCString. destruct (negb _); [discriminate|]. destruct (span (inset cs) (rest s)) as [tok r] eqn:E. destruct (negb _); [discriminate|].
  destruct tok as [|x tok]; [discriminate|]. destruct (negb _); [discriminate|]. intros [= <- <-]. cbn [rest].
  split; [discriminate|]. split; [eapply span_all, E|]. split; [eapply span_app, E|eapply span_stops, E].
Qed.
Lemma alloc_inv n e s a s' : allocStruct n e s = Ok a s' -> rest s' = rest s /\ used s' = used s + n.
Proof. unfold allocStruct. destruct (leMem _ _); [|discriminate]. intros [= _ <-]. auto. Qed.
Lemma uint_inv e s v s' : pUInt e s = Ok v s' -> exists ds, rest s = ds ++ rest s' /\ ds <> [] /\ forallb isDec ds = true /\ stops isDec (rest s') = true /\ v = decVal ds mod two64.
Proof.
  unfold pUInt, onRest. destruct (ParseUInt (rest s)) as [[[w n] r]|] eqn:E; [|discriminate]. intros [= <- <-]. cbn [rest].
  apply ParseUInt_spec in E. destruct E as (ds & E & Hne & Hd & Hs & Hv & _). exists ds. repeat split; auto. destruct r as [|x r]; [reflexivity|]. cbn. now rewrite (Hs x r eq_refl).
Qed.

(** ** Known tables *)
Definition outKnown {A} (on : bool) (names : list bytes) (name : A -> bytes) (wf : A -> Prop) (a : known A * list A) : Prop :=
  Forall wf (snd a) /\
  (on = true -> forall p n, In p (snd a) -> In n names -> ~ sameNoCase (name p) n) /\
  match fst a with
  | None => True
  | Some tbl => on = true /\ (exists p, In (Some p) tbl) /\
                Forall2 (fun n o => match o with Some p => sameNoCase (name p) n /\ wf p | None => True end) names tbl
  end.
Lemma findName_some names n : forall i j, Forall (fun x => x <> []) names -> findName names n i = Some j -> exists k, j = (i + k)%nat /\ (k < List.length names)%nat /\ sameNoCase n (nth k names []).
Proof.
  induction names as [|x names IH]; intros i j Hn H; cbn in H; [discriminate|]. inversion Hn as [|? ? Hx Hn']; subst. destruct (equalNoCase n x) eqn:E.
  - injection H as <-. exists 0%nat. split; [lia|]. split; [cbn; lia|]. apply equalNoCase_spec in E; auto.
  - apply IH in H as (k & -> & Hk & Sm); [|exact Hn']. exists (S k). split; [lia|]. split; [cbn; lia|exact Sm].
Qed.
Lemma findName_none_iff names n : forall i, Forall (fun x => x <> []) names -> (findName names n i = None <-> forall x, In x names -> ~ sameNoCase n x).
Proof.
  induction names as [|x names IH]; intros i Hn; cbn; [split; [intros _ ? []|reflexivity]|]. inversion Hn as [|? ? Hx Hn']; subst.
  destruct (equalNoCase n x) eqn:E.
  - apply equalNoCase_spec in E; [|exact Hx]. split; [discriminate|]. intros H. exfalso. apply (H x); auto.
  - rewrite (IH _ Hn'). split; intros H y.
    + intros [->|Hy]; [|apply H, Hy]. intros S. apply equalNoCase_spec in S; [congruence|exact Hx].
    + intros Hy. apply H. auto.
Qed.
Lemma Forall2_length {A B} (R : A -> B -> Prop) l l' : Forall2 R l l' -> List.length l = List.length l'.
Proof. induction 1; cbn; congruence. Qed.
Lemma Forall2_setNth {A B} (R : A -> B -> Prop) l l' i y d : Forall2 R l l' -> (i < List.length l)%nat -> R (nth i l d) y -> Forall2 R l (setNth l' i y).
Proof.
  intros F. revert i. induction F as [|a b l l' H F IH]; intros i Hi Hy; [cbn in Hi; lia|]. destruct i as [|i]; cbn in *; constructor; auto. apply IH; [lia|exact Hy].
Qed.
Lemma setNth_In {A} (l : list A) i x : (i < List.length l)%nat -> In x (setNth l i x).
Proof. revert i. induction l as [|y l IH]; intros i Hi; [cbn in Hi; lia|]. destruct i; cbn; [auto|]. right. apply IH. cbn in Hi. lia. Qed.
Lemma addParam_out {A} on names (name : A -> bytes) wf a p e s a' s' : Forall (fun x => x <> []) names ->
  outKnown on names name wf a -> wf p -> addParam on names name a p e s = Ok a' s' -> outKnown on names name wf a' /\ rest s' = rest s.
Proof.
  intros Hn (O1 & O2 & O3) Wp E. unfold addParam in E. destruct on.
  2:{ injection E as <- <-. split; [|reflexivity]. split; [cbn; apply Forall_app; auto|]. split; [discriminate|exact O3]. }
  apply bind_inv in E as (o & s1 & E1 & E2). injection E2 as <- <-. unfold setKnown in E1. destruct (findName names (name p) 0) as [i|] eqn:F.
  - destruct (findName_some _ _ _ _ Hn F) as (k & Ek & Hk & Sk). cbn in Ek. subst i.
    assert (Hset : forall tbl, Forall2 (fun n o => match o with Some p => sameNoCase (name p) n /\ wf p | None => True end) names tbl ->
      outKnown true names name wf (Some (setNth tbl k (Some p)), snd a)).
    { intros tbl F2. split; [exact O1|]. split; [exact O2|]. cbn [fst]. split; [reflexivity|]. split.
      - exists p. apply setNth_In. apply Forall2_length in F2. rewrite <- F2. exact Hk.
      - apply (Forall2_setNth _ _ _ _ _ []); auto. }
    destruct (fst a) as [tbl|] eqn:Ea.
    + injection E1 as <- <-. split; [|reflexivity]. apply Hset, O3.
    + destruct (leMem _ _).
      * injection E1 as <- <-. split; [|reflexivity]. apply Hset. clear. induction names; cbn; constructor; auto.
      * destruct (Nat.ltb k 4); [|discriminate]. injection E1 as <- <-. split; [|reflexivity]. split; [exact O1|]. split; [exact O2|exact I].
  - injection E1 as <- <-. split; [|reflexivity]. split; [cbn; apply Forall_app; auto|]. split; [|exact O3]. intros _ q n Hq Hin. cbn [snd] in Hq. apply in_app_iff in Hq as [Hq|[<-|[]]]; [apply O2; auto|].
    apply (proj1 (findName_none_iff names (name p) 0 Hn) F n Hin).
Qed.
