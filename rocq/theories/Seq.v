(** List loops and known-parameter tables: well-behavedness and exact results. *)
From Verif Require Import Base Charset BaseLemmas Num NumSpec NumProofs Lws LwsSpec LwsProofs Str StrSpec StrProofs Monad Good Rt.

Lemma withMem_id e : withMem (memend e) e = e. Proof. destruct e; reflexivity. Qed.
Lemma withMem_twice m n e : withMem m (withMem n e) = withMem m e. Proof. reflexivity. Qed.
(** A good parser only moves forward. *)
Lemma good_suffix {A} K C (p : P A) e s a s' : goodAt K C p e s -> p e s = Ok a s' -> suffix (rest s') (rest s) /\ used s <= used s'.
Proof. intros [G _ _] E. specialize (G (memend e)). rewrite withMem_id, E in G. exact G. Qed.
Lemma good_suffix_fail {A} K C (p : P A) e s s' : goodAt K C p e s -> p e s = Fail s' -> suffix (rest s') (rest s) /\ used s <= used s'.
Proof. intros [G _ _] E. specialize (G (memend e)). rewrite withMem_id, E in G. exact G. Qed.

Lemma goodAt_bind0 {A B} K C (p : P A) (q : A -> P B) e s : goodAt K 0 p e s ->
  (forall a s' m, p (withMem m e) s = Ok a s' -> goodAt K C (q a) e s') -> goodAt K C (bind p q) e s.
Proof. intros H Q. apply (goodAt_bind K C 0); [exact H|lia|]. intros. rewrite N.sub_0_r. eauto. Qed.
Lemma goodAt_goto_bind {B} K C r (q : P B) e s : suffix r (rest s) -> goodAt K C q e (mkst r (used s)) ->
  goodAt K C (bind (goto r) (fun _ => q)) e s.
Proof. intros H Q. apply goodAt_bind0; [apply goodAt_goto, H|]. intros a s' m [= _ <-]. exact Q. Qed.

Lemma goodAt_contIf {A} K C c (a : A) e s : goodAt K C (contIf c a) e s.
Proof.
  apply goodAt_onRest. destruct (rest s) as [|x r1] eqn:R; [apply goodAt_ret|]. destruct (x =? c); [|apply goodAt_ret].
  apply goodAt_goto_bind; [rewrite R; auto with suf|apply goodAt_ret].
Qed.
Lemma sep_progresses {A} K C c (one : A -> P A) : (forall a e s, goodAt K C (one a) e s) ->
  progresses (fun a => onRest (fun r => match r with [] => ret (inr a) | _ => bind (one a) (contIf c) end)).
Proof.
  intros G a e s a' s' E. unfold onRest in E. destruct (rest s) as [|x r] eqn:R; [discriminate|]. unfold bind in E.
  destruct (one a e s) as [b s1|s1| |] eqn:O; try discriminate. apply (good_suffix K C) in O; [|apply G]. destruct O as [S1 _].
  unfold contIf, onRest in E. destruct (rest s1) as [|y r1] eqn:R1; [discriminate|]. destruct (y =? c); [|discriminate].
  injection E as _ <-. cbn [rest]. apply suffix_length in S1. rewrite R in S1. cbn in *. lia.
Qed.
Lemma goodAt_sepLoop {A} Kb Cb K C c (one : A -> P A) a e s : (forall a e s, goodAt Kb Cb (one a) e s) -> Kb + Cb <= K -> Cb <= C ->
  goodAt K C (sepLoop c one a) e s.
Proof.
  intros G HK HC. unfold sepLoop. apply (goodAt_loopP Kb Cb); auto; [exact (sep_progresses Kb Cb c one G)|].
  intros a1 s1. apply goodAt_onRest. destruct (rest s1); [apply goodAt_ret|]. apply (goodAt_bind Kb Cb Cb); [apply G|lia|]. intros. apply goodAt_contIf.
Qed.
Lemma sepLoop_unfold {A} K C c (one : A -> P A) a e r u : (forall a e s, goodAt K C (one a) e s) ->
  sepLoop c one a e (mkst r u) =
  match r with
  | [] => Ok a (mkst [] u)
  | _ => match one a e (mkst r u) with
         | Ok a' s' => match rest s' with
             | x :: r1 => if x =? c then sepLoop c one a' e (mkst r1 (used s')) else Ok a' s'
             | [] => Ok a' s'
             end
         | Fail s' => Fail s' | Panic => Panic | Loop => Loop
         end
  end.
Proof.
  intros G. unfold sepLoop. rewrite loopP_unfold by exact (sep_progresses K C c one G). unfold onRest, bind. cbn [rest].
  destruct r as [|y r]; [reflexivity|]. destruct (one a e (mkst (y :: r) u)) as [a' s'|s'| |]; try reflexivity.
  unfold contIf, onRest. destruct (rest s') as [|x r1]; [reflexivity|]. destruct (x =? c); reflexivity.
Qed.

(** Text of a list: items joined by [c]. *)
Fixpoint joined (c : N) (l : list bytes) : bytes :=
  match l with [] => [] | [x] => x | x :: l' => x ++ c :: joined c l' end.
Lemma joined_cons2 c x y l : joined c (x :: y :: l) = x ++ c :: joined c (y :: l). Proof. reflexivity. Qed.
(** Exact reading of a joined list. [F] is what may follow an item. *)
Lemma rt_sepLoop {A X} K C c (one : A -> P A) (enc : X -> bytes) (step : A -> X -> A) (F : bytes -> Prop) (inv : A -> list X -> Prop) e :
  (forall a e s, goodAt K C (one a) e s) -> (forall k, F (c :: k)) ->
  (forall a x xs k u, inv a (x :: xs) -> F k -> (k = [] -> xs = []) -> exists u', one a e (mkst (enc x ++ k) u) = Ok (step a x) (mkst k u')) ->
  (forall a x xs, inv a (x :: xs) -> inv (step a x) xs) -> (forall a x xs, inv a (x :: xs) -> enc x <> []) ->
  forall xs a k u, xs <> [] -> inv a xs -> F k -> (forall k', k <> c :: k') ->
  exists u', sepLoop c one a e (mkst (joined c (map enc xs) ++ k) u) = Ok (fold_left step xs a) (mkst k u').
Proof.
  intros G Fc R Inv Ne xs. induction xs as [|x xs IH]; intros a k u Hne Ha Fk Nk; [congruence|]. clear Hne.
  assert (N0 : forall q : bytes, match enc x ++ q with [] => Ok a (mkst [] u) | _ =>
      match one a e (mkst (enc x ++ q) u) with
         | Ok a' s' => match rest s' with
             | x :: r1 => if x =? c then sepLoop c one a' e (mkst r1 (used s')) else Ok a' s'
             | [] => Ok a' s'
             end
         | Fail s' => Fail s' | Panic => Panic | Loop => Loop
         end end = match one a e (mkst (enc x ++ q) u) with
         | Ok a' s' => match rest s' with
             | x :: r1 => if x =? c then sepLoop c one a' e (mkst r1 (used s')) else Ok a' s'
             | [] => Ok a' s'
             end
         | Fail s' => Fail s' | Panic => Panic | Loop => Loop
         end).
  { intros q. destruct (enc x ++ q) eqn:E; [|reflexivity]. apply app_eq_nil in E as [E _]. exfalso. exact (Ne _ _ _ Ha E). }
  destruct xs as [|y xs]; [cbn [map joined fold_left]|cbn [map fold_left]; rewrite joined_cons2].
  - rewrite (sepLoop_unfold K C) by exact G. rewrite N0. destruct (R a x [] k u Ha Fk (fun _ => eq_refl)) as [u' ->]. cbn [rest used].
    destruct k as [|z k]; [eexists; reflexivity|]. destruct (N.eqb_spec z c) as [->|_]; [exfalso; eapply Nk; reflexivity|eexists; reflexivity].
  - rewrite <- app_assoc. cbn [app]. set (k1 := joined c (enc y :: map enc xs) ++ k).
    fold k1. rewrite (sepLoop_unfold K C) by exact G. rewrite N0.
    destruct (R a x (y :: xs) (c :: k1) u Ha (Fc k1) ltac:(discriminate)) as [u' ->]. cbn [rest used]. rewrite N.eqb_refl. apply (IH (step a x) k u'); auto. discriminate.
Qed.

(** ** Known parameters *)
Lemma goodAt_setKnown {A} K C names (name : A -> bytes) t p e s : 2 * N.of_nat (List.length names) <= C -> goodAt K C (setKnown names name t p) e s.
Proof.
  intros HC. unfold setKnown. destruct (findName names (name p) 0) as [i|]; [|apply goodAt_ret]. destruct t as [tbl|]; [apply goodAt_ret|].
  split; cbv beta.
  - intros m. destruct (leMem _ _); cbn [rest used]; [split; [apply suffix_refl|lia]|]. destruct (Nat.ltb i 4); cbv iota; [split; [apply suffix_refl|lia]|exact I].
  - cbn. lia.
  - intros m Hm. rewrite leMem_enough by lia. reflexivity.
Qed.
Lemma goodAt_addParam {A} K C en names (name : A -> bytes) a p e s : 2 * N.of_nat (List.length names) <= C -> goodAt K C (addParam en names name a p) e s.
Proof.
  intros HC. unfold addParam. destruct en; [|apply goodAt_ret]. eapply (goodAt_bind K C C); [apply goodAt_setKnown, HC|lia|]. intros. apply goodAt_ret.
Qed.

(** What [addParam] does when memory does not run out. *)
Definition addStep {A} (en : bool) (names : list bytes) (name : A -> bytes) (a : known A * list A) (p : A) : known A * list A :=
  match (if en then findName names (name p) 0 else None) with
  | Some i => (Some (setNth match fst a with Some tbl => tbl | None => repeat None (List.length names) end i (Some p)), snd a)
  | None => (fst a, snd a ++ [p])
  end.
Lemma rt_addParam {A} en names (name : A -> bytes) a p e r u : infinite e ->
  exists u', addParam en names name a p e (mkst r u) = Ok (addStep en names name a p) (mkst r u').
Proof.
  intros HI. unfold addParam, addStep. destruct en; [|eexists; reflexivity]. unfold setKnown. destruct (findName names (name p) 0) as [i|]; [|eexists; reflexivity].
  destruct (fst a) as [tbl|]; [eexists; reflexivity|]. unfold bind. cbn [used rest]. rewrite inf_le by assumption. eexists. reflexivity.
Qed.
(** ... and the same for any arena, given the answer. *)
Lemma addParam_ok {A} en names (name : A -> bytes) a p e s a' s' : addParam en names name a p e s = Ok a' s' -> infinite e ->
  a' = addStep en names name a p /\ rest s' = rest s.
Proof. intros E HI. destruct s as [r u]. destruct (rt_addParam en names name a p e r u HI) as [u' E']. rewrite E in E'. injection E' as -> ->. auto. Qed.

Lemma findName_lt names n : forall i j, findName names n i = Some j -> (i <= j < i + List.length names)%nat.
Proof.
  induction names as [|x names IH]; intros i j; cbn; [discriminate|]. destruct (equalNoCase n x); [intros [= <-]; lia|]. intros H. apply IH in H. lia.
Qed.
Lemma setNth_length {A} (l : list A) i x : List.length (setNth l i x) = List.length l.
Proof. revert i. induction l as [|y l IH]; intros [|i]; cbn; auto. Qed.
Lemma setNth_app {A} (l : list A) y l' x : setNth (l ++ y :: l') (List.length l) x = l ++ x :: l'.
Proof. induction l as [|z l IH]; cbn; [reflexivity|]. now rewrite IH. Qed.
