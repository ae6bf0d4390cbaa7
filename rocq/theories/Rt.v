(** Exact results of the primitives in an arena that is never exhausted; used by all round-trip proofs. *)
From Verif Require Import Base Charset BaseLemmas Num NumSpec NumProofs Lws LwsSpec LwsProofs Str StrSpec StrProofs Monad Good.

Definition infinite (e : env) : Prop := memend e = None.
(** [reads e p txt v follow]: from [txt] followed by anything satisfying [follow], [p] returns [v] and stops exactly after [txt]. *)
Definition reads {A} (e : env) (p : P A) (txt : bytes) (v : A) (follow : bytes -> Prop) : Prop :=
  forall k u, follow k -> exists u', p e (mkst (txt ++ k) u) = Ok v (mkst k u').

Lemma inf_lt e n : infinite e -> ltMem e n = true. Proof. unfold infinite, ltMem. now intros ->. Qed.
Lemma inf_le e n : infinite e -> leMem e n = true. Proof. unfold infinite, leMem. now intros ->. Qed.
Lemma inf_fits e u n : infinite e -> fits e u n = true.
Proof. intros. unfold fits. rewrite inf_le by assumption. apply orb_true_r. Qed.
Lemma inf_roomy e n : infinite e -> roomy e n. Proof. unfold infinite, roomy. now intros ->. Qed.
Lemma inf_unlimited e : infinite (unlimited e). Proof. reflexivity. Qed.

Lemma rt_alloc e n r u : infinite e -> allocStruct n e (mkst r u) = Ok tt (mkst r (u + n)).
Proof. intros H. unfold allocStruct. rewrite inf_le by assumption. reflexivity. Qed.
Lemma rt_cstring e cs b k u : infinite e -> forallb (inset cs) b = true -> b <> [] -> stops (inset cs) k = true ->
  paCString cs e (mkst (b ++ k) u) = Ok b (mkst k (u + 2 + len b)).
Proof.
  intros H Hb Hne Hk. unfold paCString. cbn [rest used]. rewrite !inf_lt by assumption. cbn [negb]. rewrite span_exact by assumption.
  rewrite inf_fits by assumption. cbn [negb]. destruct b; [congruence|]. rewrite inf_lt by assumption. reflexivity.
Qed.
Lemma rt_escapable e cs b k u : infinite e -> inset cs 37 = false -> allBytes b -> b <> [] -> endsRun (inset cs) k ->
  paEscapable cs e (mkst (escape cs b ++ k) u) = Ok b (mkst k (u + 2 + len b)).
Proof. intros. apply escape_roundtrip; auto using inf_roomy. Qed.
Lemma rt_escapableEmpty e cs b k u : infinite e -> inset cs 37 = false -> allBytes b -> endsRun (inset cs) k ->
  paEscapableEmpty cs e (mkst (escape cs b ++ k) u) = Ok b (mkst k (u + 2 + len b)).
Proof. intros. apply escape_roundtrip_empty; auto using inf_roomy. Qed.
Lemma rt_escapable_sub e ws cs b k u : infinite e -> (forall x, inset ws x = true -> inset cs x = true) -> inset cs 37 = false -> allBytes b -> b <> [] -> endsRun (inset cs) k ->
  paEscapable cs e (mkst (escape ws b ++ k) u) = Ok b (mkst k (u + 2 + len b)).
Proof. intros HI Hs H37 Hb Hne Hk. apply paEscapable_ok; [apply inf_roomy, HI|]. exists (escape ws b). cbn. repeat split; auto using escape_decodes_sub. Qed.
Lemma rt_uint e n k u : n < two64 -> stops IsDigit k = true -> pUInt e (mkst (encUInt n ++ k) u) = Ok n (mkst k u).
Proof. intros. unfold pUInt, onRest. cbn [rest]. rewrite ParseUInt_encUInt by assumption. reflexivity. Qed.
Lemma rt_allocCString e b r u : infinite e -> allocCString b e (mkst r u) = Ok b (mkst r (u + (len b + 2))).
Proof. intros. unfold allocCString. cbn [used rest]. rewrite inf_le by assumption. reflexivity. Qed.

(** Stepping through a [bind] whose first part is known. *)
Lemma bind_ok {A B} (p : P A) (f : A -> P B) e s a s' : p e s = Ok a s' -> bind p f e s = f a e s'.
Proof. unfold bind. now intros ->. Qed.
Lemma onRest_eq {A} (f : bytes -> P A) e r u : onRest f e (mkst r u) = f r e (mkst r u). Proof. reflexivity. Qed.
Lemma goto_bind {B} r (q : P B) e s : bind (goto r) (fun _ => q) e s = q e (mkst r (used s)). Proof. reflexivity. Qed.
Lemma orRestore_ok {A} (p q : P A) e s a s' : p e s = Ok a s' -> orRestore p q e s = Ok a s'.
Proof. unfold orRestore. now intros ->. Qed.
Lemma orRestore_fail {A} (p q : P A) e s s' : p e s = Fail s' -> orRestore p q e s = q e (mkst (rest s) (used s')).
Proof. unfold orRestore. now intros ->. Qed.

(** The first byte of the continuation avoids [f]. *)
Lemma stops_cons f x k : stops f (x :: k) = negb (f x). Proof. reflexivity. Qed.
Lemma endsRun_stops cs k : stops (fun x => inset cs x || (x =? 37)) k = true <-> endsRun (inset cs) k.
Proof.
  destruct k as [|x k]; cbn; [tauto|]. rewrite negb_true_iff, orb_false_iff, N.eqb_neq. tauto.
Qed.
Lemma stops_weaken (f g : N -> bool) k : (forall x, g x = true -> f x = true) -> stops f k = true -> stops g k = true.
Proof. destruct k as [|x k]; cbn; [trivial|]. intros H. specialize (H x). destruct (g x); [rewrite H; trivial|trivial]. Qed.
