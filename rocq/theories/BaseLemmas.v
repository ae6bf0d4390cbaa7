(** General lemmas about bytes, spans, and finite sweeps over the 256 byte values. *)
From Verif Require Import Base Charset.

Definition all256 : list N := map N.of_nat (seq 0 256).

Lemma all256_in b : b < 256 -> In b all256.
Proof.
  intros H. unfold all256. apply in_map_iff. exists (N.to_nat b). split; [lia|].
  apply in_seq. lia.
Qed.

(** A boolean property of all 256 bytes, checked by computation. *)
Lemma sweep (f : N -> bool) : forallb f all256 = true -> forall b, b < 256 -> f b = true.
Proof. intros H b Hb. rewrite forallb_forall in H. apply H, all256_in, Hb. Qed.

(** Only byte values are in a class (the Go index expression requires a byte). *)
Lemma inset_byte cs b : inset cs b = true -> b < 256.
Proof.
  unfold inset. intros H. destruct (N.ltb_spec b 256) as [|Hge]; [assumption|exfalso].
  rewrite nth_overflow in H.
  - rewrite N.land_0_l in H. discriminate.
  - destruct (csIndex cs =? 0); cbn [List.length g_charsets0 g_charsets1]; lia.
Qed.

(** Lift a sweep of an implication about class membership to all of [N]. *)
Lemma inset_sweep cs (f : N -> bool) :
  forallb (fun b => implb (inset cs b) (f b)) all256 = true ->
  forall b, inset cs b = true -> f b = true.
Proof.
  intros H b Hb. pose proof (inset_byte _ _ Hb) as Hlt.
  pose proof (sweep _ H b Hlt) as H1. cbv beta in H1. rewrite Hb in H1. exact H1.
Qed.

Lemma len_nil : len [] = 0. Proof. reflexivity. Qed.
Lemma len_cons x l : len (x :: l) = len l + 1.
Proof. unfold len. cbn [List.length]. lia. Qed.
Lemma len_app a b : len (a ++ b) = len a + len b.
Proof. unfold len. rewrite app_length. lia. Qed.

Lemma beq_refl a : beq a a = true.
Proof. induction a as [|x a IH]; cbn; [reflexivity|]. now rewrite N.eqb_refl, IH. Qed.
Lemma beq_eq a b : beq a b = true <-> a = b.
Proof.
  split; [|intros ->; apply beq_refl].
  revert b; induction a as [|x a IH]; intros [|y b]; cbn; try discriminate; [reflexivity|].
  intros H. apply andb_prop in H as [H1 H2]. apply N.eqb_eq in H1. subst. f_equal. auto.
Qed.

(** [span]: the maximal prefix. *)
Lemma span_app f l a b : span f l = (a, b) -> l = a ++ b.
Proof.
  revert a b; induction l as [|x l IH]; cbn; intros a b.
  - intros [= <- <-]. reflexivity.
  - destruct (f x); [|intros [= <- <-]; reflexivity].
    destruct (span f l) as [a' b'] eqn:E. intros [= <- <-]. cbn. f_equal. now apply IH.
Qed.
Lemma span_all f l a b : span f l = (a, b) -> forallb f a = true.
Proof.
  revert a b; induction l as [|x l IH]; cbn; intros a b.
  - intros [= <- <-]. reflexivity.
  - destruct (f x) eqn:Fx; [|intros [= <- <-]; reflexivity].
    destruct (span f l) as [a' b'] eqn:E. intros [= <- <-]. cbn. rewrite Fx. now apply (IH a' b').
Qed.
Definition stops (f : N -> bool) (l : bytes) : bool :=
  match l with [] => true | x :: _ => negb (f x) end.
Lemma span_stops f l a b : span f l = (a, b) -> stops f b = true.
Proof.
  revert a b; induction l as [|x l IH]; cbn; intros a b.
  - intros [= <- <-]. reflexivity.
  - destruct (f x) eqn:Fx.
    + destruct (span f l) as [a' b'] eqn:E. intros [= <- <-]. now apply (IH a' b').
    + intros [= <- <-]. cbn. now rewrite Fx.
Qed.
Lemma span_exact f a b : forallb f a = true -> stops f b = true -> span f (a ++ b) = (a, b).
Proof.
  intros Ha Hb. induction a as [|x a IH]; cbn in *.
  - destruct b as [|y b]; cbn in *; [reflexivity|]. destruct (f y); [discriminate|reflexivity].
  - apply andb_prop in Ha as [Hx Ha]. rewrite Hx, (IH Ha). reflexivity.
Qed.
Lemma span_stop f b : stops f b = true -> span f b = ([], b).
Proof. intros. apply (span_exact f [] b); auto. Qed.
Lemma span_len f l : len (fst (span f l)) + len (snd (span f l)) = len l.
Proof.
  destruct (span f l) as [a b] eqn:E. apply span_app in E. subst. cbn. now rewrite len_app.
Qed.

(** Suffixes. *)
Definition suffix (r s : bytes) : Prop := exists p, s = p ++ r.
Lemma suffix_refl r : suffix r r. Proof. now exists []. Qed.
Lemma suffix_trans a b d : suffix a b -> suffix b d -> suffix a d.
Proof. intros [p ->] [q ->]. exists (q ++ p). now rewrite app_assoc. Qed.
Lemma suffix_cons x a b : suffix (x :: a) b -> suffix a b.
Proof. intros [p ->]. exists (p ++ [x]). now rewrite <- app_assoc. Qed.
Lemma suffix_tl x a b : suffix a b -> suffix a (x :: b).
Proof. intros [p ->]. now exists (x :: p). Qed.
Lemma suffix_span f l : suffix (snd (span f l)) l.
Proof. destruct (span f l) as [a b] eqn:E. apply span_app in E. now exists a. Qed.
Lemma suffix_len a b : suffix a b -> len a <= len b.
Proof. intros [p ->]. rewrite len_app. lia. Qed.
Lemma suffix_length a b : suffix a b -> (List.length a <= List.length b)%nat.
Proof. intros [p ->]. rewrite app_length. lia. Qed.
Lemma suffix_nil a : suffix [] a. Proof. exists a. now rewrite app_nil_r. Qed.
#[global] Hint Resolve suffix_refl suffix_tl suffix_span suffix_nil : suf.
