(** Derived simulation rules for the steps of the header and start-line parsers. *)
From Verif Require Import Base Charset BaseLemmas Num Lws Str Monad StartLine Arena ArenaProofs ArenaOpsProofs ArenaTop Layout Mem MemSim MemTac MemUri MemRep MemUriProofs MemGenProofs.

Lemma sim_strInto {X A} e (W : N -> Prop) p f (q : P bytes) (k : unit -> M X) (g : bytes -> P A) (Q : arena -> X -> A -> Prop) a r :
  sim e nowhere (mStr f) q (strQ a) a r -> wfA e a -> (forall i, 8 <= i < aused a -> inR p 2 i -> W i) -> 8 <= p -> p + 2 <= aused a ->
  (forall b a1 r1, wfA e a1 -> keeps (inR p 2) a a1 -> str (mem a1) (aused a) (aused a1) (g16 (mem a1) p) b -> sim e (orS W (from (aused a))) (k tt) (g b) Q a1 r1) ->
  sim e W (mbind (mInto p (mStr f)) k) (bind q g) Q a r.
Proof.
  intros Hf Hw HW H8 Hl H. num Hw. eapply (sim_bind e _ (orS nowhere (inR p 2))); [eapply sim_into; [exact Hw|exact Hf|intros a' x v K (_ & Hq & _); exact Hq]|exact Hw|intros i Hi [[]|G]; auto|].
  intros [] b a1 r1 Hw1 K1 (x & a0 & (Hs & _ & Eq & Ea) & K0 & U0 & V0). num K1. num K0. apply H; [exact Hw1|eapply keeps_sub; [exact K1|slia]|]. rewrite V0, U0. eapply str_frame; [|exact Hs]. agr K0.
Qed.
Lemma sim_posB {X A B} e (W : N -> Prop) (p : P B) (k : B -> M X) (g : B -> P A) (Q : arena -> X -> A -> Prop) a r : posOnly p -> wfA e a ->
  (forall x r1, sim e (orS W (from (aused a))) (k x) (g x) Q a r1) -> sim e W (mbind (mPos p) k) (bind p g) Q a r.
Proof. intros Hp Hw H. eapply (sim_bind e _ nowhere); [apply sim_pos; [exact Hw|exact Hp]|exact Hw|slia|]. intros x y a1 r1 _ _ (-> & ->). apply H. Qed.
Lemma posOnly_expect c : posOnly (expect c).
Proof. intros e s. unfold expect, onRest. destruct (rest s) as [|x r]; [reflexivity|]. destruct (x =? c); reflexivity. Qed.
Lemma posOnly_onRest {A} (f : bytes -> P A) : (forall r, posOnly (f r)) -> posOnly (onRest f).
Proof. intros H e s. unfold onRest. apply H. Qed.
Lemma posOnly_bind {A B} (p : P A) (g : A -> P B) : posOnly p -> (forall x, posOnly (g x)) -> posOnly (bind p g).
Proof. intros H1 H2 e s. unfold bind. specialize (H1 e s). destruct (p e s) as [x s1|s1| |]; auto. specialize (H2 x e s1). destruct (g x e s1); auto; congruence. Qed.
Lemma sim_FromPos e mid cs a r : wfA e a -> suffix mid r -> sim e nowhere (mStr (ParseAndAllocCStringFromPos mid cs)) (paCStringFromPos mid cs) (strQ a) a r.
Proof. intros H Hs. destruct (wfA_bridge e a H). eapply refines_sim; [exact H|]. apply refine_FromPos; auto. Qed.
(** The last step of a parser: an assignment. *)
Lemma sim_set8_end {A} e (W : N -> Prop) p v (x : A) (Q : arena -> unit -> A -> Prop) a r : wfA e a -> (forall i, 8 <= i < aused a -> inR p 1 i -> W i) ->
  (forall a1, wfA e a1 -> keeps (inR p 1) a a1 -> aused a1 = aused a -> mem a1 p = v -> Q a1 tt x) -> sim e W (set8 p v) (ret x) Q a r.
Proof. intros Hw HW H. apply sim_eta. apply sim_set8; [exact Hw|exact HW|]. intros a1 Hw1 K U V. apply sim_ret; auto. Qed.
Lemma sim_set16_end {A} e (W : N -> Prop) p v (x : A) (Q : arena -> unit -> A -> Prop) a r : wfA e a -> v < two16 -> (forall i, 8 <= i < aused a -> inR p 2 i -> W i) ->
  (forall a1, wfA e a1 -> keeps (inR p 2) a a1 -> aused a1 = aused a -> g16 (mem a1) p = v -> Q a1 tt x) -> sim e W (set16 p v) (ret x) Q a r.
Proof. intros Hw Hv HW H. apply sim_eta. apply sim_set16; [exact Hw|exact Hv|exact HW|]. intros a1 Hw1 K U V. apply sim_ret; auto. Qed.
