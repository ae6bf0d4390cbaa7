(** From an arena that is never exhausted to every arena with enough room; decision helpers for concrete instances. *)
From Verif Require Import Base Charset BaseLemmas Num NumSpec NumProofs Lws LwsSpec LwsProofs Str StrSpec StrProofs Monad Good Rt.

(** The arena ends at [n] or later. *)
Definition roomFor (e : env) (n : N) : Prop := match memend e with None => True | Some m => n <= m end.

Lemma withMem_self e : withMem (memend e) e = e. Proof. destruct e; reflexivity. Qed.
Lemma room_eq {A} K C (p : P A) e s : goodAt K C p e s -> roomFor e (used s + C + K * len (rest s)) -> p e s = p (withMem None e) s.
Proof.
  intros G R. unfold roomFor in R. destruct (memend e) as [m|] eqn:E.
  - rewrite <- (good_enough _ _ _ _ _ G m R). now rewrite <- E, withMem_self.
  - now rewrite <- E, withMem_self.
Qed.

Definition allBytesb (l : bytes) : bool := forallb (fun b => b <? 256) l.
Lemma allBytesb_ok l : allBytesb l = true -> allBytes l.
Proof. unfold allBytesb, allBytes. rewrite forallb_forall, Forall_forall. intros H x Hx. apply H in Hx. unfold isByte. lia. Qed.
Ltac abytes := apply allBytesb_ok; vm_compute; reflexivity.

(** A net package for concrete instances: an address is kept as its text. *)
Definition textNet (f : bytes -> bool) (m : option N) : env :=
  mkenv m true true true true true true true true false false true false false (fun _ => true)
        (fun t => if f t then Some t else None) (fun t => t).
