(** C47: the structs in the arena - layout, allocation, Init. *)
From Verif Require Import Base Num Str Arena ArenaProofs ArenaOps ArenaOpsProofs Headers Layout.

Lemma alignOf_pos t : 1 <= alignOf t.
Proof.
  induction t as [| | |n t IH|fs]; cbn [alignOf]; try lia.
  induction fs as [|f fs IH]; cbn [fold_right]; lia.
Qed.
Lemma roundUp_le x a : 1 <= a -> x <= roundUp x a.
Proof.
  intros H. unfold roundUp. pose proof (N.div_mod (x + a - 1) a ltac:(lia)).
  pose proof (N.mod_lt (x + a - 1) a ltac:(lia)). nia.
Qed.
Lemma roundUp_mod x a : 1 <= a -> roundUp x a mod a = 0.
Proof. intros H. unfold roundUp. apply N.mod_mul. lia. Qed.

Definition fname (f : string * N * ty) := fst (fst f).
Definition foff (f : string * N * ty) := snd (fst f).
Definition fsize (f : string * N * ty) := sizeOf (snd f).
Lemma fieldsFrom_spec fs : forall off, let last := fold_left (fun off f => roundUp off (alignOf (snd f)) + sizeOf (snd f)) fs off in
  off <= last /\
  Forall (fun f => off <= foff f /\ foff f + fsize f <= last /\ foff f mod alignOf (snd f) = 0) (fieldsFrom off fs) /\
  ForallOrdPairs (fun f g => foff f + fsize f <= foff g) (fieldsFrom off fs).
Proof.
  induction fs as [|[n t] fs IH]; intros off; cbn [fieldsFrom fold_left snd].
  - split; [lia|]. split; constructor.
  - set (o := roundUp off (alignOf t)). specialize (IH (o + sizeOf t)). cbv zeta in IH. destruct IH as (H1 & H2 & H3).
    set (last := fold_left _ fs (o + sizeOf t)) in *.
    assert (Ho : off <= o) by (apply roundUp_le, alignOf_pos). split; [lia|]. split.
    + constructor.
      * unfold foff, fsize; cbn [fst snd]. repeat split; [assumption|lia|]. apply roundUp_mod, alignOf_pos.
      * eapply Forall_impl; [|exact H2]. cbv beta. intros f (G1 & G2 & G3). repeat split; auto. lia.
    + constructor; [|exact H3]. eapply Forall_impl; [|exact H2]. cbv beta. intros f (G1 & _). unfold foff at 1, fsize; cbn [fst snd]. exact G1.
Qed.

(** The fields of a struct lie inside it, at multiples of their alignment, and do not overlap. *)
Theorem C47_fields_disjoint : forall fs,
  Forall (fun f => foff f + fsize f <= sizeOf (TRec fs) /\ foff f mod alignOf (snd f) = 0) (fields (TRec fs)) /\
  ForallOrdPairs (fun f g => foff f + fsize f <= foff g) (fields (TRec fs)).
Proof.
  intros fs. cbn [fields]. destruct (fieldsFrom_spec fs 0) as (H1 & H2 & H3). split; [|exact H3].
  eapply Forall_impl; [|exact H2]. cbv beta. intros f (_ & G & G3). split; [|exact G3].
  etransitivity; [exact G|]. cbn [sizeOf]. apply roundUp_le, (alignOf_pos (TRec fs)).
Qed.
Print Assumptions C47_fields_disjoint.

(** The sizes: those the header parsers request from the arena are the sizes of the structs. *)
Definition kindType (k : hkind) : ty :=
  match k with
  | KFrom => tFrom | KTo => tTo | KVia => tVia | KContact => tContact | KRoute => tRoute | KRecordRoute => tRecordRoute | KPath => tPath
  | KServiceRoute => tServiceRoute | KPai => tPai | KCSeq => tCSeq | KRAck => tRAck | KRSeq => tRSeq | KExpires => tExpires
  | KMaxForwards => tMaxForwards | KContentLength => tContentLength | KContentType => tContentType
  | KContentDisposition => tContentDisposition | KCallID => tCallID
  end.
Theorem C47_sizes : (forall k, hvalSize k = sizeOf (kindType k)) /\
  sizeOf tSipUri = 18 /\ sizeOf tTelUri = 10 /\ sizeOf tUriParam = 6 /\ sizeOf tUriHeader = 6 /\ sizeOf tGenParam = 8 /\
  sizeOf tSentProtocol = 4 /\ sizeOf tSipHeader = 8 /\ sizeOf tMsgBody = 16 /\ sizeOf tMsg = 68 /\ sizeOf tUriKnown = 12.
Proof. split; [intros []; reflexivity|]. repeat split. Qed.
Print Assumptions C47_sizes.

(** A new object is a zeroed block of its size between the old and the new [used]; everything below is unchanged. *)
Theorem C47_new_is_zero : forall t a p a', cap a < 65536 -> 8 <= aused a <= cap a -> sizeOf t < 2147483648 -> NewObj t a = (p, a') -> p <> NILPTR ->
  p = aused a /\ aused a' = aused a + sizeOf t /\ aused a' <= cap a' /\ (forall i, p <= i < p + sizeOf t -> mem a' i = 0) /\
  (forall i, i < p \/ p + sizeOf t <= i -> mem a' i = mem a i).
Proof.
  intros t a p a' Hc Hu Hs E Hp. destruct (AllocWithClear_case (sizeOf t) a Hc Hu Hs) as (H1 & _ & H3).
  unfold NewObj in E. rewrite E in *. cbn [fst snd] in *. destruct H3 as [[-> _]|(H4 & H5 & H6 & H7 & H8)]; [congruence|].
  rewrite H1. subst p. repeat split; auto; intros i Hi; rewrite H8.
  - replace ((aused a <=? i) && (i <? aused a + sizeOf t))%bool with true by lia. reflexivity.
  - replace ((aused a <=? i) && (i <? aused a + sizeOf t))%bool with false by lia. reflexivity.
Qed.
Print Assumptions C47_new_is_zero.
Example C47_new_case : exists a p a', NewObj tVia a = (p, a') /\ p <> NILPTR /\ cap a = 108 /\ aused a = 8.
Proof. exists (Init 100). eexists. eexists. split; [vm_compute; reflexivity|]. split; [discriminate|]. split; reflexivity. Qed.

(** Init of an object makes every byte of it zero and changes nothing else - for every type but SipHeaderVia. *)
Theorem C47_init_clears : forall name t cleared, In (name, t, cleared) initTypes -> name <> "SipHeaderVia"%string ->
  forall m p i, InitObj cleared m p i = if (p <=? i) && (i <? p + sizeOf t) then 0 else m i.
Proof.
  intros name t cleared Hin Hn m p i. unfold InitObj. rewrite ZeroMem_spec.
  replace (sizeOf cleared) with (sizeOf t); [reflexivity|].
  revert Hin. cbv [initTypes]. cbn [In].
  intros Hin. repeat (destruct Hin as [[= <- <- <-]|Hin]; [first [reflexivity|exfalso; apply Hn; reflexivity]|]). contradiction.
Qed.
Print Assumptions C47_init_clears.
Example C47_init_case : In ("SipMsg"%string, tMsg, tMsg) initTypes /\ "SipMsg"%string <> "SipHeaderVia"%string /\ sizeOf tMsg = 68.
Proof. split; [unfold initTypes; cbn [In]; tauto|]. split; [discriminate|reflexivity]. Qed.

(** Init of a SipHeaderVia clears all of it except the link to the next Via value, which keeps its old contents: a
    re-used object still carries the old tail of values. *)
Theorem C47_init_via_exact : forall m p i,
  InitObj tTo m p i = if (p <=? i) && (i <? p + sizeOf tVia - 2) then 0 else m i.
Proof. intros. unfold InitObj. rewrite ZeroMem_spec. change (sizeOf tVia) with 16. change (sizeOf tTo) with 14. replace (p + 16 - 2) with (p + 14) by lia. reflexivity. Qed.
Print Assumptions C47_init_via_exact.
Theorem C47_init_via_refuted : In ("SipHeaderVia"%string, tVia, tTo) initTypes /\
  In ("next"%string, sizeOf tVia - 2, TPtr) (fields tVia) /\
  forall m p i, p + sizeOf tVia - 2 <= i -> InitObj tTo m p i = m i.
Proof.
  split; [unfold initTypes; cbn [In]; tauto|]. split; [vm_compute; tauto|].
  intros m p i Hi. rewrite C47_init_via_exact. change (sizeOf tVia) with 16 in *.
  replace (i <? p + 16 - 2) with false by lia. now rewrite andb_false_r.
Qed.
Print Assumptions C47_init_via_refuted.
