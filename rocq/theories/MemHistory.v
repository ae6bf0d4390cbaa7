(** Histories: any sequence of New + Parse calls in one arena. Everything parsed stays readable. *)
From Verif Require Import Base Charset BaseLemmas Num Lws Str Monad Arena ArenaProofs Layout Mem MemSim MemTac.

Section History.
  (** The kinds of object, their sizes, the Parse methods on an allocated struct (Parse includes Init), the same parse in the value layer. *)
  Variables (kind obj : Type) (size : kind -> N) (mp : kind -> N -> M unit) (vp : kind -> P obj).

  (** [addr := NewX(context); addr.GetX(context).Parse(context)], once per text, each on its own input. The addresses of the objects whose parse succeeded. *)
  Definition newParse (k : kind) : M N := p <~ mNew (size k) ;; mp k p ;~ mret p.
  Fixpoint runAll (e : env) (a : arena) (ts : list (kind * bytes)) : option (list (option N) * arena) :=
    match ts with
    | [] => Some ([], a)
    | (k, t) :: ts' =>
        match newParse k e a t with
        | MOk p a' _ => match runAll e a' ts' with Some (ps, a2) => Some (Some p :: ps, a2) | None => None end
        | MFail a' _ => match runAll e a' ts' with Some (ps, a2) => Some (None :: ps, a2) | None => None end
        | _ => None
        end
    end.
  (** The same in the value layer, which knows how many bytes of the arena are used, but not what is in them. *)
  Fixpoint valAll (e : env) (u : N) (ts : list (kind * bytes)) : option (list (option obj)) :=
    match ts with
    | [] => Some []
    | (k, t) :: ts' =>
        match (allocStruct (size k) ;;; vp k) e (mkst t u) with
        | Ok v s => option_map (cons (Some v)) (valAll e (used s) ts')
        | Fail s => option_map (cons None) (valAll e (used s) ts')
        | _ => None
        end
    end.

  Variable rep : kind -> (N -> N) -> N -> N -> N -> obj -> Prop.
  Variable good : env -> Prop.
  Hypothesis Hsize : forall k, 0 < size k /\ size k < 1000.
  Hypothesis Hparse : forall k e a r this, wfA e a -> good e -> 8 <= this -> this + size k <= aused a ->
    sim e (inR this (size k)) (mp k this) (vp k) (fun a' _ v => rep k (mem a') this (aused a) (aused a') v) a r.
  Hypothesis Hframe : forall k m m' this lo hi v, agreeR m m' this (this + size k) -> agreeR m m' lo hi -> rep k m this lo hi v -> rep k m' this lo hi v.

  Definition held (a : arena) (kt : kind * bytes) (p : option N) (v : option obj) : Prop :=
    match p, v with
    | None, None => True
    | Some p, Some v => exists lo hi, 8 <= p /\ p + size (fst kt) <= aused a /\ 8 <= lo /\ hi <= aused a /\ rep (fst kt) (mem a) p lo hi v
    | _, _ => False
    end.
  Inductive heldAll (a : arena) : list (kind * bytes) -> list (option N) -> list (option obj) -> Prop :=
  | heldNil : heldAll a [] [] []
  | heldCons kt p v ts ps vs : held a kt p v -> heldAll a ts ps vs -> heldAll a (kt :: ts) (p :: ps) (v :: vs).

  Lemma sim_newParse k e a r : wfA e a -> good e ->
    sim e nowhere (newParse k) (allocStruct (size k) ;;; vp k) (fun a' p v => p = aused a /\ p + size k <= aused a' /\ rep k (mem a') p (p + size k) (aused a') v) a r.
  Proof.
    intros Hw Hg. num Hw. destruct (Hsize k) as [S1 S2].
    eapply (sim_bind e _ nowhere); [apply sim_new; [exact Hw|lia|lia]|exact Hw|slia|]. intros p [] a1 r1 Hw1 K1 (-> & U1 & Z1). num K1.
    assert (G : sim e (inR (aused a) (size k)) (mp k (aused a) ;~ mret (aused a)) (x <- vp k ;; ret x) (fun a' p v => p = aused a /\ p + size k <= aused a' /\ rep k (mem a') p (p + size k) (aused a') v) a1 r1).
    { eapply (sim_bind e _ (inR (aused a) (size k))); [apply Hparse; [exact Hw1|exact Hg|lia|lia]|exact Hw1|auto|].
      intros [] v a2 r2 Hw2 K2 HR. num K2. apply sim_ret; [exact Hw2|]. split; [reflexivity|]. split; [lia|]. rewrite <- U1. exact HR. }
    apply (sim_sub e (inR (aused a) (size k))); [|intros i Hi Hr; right; unfold inR in Hr; unfold from; lia]. revert G. unfold sim, bind, ret. destruct (vp k e _) as [v [sr su]| | |]; exact (fun H => H).
  Qed.

  Lemma held_keeps a a' kt p v : keeps nowhere a a' -> held a kt p v -> held a' kt p v.
  Proof.
    intros K. num K. unfold held. destruct p as [p|], v as [v|]; auto. intros (lo & hi & H1 & H2 & H3 & H4 & H5). exists lo, hi.
    split; [exact H1|]. split; [lia|]. split; [exact H3|]. split; [lia|]. eapply Hframe; [| |exact H5]; agr K.
  Qed.

  Lemma history e ts : forall a vs, wfA e a -> good e -> valAll e (aused a) ts = Some vs ->
    exists ps a', runAll e a ts = Some (ps, a') /\ wfA e a' /\ keeps nowhere a a' /\ heldAll a' ts ps vs.
  Proof.
    induction ts as [|[k t] ts IH]; intros a vs Hw Hg; cbn [valAll runAll].
    - intros E. injection E as <-. exists [], a. split; [reflexivity|]. split; [exact Hw|]. split; [apply (keeps_refl _ e a Hw)|constructor].
    - pose proof (sim_newParse k e a t Hw Hg) as S0. unfold sim in S0. destruct ((allocStruct (size k) ;;; vp k) e (mkst t (aused a))) as [v s|s| |]; try discriminate.
      + destruct S0 as (p & a1 & -> & U & K & H8 & Hl & HR). pose proof (keeps_wf _ _ _ _ Hw K) as Hw1. num Hw. rewrite <- U.
        destruct (valAll e (aused a1) ts) as [vs'|] eqn:Ev; [|discriminate]. intros E. cbn in E. injection E as <-.
        destruct (IH a1 vs' Hw1 Hg Ev) as (ps & a2 & -> & Hw2 & K2 & HA). exists (Some p :: ps), a2. split; [reflexivity|]. split; [exact Hw2|].
        split; [eapply keeps_trans; [exact K|eapply keeps_sub; [exact K2|slia]]|]. constructor; [|exact HA]. apply (held_keeps _ _ _ _ _ K2).
        exists (p + size k), (aused a1). cbn [fst]. num K. repeat split; auto; lia.
      + destruct S0 as (a1 & -> & U & K). pose proof (keeps_wf _ _ _ _ Hw K) as Hw1. rewrite <- U.
        destruct (valAll e (aused a1) ts) as [vs'|] eqn:Ev; [|discriminate]. intros E. cbn in E. injection E as <-.
        destruct (IH a1 vs' Hw1 Hg Ev) as (ps & a2 & -> & Hw2 & K2 & HA). exists (None :: ps), a2. split; [reflexivity|]. split; [exact Hw2|].
        split; [eapply keeps_trans; [exact K|eapply keeps_sub; [exact K2|slia]]|]. constructor; [exact Logic.I|exact HA].
  Qed.
End History.
