(** C64: Encode appends: what the caller's buffer holds already is kept and does not matter. *)
From Verif Require Import Base BaseLemmas Charset Num NumSpec HeaderTree MethodTree Lookup Str Monad Good Inv Seq Host Uri Tel GenParam Addr StartLine Headers HeadersSpec HeadersProofs RawHeaders RawProofs Msg MsgSpec MsgProofs MsgRt MsgEnc MsgSound
  Arena ArenaProofs Layout Mem MemSim MemRep MemHistory MemMsg MemMsgTop P05_Uri P12_Messages P18_Memory MemWorld P19_World.
From Coq Require Import String.
Local Open Scope N_scope.

Lemma encLoop_len : forall c n acc b, encLoop c n acc = Some b -> (List.length b <= c + List.length acc)%nat.
Proof.
  induction c as [|c IH]; intros n acc b; cbn [encLoop]; destruct (n =? 0); try discriminate; intros E; [injection E as <-; lia|injection E as <-; lia|].
  apply IH in E. cbn [List.length] in E. lia.
Qed.
Lemma encUInt_len n : (List.length (encUInt n) <= 32)%nat.
Proof.
  unfold encUInt, EncodeUInt. destruct (n =? 0); [cbn; lia|]. destruct (encLoop 32 n []) as [b|] eqn:E; [|cbn; lia]. apply encLoop_len in E. cbn [List.length] in E. lia.
Qed.
Lemma start_len e l : (8 <= List.length (encStartLine e l))%nat.
Proof.
  destruct l as [m a v|v c t]; unfold encStartLine; rewrite !app_length; cbn [List.length]; rewrite ?app_length; cbn [List.length]; rewrite ?app_length; change (List.length CRLF) with 2%nat; destruct v; cbn [encVersion]; rewrite ?app_length; cbn -[Nat.add encMethod encUInt encAddrSpec]; lia.
Qed.
Lemma length10 n : n < two32 -> (10 <= List.length (encContentLength n))%nat.
Proof. intros H. assert (B32 : two32 < two64) by reflexivity. rewrite encContentLength_eq by lia. rewrite app_length, repeat_length. lia. Qed.
Lemma lengthEnd_pre e pre p h : lengthEnd e (pre ++ p) h = (List.length pre + lengthEnd e p h)%nat.
Proof. unfold lengthEnd. rewrite !app_length. lia. Qed.
Lemma lengthEnd_low e p h n : nth 7 (hsCommon h) [] = [VNum n] -> n < two32 -> (26 + List.length p <= lengthEnd e p h)%nat.
Proof.
  intros E H. unfold lengthEnd, contentLengthOf. rewrite E. cbn [hd_error]. rewrite !app_length. change (encSlotValue e SIP_HDR_CONTENT_LENGTH (VNum n)) with (encContentLength n). pose proof (length10 n H). change (List.length (hiName (slotInfo SIP_HDR_CONTENT_LENGTH))) with 14%nat. change (List.length (s2b ": ")) with 2%nat. lia.
Qed.
Lemma patch_pre pre t n d : (List.length d <= n)%nat -> patch (pre ++ t) (List.length pre + n) d = pre ++ patch t n d.
Proof.
  intros H. unfold patch. replace (List.length pre + n - List.length d)%nat with (List.length pre + (n - List.length d))%nat by lia.
  rewrite firstn_app_2, skipn_app. rewrite skipn_all2 by lia. replace (List.length pre + n - List.length pre)%nat with n by lia. rewrite <- !app_assoc. reflexivity.
Qed.
Lemma boundary_seven e h s h2 b s2 : findOrCreateBoundary h e s = Ok (h2, b) s2 -> nth 7 (hsCommon h2) [] = nth 7 (hsCommon h) [].
Proof. intros E. apply (boundary_slots _ _ _ _ _ _ E). lia. Qed.
(** Encode writes behind what the buffer holds what it writes into an empty one, leaves the same message behind and takes the same memory; or it fails in both cases. *)
Theorem C64_message : forall e pre m s, lengthSlot (mHdrs m) ->
  encMsg pre m e s = match encMsg [] m e s with Ok (text, m') s' => Ok (pre ++ text, m') s' | Fail s' => Fail s' | Panic => Panic | Loop => Loop end.
Proof.
  intros e pre m s Hl. unfold encMsg, withEnv, bind. destruct (ensureLength (mHdrs m) e s) as [h1 s1|s1| |] eqn:E1; [|reflexivity..].
  pose proof (ensureLength_ok _ _ _ _ _ Hl E1) as Eh. destruct ((if hasMulti m then findOrCreateBoundary h1 else ret (h1, [])) e s1) as [[h b] s2|s2| |] eqn:E2; [|reflexivity..]. cbn [fst snd].
  assert (S7 : nth 7 (hsCommon h) [] = [VNum (statedLength (mHdrs m))]).
  { assert (S1 : nth 7 (hsCommon h1) [] = [VNum (statedLength (mHdrs m))]) by (rewrite Eh; unfold withLength; cbn [hsCommon]; apply setNth_nth; destruct Hl as [L _]; rewrite L; lia).
    destruct (hasMulti m); [now rewrite (boundary_seven _ _ _ _ _ _ E2)|]. unfold ret in E2. injection E2 as <- _ _. exact S1. }
  destruct (mBodies m) as [|b0 bs]; unfold ret; [reflexivity|]. cbn [app]. rewrite <- !app_assoc. rewrite lengthEnd_pre, patch_pre; [reflexivity|].
  pose proof (lengthEnd_low e (encStartLine e (mStart m)) h _ S7 (stated_lt _ Hl)). pose proof (start_len e (mStart m)).
  eapply Nat.le_trans; [apply encUInt_len|lia].
Qed.
Print Assumptions C64_message.

(** ** Histories *)
(** The same program, with an empty buffer for every Encode. *)
Definition emptied (o : op) : op := match o with OEncode i _ => OEncode i [] | o => o end.
(** What the caller sees in one step of the two runs: the same, except that the text is behind what the buffer held. *)
Inductive behind : op -> event * N -> event * N -> Prop :=
| BNew k t ev : behind (ONew k t) ev ev
| BText i pre t u : behind (OEncode i pre) (EvText (Some (pre ++ t)), u) (EvText (Some t), u)
| BNoText i pre u : behind (OEncode i pre) (EvText None, u) (EvText None, u)
| BFreeAll ev : behind OFreeAll ev ev
| BFreePart n ev : behind (OFreePart n) ev ev.
Inductive allBehind : list op -> list (event * N) -> list (event * N) -> Prop :=
| ABnil : allBehind [] [] []
| ABcons o x y os xs ys : behind o x y -> allBehind os xs ys -> allBehind (o :: os) (x :: xs) (y :: ys).
Definition sized (x : vobj) : Prop := match x with (WKMsg, Some (WMsg m, _)) => lengthSlot (mHdrs m) | _ => True end.
Lemma sized_survives u x : sized x -> sized (survives u x).
Proof. destruct x as [k [[o top]|]]; [|auto]. cbn [survives]. destruct (top <=? u); [auto|]. destruct k; cbn; auto. Qed.
Lemma sized_setAt vs : forall i x, Forall sized vs -> sized x -> Forall sized (setAt vs i x).
Proof. induction vs as [|y vs IH]; intros i x H Hx; [exact H|]. inversion H; subst. destruct i; cbn [setAt]; constructor; auto. Qed.
Lemma sized_new k e t u o s : wValue k e (mkst t u) = Ok o s -> forall top, sized (k, Some (o, top)).
Proof.
  destruct k as [k| |]; cbn [sized]; auto. cbn [wValue]. intros E top. apply bind_inv in E as (x & s1 & E & F). unfold ret in F. injection F as <- <-. apply bind_inv in E as (y & s2 & _ & E). eapply C36_parsed, E.
Qed.
Lemma sized_left e u h : lengthSlot h -> lengthSlot (leftHdrs e u h).
Proof.
  intros H. unfold leftHdrs. destruct (ensureLength h e (mkst [] u)) as [h1 s1|s1| |] eqn:E; auto. rewrite (ensureLength_ok _ _ _ _ _ H E). pose proof (stated_lt _ H). destruct H as [L _]. split; [unfold withLength; cbn [hsCommon]; now rewrite Seq.setNth_length|].
  right. exists (statedLength h). split; [|assumption]. unfold withLength. cbn [hsCommon]. apply setNth_nth. lia.
Qed.
Lemma encoding_behind e u k o top pre t o' u' : sized (k, Some (o, top)) -> wEncoding e u k o pre = Some (t, o', u') ->
  exists t0, wEncoding e u k o [] = Some (t0, o', u') /\ (forall i, behind (OEncode i pre) (EvText t, u') (EvText t0, u')) /\ forall top', sized (k, Some (o', top')).
Proof.
  intros Hs. destruct k as [k| |], o as [o|l|x]; try discriminate; cbn [wEncoding].
  - intros [= <- <- <-]. eexists. split; [reflexivity|]. split; [intros i; apply BText|]. intros top'. exact Logic.I.
  - intros [= <- <- <-]. eexists. split; [reflexivity|]. split; [intros i; apply BText|]. intros top'. exact Logic.I.
  - cbn [sized] in Hs. rewrite (C64_message e pre x (mkst [] u) Hs). destruct (encMsg [] x e (mkst [] u)) as [[t0 x'] s1|s1| |] eqn:E; [| |discriminate..].
    + destruct (len (pre ++ t0) <? two32) eqn:L; [|discriminate]. intros [= <- <- <-]. apply N.ltb_lt in L. rewrite len_app in L. replace (len t0 <? two32) with true by (symmetry; apply N.ltb_lt; lia).
      eexists. split; [reflexivity|]. split; [intros i; apply BText|]. intros top'. cbn [sized]. destruct (encMsg_text _ _ _ _ _ _ _ Hs E) as (b & _ & S7 & L19 & _). split; [exact L19|]. right. eexists. split; [exact S7|apply stated_lt, Hs].
    + intros [= <- <- <-]. eexists. split; [reflexivity|]. split; [intros i; apply BNoText|]. intros top'. cbn [sized mHdrs]. now apply sized_left.
Qed.
Lemma nth_sized vs i x : Forall sized vs -> nth_error vs i = Some x -> sized x.
Proof. intros H E. rewrite Forall_forall in H. apply H. eapply nth_error_In, E. Qed.
Lemma valRun_behind e : forall ops u vs outs, Forall sized vs -> valRun e u vs ops = Some outs -> exists outs', valRun e u vs (map emptied ops) = Some outs' /\ allBehind ops outs outs'.
Proof.
  assert (Step : forall ev o ops (r : option (list (event * N))) (r' : option (list (event * N))) outs, (forall outs1, r = Some outs1 -> exists outs', r' = Some outs' /\ allBehind ops outs1 outs') -> behind o (fst ev) (snd ev) ->
    option_map (cons (fst ev)) r = Some outs -> exists outs', option_map (cons (snd ev)) r' = Some outs' /\ allBehind (o :: ops) outs outs').
  { intros [x y] o ops r r' outs H Hb E. cbn [fst snd] in *. destruct r as [l|]; [|discriminate]. cbn [option_map] in E. injection E as <-. destruct (H l eq_refl) as (l' & -> & B). eexists. split; [reflexivity|]. now constructor. }
  induction ops as [|o ops IH]; intros u vs outs Hv E; [cbn in E; injection E as <-; exists []; split; [reflexivity|constructor]|].
  destruct o as [k t|i pre| |n]; cbn [map emptied valRun] in *.
  - destruct (wCorner k e t u); [discriminate|]. destruct (wValue k e (mkst t u)) as [o s|s| |] eqn:Ev; [| |discriminate..].
    + assert (Hv' : Forall sized (vs ++ [(k, Some (o, used s))])) by (apply Forall_app; split; [exact Hv|constructor; [exact (sized_new _ _ _ _ _ _ Ev _)|constructor]]).
      apply (Step (_, _) _ _ _ _ _ (fun outs1 H => IH _ _ outs1 Hv' H) (BNew _ _ _) E).
    + assert (Hv' : Forall sized (vs ++ [(k, None)])) by (apply Forall_app; split; [exact Hv|constructor; [destruct k; exact Logic.I|constructor]]).
      apply (Step (_, _) _ _ _ _ _ (fun outs1 H => IH _ _ outs1 Hv' H) (BNew _ _ _) E).
  - destruct (nth_error vs i) as [[k [[o top]|]]|] eqn:En; [|discriminate..]. destruct (ltMem e u && _); [|discriminate]. destruct (wEncoding e u k o pre) as [[[t o'] u']|] eqn:Ew; [|discriminate].
    destruct (encoding_behind _ _ _ _ _ _ _ _ _ (nth_sized _ _ _ Hv En) Ew) as (t0 & Ew' & B & S'). rewrite Ew'.
    apply (Step (_, _) _ _ _ _ _ (fun outs1 H => IH _ _ outs1 (sized_setAt _ _ _ Hv (S' _)) H) (B i) E).
  - assert (Hv' : Forall sized (map (survives 0) vs)) by (apply Forall_map; eapply Forall_impl; [|exact Hv]; intros x; apply sized_survives).
    apply (Step (_, _) _ _ _ _ _ (fun outs1 H => IH _ _ outs1 Hv' H) (BFreeAll _) E).
  - destruct (leMem e (freeTo n u)); [|discriminate]. assert (Hv' : Forall sized (map (survives (freeTo n u)) vs)) by (apply Forall_map; eapply Forall_impl; [|exact Hv]; intros x; apply sized_survives).
    apply (Step (_, _) _ _ _ _ _ (fun outs1 H => IH _ _ outs1 Hv' H) (BFreePart _ _) E).
Qed.
(** Any sequence of operations on the bytes of an arena (as in C49): what the buffers held is kept, is not changed, and has no influence on anything else the caller sees. *)
Theorem C64_history : forall e a ops outs, legal e a -> valRun e (aused a) [] ops = Some outs ->
  memRun e a [] ops = Some outs /\ exists outs', memRun e a [] (map emptied ops) = Some outs' /\ allBehind ops outs outs'.
Proof.
  intros e a ops outs Hl V. split; [now apply C49_world|]. destruct (valRun_behind e ops (aused a) [] outs (Forall_nil _) V) as (outs' & V' & B). exists outs'. split; [now apply C49_world|exact B].
Qed.
Print Assumptions C64_history.
(** A case: the buffer of the first Encode ends in digits where a wrong patch would show, the message of the second one was encoded before. *)
Definition exBuffers : list op := [ONew WKMsg (exLine "SIP/2.0 200 OK" ++ exLine "l: 5" ++ exLine "c: a/b" ++ exLine "" ++ s2b "hello"); OEncode 0 (s2b "Content-Length:          9"); OEncode 0 (s2b ">>")].
Example C64_history_case : exists outs, legal exEnv exArena /\ valRun exEnv 8 [] exBuffers = Some outs /\
  exText 1 outs = Some (s2b "Content-Length:          9" ++ exLine "SIP/2.0 200 OK" ++ exLine "Content-Length:          5" ++ exLine "Content-Type: a/b" ++ exLine "" ++ s2b "hello") /\
  exText 2 outs = Some (s2b ">>" ++ exLine "SIP/2.0 200 OK" ++ exLine "Content-Length:          5" ++ exLine "Content-Type: a/b" ++ exLine "" ++ s2b "hello").
Proof. eexists. split; [repeat split; try (intros; discriminate); cbn; lia|]. split; [vm_compute; reflexivity|]. split; vm_compute; reflexivity. Qed.
