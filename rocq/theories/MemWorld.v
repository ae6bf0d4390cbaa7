(** Histories: any sequence of operations on one arena, on the bytes and in the value layer. *)
From Verif Require Import Base Charset BaseLemmas Num Lws Str Monad Host Uri Arena ArenaProofs Layout Mem MemSim MemTac MemUri MemRep MemEnc MemHostProofs MemUriProofs MemSipUriProofs MemEncProofs MemHistory Tel MemTel MemTelProofs GenParam Addr MemGen MemGenProofs MemAddr MemAddrProofs MethodTree Lookup StartLine Headers RawHeaders Msg MemSteps MemStart MemStartProofs MemHdr MemHdrProofs MemBlocks MemMsg MemMsgProofs MemHeadersProofs MemBodyProofs MemMsgEnc MemMsgEncProofs MemMsgTop Extension P18_Memory.

(** ** On the bytes *)
(** What can be in the arena: a URI, an address, a start line or a header; the list returned by ParseRawHeaders; a message. *)
Inductive wkind := WKObj (k : kind) | WKRaws | WKMsg.
(** [NewX(context)] and [Parse]: SipUri.go:76-78 (NewSipUri) ..., SipMsg.go:109-111 (NewSipMsg); SipHeaders.go:84-118 (ParseRawHeaders). The result is the address. *)
Definition wNew (k : wkind) : M N :=
  match k with
  | WKObj k => newParse kind objSize objParse k
  | WKRaws => mParseRawHeaders
  | WKMsg => p <~ mNew 68 ;; mMsgParse p ;~ mret p
  end.
(** [Encode]: SipHeaderContentLength.go:33-36 (SipHeaderContentLength.Encode) writes to the arena, and so does SipMsg.go:194-254 (SipMsg.Encode). *)
Definition wEncode (k : wkind) (p : N) : E unit :=
  match k with
  | WKObj (KHdr KContentLength) => eText (hName KContentLength) ;= eText (s2b ": ") ;= mEncLength p
  | WKObj k => ePut (objEncode k p)
  | WKRaws => ePut (mEncRawHeaders p)
  | WKMsg => mEncMsg p
  end.
(** The operations: create an object from a text; encode the object created by the [i]-th creation into a buffer that contains [pre]; AbnfMem.go:760-763 (FreeAll);
    AbnfMem.go:765-774 (MemAllocator.FreePart). *)
Inductive op := ONew (k : wkind) (t : bytes) | OEncode (i : nat) (pre : bytes) | OFreeAll | OFreePart (remain : N).
(** What the caller sees: success and what is left of the text; the text written, if Encode succeeded; and after each operation the amount of memory in use. *)
Inductive event := EvNew (ok : bool) (left : bytes) | EvText (t : option bytes) | EvFree.
Fixpoint setAt {A} (l : list A) (i : nat) (x : A) : list A := match l, i with [], _ => [] | _ :: l', O => x :: l' | y :: l', S i' => y :: setAt l' i' x end.
(** The run on the bytes: [os] are the objects created so far (no address: its creation failed). [None]: a crash, or no such object. *)
Fixpoint memRun (e : env) (a : arena) (os : list (wkind * option N)) (ops : list op) : option (list (event * N)) :=
  match ops with
  | [] => Some []
  | ONew k t :: ops' =>
      match wNew k e a t with
      | MOk p a' r => option_map (cons (EvNew true r, aused a')) (memRun e a' (os ++ [(k, Some p)]) ops')
      | MFail a' r => option_map (cons (EvNew false r, aused a')) (memRun e a' (os ++ [(k, None)]) ops')
      | _ => None
      end
  | OEncode i pre :: ops' =>
      match nth_error os i with
      | Some (k, Some p) =>
          match wEncode k p e a pre with
          | EOk _ a' t => option_map (cons (EvText (Some t), aused a')) (memRun e a' os ops')
          | EFail a' _ => option_map (cons (EvText None, aused a')) (memRun e a' os ops')
          | _ => None
          end
      | _ => None
      end
  | OFreeAll :: ops' => option_map (cons (EvFree, aused (FreeAll a))) (memRun e (FreeAll a) os ops')
  | OFreePart n :: ops' => option_map (cons (EvFree, aused (FreePart n a))) (memRun e (FreePart n a) os ops')
  end.

(** ** In the value layer *)
(** The objects are values; of the arena only the number of bytes in use is known. *)
Inductive wobj := WObj (o : obj) | WRaws (l : list raw) | WMsg (x : msg).
Definition wValue (k : wkind) : P wobj :=
  match k with
  | WKObj k => o <- (allocStruct (objSize k) ;;; objValue k) ;; ret (WObj o)
  | WKRaws => l <- parseRawHeaders ;; ret (WRaws l)
  | WKMsg => x <- (allocStruct 68 ;;; parseMsg) ;; ret (WMsg x)
  end.
(** An empty boundary string allocated at the very end of the arena (see C48_boundary_refuted). *)
Definition wCorner (k : wkind) (e : env) (t : bytes) (u : N) : bool := match k with WKMsg => cornerCase e t (u + 68) | _ => false end.
(** An unregistered method, a version other than 2.0 or a protocol other than SIP/2.0: words that are pointers, told apart from numbers by the top bit. *)
Definition wExt (o : wobj) : bool := match o with WObj o => extObj o | WRaws _ => false | WMsg x => extMsg x end.
(** Encode: the text (None: it fails), the object left behind and the memory in use afterwards. *)
Definition wEncoding (e : env) (u : N) (k : wkind) (o : wobj) (pre : bytes) : option (option bytes * wobj * N) :=
  match k, o with
  | WKObj k, WObj v => Some (Some (pre ++ objEncoding e k v), o, u)
  | WKRaws, WRaws l => Some (Some (pre ++ encRawHeaders l), o, u)
  | WKMsg, WMsg x =>
      match encMsg pre x e (mkst [] u) with
      | Ok (t, x') s => if len t <? two32 then Some (Some t, WMsg x', used s) else None
      | Fail s => Some (None, WMsg (mkmsg (mStart x) (leftHdrs e u (mHdrs x)) (mBodies x)), used s)
      | _ => None
      end
  | _, _ => None
  end.
(** An object with the memory in use when it was complete: FreePart to a value below that destroys it. *)
Notation vobj := (wkind * option (wobj * N))%type.
Definition survives (u : N) (x : vobj) : vobj := match x with (k, Some (o, top)) => (k, if top <=? u then Some (o, top) else None) | y => y end.
(** AbnfMem.go:765-774 (MemAllocator.FreePart): [remain] does not count the 8 reserved bytes, but it is compared with a number that does. *)
Definition freeTo (remain u : N) : N := if u <=? remain then u else remain + 8.
(** [None]: a crash, use of an object that does not exist or was destroyed, Encode with an arena full to the last byte, or (for objects with an extension method, version or protocol)
    with more than 32 KB of it in use, or with a text of 4 GB. *)
Fixpoint valRun (e : env) (u : N) (vs : list vobj) (ops : list op) : option (list (event * N)) :=
  match ops with
  | [] => Some []
  | ONew k t :: ops' =>
      if wCorner k e t u then None else
      match wValue k e (mkst t u) with
      | Ok o s => option_map (cons (EvNew true (rest s), used s)) (valRun e (used s) (vs ++ [(k, Some (o, used s))]) ops')
      | Fail s => option_map (cons (EvNew false (rest s), used s)) (valRun e (used s) (vs ++ [(k, None)]) ops')
      | _ => None
      end
  | OEncode i pre :: ops' =>
      match nth_error vs i with
      | Some (k, Some (o, top)) =>
          if ltMem e u && (negb (wExt o) || (u <? 32768)) then
            match wEncoding e u k o pre with
            | Some (t, o', u') => option_map (cons (EvText t, u')) (valRun e u' (setAt vs i (k, Some (o', if u' =? u then top else u'))) ops')
            | None => None
            end
          else None
      | _ => None
      end
  | OFreeAll :: ops' => option_map (cons (EvFree, 8)) (valRun e 8 (map (survives 0) vs) ops')
  | OFreePart n :: ops' => let u' := freeTo n u in if leMem e u' then option_map (cons (EvFree, u')) (valRun e u' (map (survives u') vs) ops') else None
  end.

(** ** The invariant *)
(** The object [o] is at [p]: the set [W] of addresses below [top] has what it needs. *)
Definition wRep (k : wkind) (m : N -> N) (p : N) (W : N -> Prop) (top : N) (o : wobj) : Prop :=
  match k, o with
  | WKObj k, WObj o => exists lo hi, 8 <= p /\ p + objSize k <= lo /\ hi <= top /\ lo <= hi /\ (forall i, p <= i < p + objSize k \/ lo <= i < hi -> W i) /\ objRep k m p lo hi o
  | WKRaws, WRaws l => exists lo hi, 8 <= lo /\ hi <= top /\ (forall i, lo <= i < hi -> W i) /\ repRaws m lo hi p l
  | WKMsg, WMsg x => exists lo hi c, 8 <= p /\ p + 68 <= lo /\ hi <= top /\ placed p lo hi top c /\ (forall i, own p lo hi c i -> W i) /\ hasBoundary x /\ repMsgC m p lo hi c x
  | _, _ => False
  end.
Lemma wRep_frame k m m' p (W : N -> Prop) top o : (forall i, W i -> m' i = m i) -> wRep k m p W top o -> wRep k m' p W top o.
Proof.
  intros A. unfold wRep. destruct k as [k| |], o as [o|l|x]; auto.
  - intros (lo & hi & H1 & H2 & H3 & H4 & H5 & H6). exists lo, hi. do 5 (split; [assumption|]). eapply objRep_frame; [| |exact H6]; intros i Hi; apply A, H5; auto.
  - intros (lo & hi & H1 & H2 & H3 & H4). exists lo, hi. do 3 (split; [assumption|]). eapply repRaws_frame; [|exact H4]. intros i Hi. apply A, H3, Hi.
  - intros (lo & hi & c & H1 & H2 & H3 & H4 & H5 & H6 & H7). exists lo, hi, c. do 6 (split; [assumption|]). eapply repMsgC_frame; [| | |exact H7].
    + intros i Hi. apply A, H5. unfold own. lia.
    + intros i Hi. apply A, H5. unfold own. lia.
    + intros d -> i Hi. apply A, H5. unfold own. lia.
Qed.
Lemma wRep_top k m p (W W' : N -> Prop) top top' o : top <= top' -> (forall i, W i -> W' i) -> wRep k m p W top o -> wRep k m p W' top' o.
Proof.
  intros L S0. unfold wRep. destruct k as [k| |], o as [o|l|x]; auto.
  - intros (lo & hi & H1 & H2 & H3 & H4 & H5 & H6). exists lo, hi. split; [assumption|]. split; [assumption|]. split; [lia|]. auto.
  - intros (lo & hi & H1 & H2 & H3 & H4). exists lo, hi. split; [assumption|]. split; [lia|]. auto.
  - intros (lo & hi & c & H1 & H2 & H3 & H4 & H5 & H6 & H7). exists lo, hi, c. split; [assumption|]. split; [assumption|]. split; [lia|]. split; [destruct c; [cbn [placed] in *; lia|exact Logic.I]|]. auto.
Qed.

(** Creation. *)
Lemma objSize_range k : 0 < objSize k /\ objSize k < 1000.
Proof. destruct k as [| | | |k]; try (cbn; lia). pose proof (hInit_le k). assert (hvalSize k < 1000) by (destruct k; vm_compute; reflexivity). cbn [objSize]. lia. Qed.
Definition span (lo hi : N) : N -> Prop := fun i => lo <= i < hi.
Lemma sim_fact {X A} e (W : N -> Prop) (m : M X) (p : P A) (Q : arena -> X -> A -> Prop) a r : sim e W m p Q a r -> sim e W m p (fun a' x v => Q a' x v /\ exists s, p e (mkst r (aused a)) = Ok v s) a r.
Proof. unfold sim. destruct (p e (mkst r (aused a))) as [v s|s| |]; auto. intros (x & a' & H1 & H2 & H3 & H4). exists x, a'. eauto 7. Qed.
Lemma wNew_sim k e a t : wfA e a -> netLen e -> wCorner k e t (aused a) = false ->
  sim e nowhere (wNew k) (wValue k) (fun a' p o => wRep k (mem a') p (span (aused a) (aused a')) (aused a') o) a t.
Proof.
  intros Hw Hn Hc. num Hw. destruct k as [k| |]; cbn [wNew wValue wCorner] in *.
  - eapply sim_mapR; [apply (sim_newParse kind obj objSize objParse objValue objRep netLen objSize_range) with (k := k); auto; [intros; now apply objParse_sim|apply objRep_frame]|].
    cbv beta. intros a' p o K (-> & H2 & H3). num K. cbn [wRep]. exists (aused a + objSize k), (aused a'). split; [assumption|]. split; [lia|]. split; [lia|]. split; [lia|]. split; [unfold span; lia|exact H3].
  - eapply sim_mapR; [apply sim_parseRawHeaders; exact Hw|]. intros a' p l K HR. num K. cbn [wRep]. exists (aused a), (aused a'). split; [assumption|]. split; [lia|]. split; [auto|exact HR].
  - eapply (sim_mapR e nowhere _ _ WMsg (fun a' p x => hasBoundary x /\ p = aused a /\ p + 68 <= aused a' /\ repMsg (mem a') p (p + 68) (aused a') x)).
    + eapply (sim_bindE e _ nowhere); [apply sim_new; [exact Hw|lia|lia]|exact Hw|slia|]. intros p [] a1 r1 E1 Hw1 K1 (-> & U1 & Z1). num K1. unfold allocStruct in E1. destruct (leMem e _); [|discriminate]. cbn [used rest] in E1. injection E1 as <- E1.
      assert (G : sim e (inR (aused a) 68) (mMsgParse (aused a) ;~ mret (aused a)) (x <- parseMsg ;; ret x) (fun a' p x => hasBoundary x /\ p = aused a /\ p + 68 <= aused a' /\ repMsg (mem a') p (p + 68) (aused a') x) a1 t).
      { eapply (sim_bind e _ (inR (aused a) 68)); [apply sim_fact, sim_msg; [exact Hn|exact Hw1|lia|lia|rewrite U1; exact Hc]|exact Hw1|auto|].
        intros [] v a2 r2 Hw2 K2 (HR & s & Es). num K2. apply sim_ret; [exact Hw2|]. split; [eapply parsed_boundary; exact Es|]. split; [reflexivity|]. split; [lia|]. rewrite <- U1. exact HR. }
      apply (sim_sub e (inR (aused a) 68)); [|intros i Hi Hr; right; unfold inR in Hr; unfold from; lia]. revert G. unfold sim, bind, ret. destruct (parseMsg e _) as [v [sr su]| | |]; exact (fun H => H).
    + intros a' p x K (H1 & -> & H2 & H3). num K. cbn [wRep]. exists (aused a + 68), (aused a'), None. split; [assumption|]. split; [lia|]. split; [lia|]. split; [exact Logic.I|]. split; [unfold own, span; lia|]. split; [exact H1|apply repMsg_C; exact H3].
Qed.

(** Encode. *)
Lemma ltMem_cap e a : wfA e a -> ltMem e (aused a) = true -> aused a < cap a.
Proof. intros (H & _). unfold ltMem. rewrite H. apply N.ltb_lt. Qed.
Lemma objEncode_run k e a p lo hi o : wfA e a -> aused a < cap a -> (extObj o = true -> aused a < 32768) -> 8 <= lo -> hi <= aused a -> objRep k (mem a) p lo hi o -> objEncode k p e a = WOk (objEncoding e k o).
Proof.
  intros Hw Hc H15 H8 Hh HR. destruct k, o; cbn [objRep objEncode objEncoding] in *; try contradiction.
  - eapply enc_sipUri; [exact Hw|exact Hh|lia|exact H8|exact HR].
  - eapply enc_telUri; [exact Hw|exact Hh|lia|exact H8|exact HR].
  - eapply enc_addr; [exact Hw|exact Hh|lia|exact H8|exact HR].
  - eapply MemLine.enc_line; [exact Hw|exact Hh|lia|intros Ex; specialize (H15 Ex); lia|exact H8|exact HR].
  - eapply enc_header; [exact Hw|exact Hh|lia| |exact H8|exact HR]. intros T. specialize (H15 T). lia.
Qed.
Lemma setMem_wf e a m : wfA e a -> wfA e (setMem a m). Proof. exact (fun H => H). Qed.
Lemma wRep_or k m p (W : N -> Prop) u u' top o : top <= u -> u = u' -> wRep k m p W top o -> wRep k m p (fun i => W i \/ span u u' i) (if u' =? u then top else u') o.
Proof. intros L -> H. rewrite N.eqb_refl. eapply wRep_top; [apply N.le_refl| |exact H]. auto. Qed.
Lemma wEncode_step k e a p (W : N -> Prop) top o pre : wfA e a -> aused a < cap a -> (wExt o = true -> aused a < 32768) -> top <= aused a -> wRep k (mem a) p W top o ->
  match wEncoding e (aused a) k o pre with
  | Some (t, o', u') => exists a', match t with Some t => wEncode k p e a pre = EOk tt a' t | None => exists b', wEncode k p e a pre = EFail a' b' end /\ aused a' = u' /\ keeps W a a' /\
      wRep k (mem a') p (fun i => W i \/ span (aused a) u' i) (if u' =? aused a then top else u') o'
  | None => True
  end.
Proof.
  intros Hw Hc H15 Ht HR. num Hw. destruct k as [k| |], o as [o|l|x]; try contradiction; cbn [wEncoding wEncode wExt] in *.
  - pose proof HR as (lo & hi & H1 & H2 & H3 & H4 & H5 & H6). assert (Run : objEncode k p e a = WOk (objEncoding e k o)) by (eapply objEncode_run; [exact Hw|exact Hc|exact H15| | |exact H6]; lia).
    assert (G : (exists a', match k with KHdr KContentLength => eText (hName KContentLength) ;= eText (s2b ": ") ;= mEncLength p | _ => ePut (objEncode k p) end e a pre = EOk tt a' (pre ++ objEncoding e k o) /\ aused a' = aused a /\ keeps W a a' /\ wRep (WKObj k) (mem a') p W top (WObj o))).
    { assert (P : k <> KHdr KContentLength -> match k with KHdr KContentLength => eText (hName KContentLength) ;= eText (s2b ": ") ;= mEncLength p | _ => ePut (objEncode k p) end = ePut (objEncode k p)) by (destruct k as [| | | |[]]; congruence).
      assert (D : {k = KHdr KContentLength} + {k <> KHdr KContentLength}) by (destruct k as [| | | |[]]; (left; reflexivity) || (right; discriminate)). destruct D as [->|D].
      - destruct o as [| | | |v]; cbn [objRep] in H6; try contradiction. destruct (cl_value _ _ _ _ _ _ eq_refl H6) as (n & -> & Hn). cbn [objSize hvalSize] in *.
        set (t := pre ++ objEncoding e (KHdr KContentLength) (OHdr (VNum n))). exists (setMem a (p32 (mem a) (p + 4) (len t mod two32))). split; [|split; [reflexivity|]; split].
        + eapply ebind_ok; [apply ePut_ok; reflexivity|]. eapply ebind_ok; [apply ePut_ok; reflexivity|]. unfold mEncLength. eapply ebind_ok.
          * apply (ePut_ok _ _ _ _ (encContentLength n)). unfold eDeref. replace (cap a <=? p) with false by lia. unfold mEncHVal, eMem. rewrite Hn. reflexivity.
          * eapply ebind_ok; [reflexivity|]. unfold eMemory, set32. assert (Et : ((pre ++ hName KContentLength) ++ s2b ": ") ++ encContentLength n = t) by (unfold t; cbn [objEncoding encHeader encHVal]; unfold encHeader; cbn [encHVal]; rewrite !app3; reflexivity). rewrite Et. reflexivity.
        + split; [reflexivity|]. split; [cbn [aused setMem]; lia|]. split; [cbn [aused setMem]; lia|]. intros i Hi Hn0. cbn [mem setMem]. apply p32_other. unfold inR. intros Hi2. apply Hn0, H5. lia.
        + exists lo, hi. do 4 (split; [assumption|]). split; [assumption|]. cbn [objRep repHVal mem setMem]. rewrite g32_p32_other by lia. exact Hn.
      - exists a. rewrite P by exact D. split; [apply ePut_ok, Run|]. split; [reflexivity|]. split; [eapply keeps_refl; exact Hw|exact HR]. }
    destruct G as (a' & G1 & G2 & G3 & G4). exists a'. split; [exact G1|]. split; [exact G2|]. split; [exact G3|]. apply wRep_or; auto.
  - pose proof HR as (lo & hi & H1 & H2 & H3 & (prev & tr & B & C & _ & V)). exists a. split; [|split; [reflexivity|]; split; [eapply keeps_refl; exact Hw|apply wRep_or; auto]]. apply ePut_ok. eapply (enc_rawHeaders e a hi); [exact Hw|lia|lia|exact H1|].
    exists (iptrs 0 tr). split; [exact C|]. split; [apply (ptrsOf_length (itemOk_in OMsg) _ B)|]. eapply sel_F2; [exact V|]. intros b p0 q v Hin _. pose proof (blocks_in (itemOk_in OMsg) B Hin) as (L1 & L2 & L3). exists b, q. auto.
  - destruct HR as (lo & hi & c & H1 & H2 & H3 & H4 & H5 & H6 & H7). assert (Hp : placed p lo hi (aused a) c) by (destruct c; [cbn [placed] in *; lia|exact Logic.I]).
    pose proof (enc_msg e a p lo hi c x [] pre Hw H1 H2 ltac:(lia) ltac:(lia) ltac:(intros Ex; specialize (H15 Ex); lia) Hp H6 H7) as EM.
    assert (Fin : forall a' c' x', aused a <= aused a' -> placed p lo hi (aused a') c' -> newAt (aused a) c c' -> hasBoundary x' -> repMsgC (mem a') p lo hi c' x' -> wRep WKMsg (mem a') p (fun i => W i \/ span (aused a) (aused a') i) (if aused a' =? aused a then top else aused a') (WMsg x')).
    { intros a' c' x' Lu Q1 Q2 Q3 Q4. exists lo, hi, c'. split; [exact H1|]. split; [exact H2|]. assert (Lc : c' = c \/ aused a' <> aused a) by (destruct Q2 as [->|(_ & d & -> & Ld)]; [now left|right; cbn [placed] in Q1; lia]).
      destruct (N.eqb_spec (aused a') (aused a)) as [E0|E0].
      - destruct Lc as [->|Lc]; [|congruence]. split; [exact H3|]. split; [exact H4|]. split; [intros i Hi; left; apply H5, Hi|]. auto.
      - split; [lia|]. split; [exact Q1|]. split; [|auto]. intros i Hi. destruct Q2 as [->|(-> & d & -> & Ld)]; [left; apply H5, Hi|]. unfold own in Hi. cbn [placed] in Q1. destruct Hi as [Hi|[Hi|Hi]]; [left; apply H5; unfold own; lia|left; apply H5; unfold own; lia|right; unfold span; lia]. }
    destruct (encMsg pre x e (mkst [] (aused a))) as [[t x'] s|s| |]; auto.
    + destruct (N.ltb_spec (len t) two32) as [L|L]; [|exact Logic.I]. destruct (EM L) as (a' & c' & R & U & K & P1 & P2 & P3 & P4). num K. exists a'. split; [exact R|]. split; [exact U|]. split; [eapply keeps_sub; [exact K|intros i _; apply H5]|]. rewrite <- U. eapply Fin; eauto.
    + destruct EM as (a' & b' & c' & R & U & K & P1 & P2 & P3). num K. exists a'. split; [eauto|]. split; [exact U|]. split; [eapply keeps_sub; [exact K|intros i _; apply H5]|]. rewrite <- U. eapply Fin; eauto.
      unfold hasBoundary, hasMulti in *. cbn [mBodies mHdrs]. intros M0. destruct (H6 M0) as (v & q & V1 & V2). exists v, q. split; [|exact V2]. rewrite <- V1. unfold leftHdrs, ensureLength, bind, allocStruct, ret. destruct (contentLengthOf (mHdrs x)); [reflexivity|].
      destruct (leMem e _); [|reflexivity]. unfold contentTypeOf. cbn [hsCommon]. rewrite nth_setNth_other by discriminate. reflexivity.
Qed.

(** ** The run *)
Definition held1 (a : arena) (x : wkind * option N) (v : vobj) (W : N -> Prop) : Prop :=
  fst x = fst v /\ match snd v with
                   | None => forall y, ~ W y
                   | Some (o, top) => exists p, snd x = Some p /\ top <= aused a /\ (forall y, W y -> 8 <= y < top) /\ wRep (fst v) (mem a) p W top o
                   end.
Definition worldInv (a : arena) (os : list (wkind * option N)) (vs : list vobj) : Prop :=
  List.length os = List.length vs /\ exists W : nat -> N -> Prop,
    (forall i x v, nth_error os i = Some x -> nth_error vs i = Some v -> held1 a x v (W i)) /\ (forall i y, (List.length os <= i)%nat -> ~ W i y) /\ (forall i j y, i <> j -> W i y -> W j y -> False).

Lemma held1_keeps a a' x v (W : N -> Prop) (W0 : N -> Prop) : keeps W0 a a' -> (forall y, W y -> ~ W0 y) -> held1 a x v W -> held1 a' x v W.
Proof.
  intros K D (H1 & H2). num K. split; [exact H1|]. destruct (snd v) as [[o top]|]; [|exact H2]. destruct H2 as (p & P1 & P2 & P3 & P4). exists p. split; [exact P1|]. split; [lia|]. split; [exact P3|]. eapply wRep_frame; [|exact P4].
  intros i Hi. destruct K as (_ & _ & _ & K). specialize (P3 i Hi). apply K; [lia|]. now apply D.
Qed.
Lemma held1_below a x v (W : N -> Prop) y : held1 a x v W -> W y -> 8 <= y < aused a.
Proof. intros (_ & H) Hy. destruct (snd v) as [[o top]|]; [|destruct (H y Hy)]. destruct H as (p & _ & P2 & P3 & _). specialize (P3 y Hy). lia. Qed.
Lemma nth_snoc {A} (l : list A) x i y : nth_error (l ++ [x]) i = Some y -> (i < List.length l)%nat /\ nth_error l i = Some y \/ i = List.length l /\ y = x.
Proof.
  intros H. destruct (Nat.lt_ge_cases i (List.length l)) as [L|L]; [left; rewrite nth_error_app1 in H by exact L; auto|]. right. rewrite nth_error_app2 in H by exact L. destruct (i - List.length l)%nat as [|n] eqn:Ed; [|destruct n; discriminate].
  injection H as <-. split; [lia|reflexivity].
Qed.
Lemma world_add a a' os vs k po vo (W0 : N -> Prop) : worldInv a os vs -> keeps nowhere a a' -> held1 a' (k, po) (k, vo) W0 -> (forall y, W0 y -> aused a <= y) -> worldInv a' (os ++ [(k, po)]) (vs ++ [(k, vo)]).
Proof.
  intros (L & W & H1 & H2 & H3) K H0 B. split; [rewrite !app_length; cbn; lia|]. exists (fun i => if Nat.eqb i (List.length os) then W0 else W i).
  assert (Bl : forall i y, W i y -> y < aused a).
  { intros i y Hy. destruct (nth_error os i) as [x|] eqn:Ex; [|apply nth_error_None in Ex; destruct (H2 i y Ex Hy)]. destruct (nth_error vs i) as [v|] eqn:Ev; [|apply nth_error_None in Ev; rewrite <- L in Ev; destruct (H2 i y Ev Hy)].
    pose proof (held1_below _ _ _ _ _ (H1 i x v Ex Ev) Hy). lia. }
  split; [|split].
  - intros i x v Ex Ev. apply nth_snoc in Ex as [(I1 & Ex)|(-> & ->)]; apply nth_snoc in Ev as [(I2 & Ev)|(I2 & ->)]; try lia.
    + replace (Nat.eqb i (List.length os)) with false by (symmetry; apply Nat.eqb_neq; lia). eapply held1_keeps; [exact K|intros ? _ []|eauto].
    + rewrite Nat.eqb_refl. exact H0.
  - intros i y Hi. rewrite app_length in Hi. cbn in Hi. replace (Nat.eqb i (List.length os)) with false by (symmetry; apply Nat.eqb_neq; lia). apply H2. lia.
  - intros i j y Hij. destruct (Nat.eqb_spec i (List.length os)) as [Ei|Ei], (Nat.eqb_spec j (List.length os)) as [Ej|Ej]; [congruence| | |].
    + intros Y1 Y2. specialize (B y Y1). specialize (Bl j y Y2). lia.
    + intros Y1 Y2. specialize (B y Y2). specialize (Bl i y Y1). lia.
    + apply (H3 i j y Hij).
Qed.
Lemma setAt_length {A} (l : list A) i x : List.length (setAt l i x) = List.length l.
Proof. revert i. induction l as [|y l IH]; intros [|i]; cbn; auto. Qed.
Lemma nth_setAt {A} (l : list A) i j x y : nth_error (setAt l i x) j = Some y -> i = j /\ y = x \/ i <> j /\ nth_error l j = Some y.
Proof.
  revert i j. induction l as [|z l IH]; intros [|i] [|j]; cbn; try discriminate; auto.
  - intros E. injection E as <-. auto.
  - intros E. destruct (IH _ _ E) as [(-> & ->)|(H1 & H2)]; auto.
Qed.
Lemma nth_survives u vs i v : nth_error (map (survives u) vs) i = Some v -> exists v0, nth_error vs i = Some v0 /\ v = survives u v0.
Proof. rewrite nth_error_map. destruct (nth_error vs i) as [v0|]; [|discriminate]. cbn. intros E. injection E as <-. eauto. Qed.
Lemma world_free a a' os vs : worldInv a os vs -> mem a' = mem a -> (forall u, u = aused a' -> worldInv a' os (map (survives u) vs)).
Proof.
  intros (L & W & H1 & H2 & H3) Em u ->. split; [rewrite map_length; exact L|].
  exists (fun i y => W i y /\ match nth_error vs i with Some (_, Some (_, top)) => top <= aused a' | _ => False end). split; [|split].
  - intros i x v Ex Ev. apply nth_survives in Ev as (v0 & Ev & ->). specialize (H1 i x v0 Ex Ev). rewrite Ev. destruct v0 as [k [[o top]|]]; cbn [survives fst snd].
    + destruct H1 as (E1 & (p & P1 & P2 & P3 & P4)). cbn [fst snd] in *. destruct (N.leb_spec top (aused a')) as [Lt|Lt].
      * split; [exact E1|]. exists p. split; [exact P1|]. split; [exact Lt|]. split; [intros y (Y & _); auto|]. rewrite Em. eapply wRep_top; [apply N.le_refl| |exact P4]. auto.
      * split; [exact E1|]. intros y (_ & Y). lia.
    + destruct H1 as (E1 & H1). split; [exact E1|]. intros y (Y & _). destruct (H1 y Y).
  - intros i y Hi (Y & _). destruct (H2 i y Hi Y).
  - intros i j y Hij (Y1 & _) (Y2 & _). exact (H3 i j y Hij Y1 Y2).
Qed.

Theorem world e : netLen e -> forall ops a os vs outs, wfA e a -> worldInv a os vs -> valRun e (aused a) vs ops = Some outs -> memRun e a os ops = Some outs.
Proof.
  intros Hn. induction ops as [|o ops IH]; intros a os vs outs Hw HI; cbn [valRun memRun]; [auto|]. num Hw. destruct o as [k t|i pre| |n].
  - destruct (wCorner k e t (aused a)) eqn:Ec; [discriminate|]. pose proof (wNew_sim k e a t Hw Hn Ec) as S0. unfold sim in S0. destruct (wValue k e (mkst t (aused a))) as [v s|s| |]; try discriminate.
    + destruct S0 as (p & a1 & -> & U & K & HR). pose proof (keeps_wf _ _ _ _ Hw K) as Hw1. num K. rewrite <- U. intros E0. destruct (valRun e (aused a1) _ ops) as [outs'|] eqn:Ev; [|discriminate]. rewrite (IH a1 (os ++ [(k, Some p)]) _ outs' Hw1) with (2 := Ev); [exact E0|].
      eapply world_add; [exact HI|exact K| |]; [split; [reflexivity|]; cbn [fst snd]; exists p; split; [reflexivity|]; split; [apply N.le_refl|]; split; [|exact HR]|]; unfold span; lia.
    + destruct S0 as (a1 & -> & U & K). pose proof (keeps_wf _ _ _ _ Hw K) as Hw1. rewrite <- U. intros E0. destruct (valRun e (aused a1) _ ops) as [outs'|] eqn:Ev; [|discriminate]. rewrite (IH a1 (os ++ [(k, None)]) _ outs' Hw1) with (2 := Ev); [exact E0|].
      eapply (world_add a a1 os vs k None None (fun _ => False)); [exact HI|exact K|split; [reflexivity|]; cbn; auto|intros y []].
  - destruct (nth_error vs i) as [[k [[v top]|]]|] eqn:Ei; try discriminate. destruct (ltMem e (aused a) && (negb (wExt v) || (aused a <? 32768))) eqn:Ec; [|discriminate]. apply andb_prop in Ec as (C1 & C2). apply (ltMem_cap e a Hw) in C1.
    pose proof HI as (L & W & H1 & H2 & H3). destruct (nth_error os i) as [[k' po]|] eqn:Eo; [|apply nth_error_None in Eo; assert (nth_error vs i <> None) by congruence; apply nth_error_Some in H; lia].
    pose proof (H1 i _ _ Eo Ei) as (Ek & (p & Ep & P2 & P3 & P4)). cbn [fst snd] in *. subst k' po.
    assert (C3 : wExt v = true -> aused a < 32768) by (intros Et; rewrite Et in C2; cbn in C2; now apply N.ltb_lt). pose proof (wEncode_step k e a p (W i) top v pre Hw C1 C3 P2 P4) as SE.
    destruct (wEncoding e (aused a) k v pre) as [[[t v'] u']|]; [|discriminate]. destruct SE as (a1 & R & U & K & HR). pose proof (keeps_wf _ _ _ _ Hw K) as Hw1. num K.
    assert (HI1 : worldInv a1 os (setAt vs i (k, Some (v', if u' =? aused a then top else u')))).
    { split; [rewrite setAt_length; exact L|]. exists (fun j => if Nat.eqb j i then (fun y => W i y \/ span (aused a) u' y) else W j).
      assert (Bl : forall j y, j <> i -> W j y -> y < aused a).
      { intros j y Hj Hy. destruct (nth_error os j) as [x|] eqn:Ex; [|apply nth_error_None in Ex; destruct (H2 j y Ex Hy)]. destruct (nth_error vs j) as [w|] eqn:Ev; [|apply nth_error_None in Ev; rewrite <- L in Ev; destruct (H2 j y Ev Hy)].
        pose proof (held1_below _ _ _ _ _ (H1 j x w Ex Ev) Hy). lia. }
      split; [|split].
      - intros j x w Ex Ew. apply nth_setAt in Ew as [(<- & ->)|(Hij & Ew)].
        + rewrite Nat.eqb_refl. rewrite Eo in Ex. injection Ex as <-. split; [reflexivity|]. cbn [fst snd]. exists p. split; [reflexivity|]. split; [destruct (u' =? aused a); lia|]. split; [|exact HR].
          intros y [Y|Y]; [specialize (P3 y Y)|]; unfold span in *; destruct (N.eqb_spec u' (aused a)); lia.
        + replace (Nat.eqb j i) with false by (symmetry; apply Nat.eqb_neq; congruence). eapply held1_keeps; [exact K| |eauto]. intros y Y1 Y2. exact (H3 j i y ltac:(congruence) Y1 Y2).
      - intros j y Hj. replace (Nat.eqb j i) with false; [apply H2; exact Hj|]. symmetry. apply Nat.eqb_neq. intros ->. assert (nth_error os i <> None) by congruence. apply nth_error_Some in H. lia.
      - intros j1 j2 y Hij. destruct (Nat.eqb_spec j1 i) as [E1|E1], (Nat.eqb_spec j2 i) as [E2|E2]; [congruence| | |apply (H3 j1 j2 y Hij)].
        + intros [Y1|Y1] Y2; [apply (H3 i j2 y ltac:(congruence) Y1 Y2)|]. specialize (Bl j2 y E2 Y2). unfold span in Y1. lia.
        + intros Y2 [Y1|Y1]; [apply (H3 j1 i y ltac:(congruence) Y2 Y1)|]. specialize (Bl j1 y E1 Y2). unfold span in Y1. lia. }
    rewrite <- U in *. intros E0. destruct (valRun e (aused a1) _ ops) as [outs'|] eqn:Ev; [|discriminate]. pose proof (IH a1 os _ outs' Hw1 HI1 Ev) as IH1.
    destruct t as [t|]; [rewrite R, IH1; exact E0|]. destruct R as (b' & R). rewrite R, IH1. exact E0.
  - assert (Hw1 : wfA e (FreeAll a)) by (destruct Hw as (W1 & W2 & W3 & W4); unfold wfA, FreeAll; cbn; repeat split; auto; unfold PREFIX_LEN; lia). intros E0. change (aused (FreeAll a)) with 8.
    destruct (valRun e 8 (map (survives 0) vs) ops) as [outs'|] eqn:Ev; [|discriminate]. rewrite (IH (FreeAll a) os (map (survives 0) vs) outs' Hw1); [exact E0| |exact Ev].
    pose proof (world_free a (mkA (mem a) (cap a) 0 0 0 0 0 0) os vs HI eq_refl 0 eq_refl) as (L & W & H1 & H2 & H3). split; [exact L|]. exists W. split; [|split; [exact H2|exact H3]].
    intros i x v Ex Ev'. specialize (H1 i x v Ex Ev'). destruct H1 as (E1 & H1). split; [exact E1|]. destruct (snd v) as [[o top]|]; [|exact H1]. destruct H1 as (p & P1 & P2 & P3 & P4). exists p. split; [exact P1|]. split; [cbn [aused] in P2; cbn; lia|]. auto.
  - cbv zeta. destruct (leMem e (freeTo n (aused a))) eqn:El; [|discriminate]. unfold leMem in El. rewrite (proj1 Hw) in El. apply N.leb_le in El.
    assert (Eu : aused (FreePart n a) = freeTo n (aused a)).
    { unfold FreePart, freeTo in *. destruct (N.leb_spec (aused a) n) as [L|L]; [reflexivity|]. assert (E8 : u32 (n + PREFIX_LEN) = n + 8) by (unfold u32, PREFIX_LEN; apply N.mod_small; unfold two32; lia). rewrite E8. replace (n + 8 <? PREFIX_LEN) with false by (unfold PREFIX_LEN; lia). reflexivity. }
    assert (Em : mem (FreePart n a) = mem a /\ cap (FreePart n a) = cap a) by (unfold FreePart; destruct (aused a <=? n); [auto|]; destruct (u32 (n + PREFIX_LEN) <? PREFIX_LEN); auto). destruct Em as (Em & Ecap).
    assert (Hw1 : wfA e (FreePart n a)) by (destruct Hw as (W1 & W2 & W3 & W4); unfold wfA; rewrite Eu, Ecap; unfold freeTo in *; destruct (aused a <=? n); repeat split; auto; lia).
    intros E0. rewrite <- Eu in *. destruct (valRun e (aused (FreePart n a)) _ ops) as [outs'|] eqn:Ev; [|discriminate]. rewrite (IH (FreePart n a) os _ outs' Hw1) with (2 := Ev); [exact E0|]. eapply world_free; [exact HI|exact Em|reflexivity].
Qed.
