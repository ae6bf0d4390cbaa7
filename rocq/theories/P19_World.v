(** C48 (messages) and C49: messages and header lists in the memory of the arena; histories of operations. *)
From Verif Require Import Base Charset BaseLemmas Num Lws Str Monad Host Uri Arena ArenaProofs Layout Mem MemSim MemTac MemUri MemRep MemEnc MemHostProofs MemUriProofs MemSipUriProofs MemEncProofs MemHistory Tel MemTel MemTelProofs GenParam Addr MemGen MemGenProofs MemAddr MemAddrProofs MethodTree Lookup StartLine Headers RawHeaders Msg MemSteps MemStart MemStartProofs MemHdr MemHdrProofs MemBlocks MemMsg MemMsgProofs MemHeadersProofs MemBodyProofs MemMsgEnc MemMsgEncProofs MemMsgTop Extension P18_Memory MemWorld.
From Coq Require Import String.
Open Scope N_scope.


(** The offsets of SipMsg, SipMsgBody and the header nodes are those of the Go structs. *)
Theorem C48_msg_offsets :
  offs tMsg = [("startLine", 0); ("commonHeaders", 20); ("commonBodies", 58); ("headers", 64); ("bodies", 66)]%string /\ sizeOf tMsg = 68 /\
  offs tMsgBody = [("id", 0); ("body", 4); ("headers", 6); ("next", 8); ("commonHeaders", 10)]%string /\ sizeOf tMsgBody = 16 /\
  offs tSipHeader = [("id", 0); ("hname", 2); ("hvalue", 4); ("next", 6)]%string /\ sizeOf tSipHeader = 8 /\
  (slotsOff OMsg, rawOff OMsg) = (20, 64) /\ (slotsOff OBody, rawOff OBody) = (10, 6).
Proof. repeat split. Qed.
Print Assumptions C48_msg_offsets.

(** SipMsg.Parse on a struct in the arena, whatever it contained: same answer, same position and same arena usage as the value layer; on success the arena
    represents the message; no other allocated byte changes. The exception is [cornerCase]. *)
Theorem C48_message_parse : forall e a r this, legal e a -> allocated a this 68 -> cornerCase e r (aused a) = false ->
  match parseMsg e (mkst r (aused a)) with
  | Ok x s => exists a', mMsgParse this e a r = MOk tt a' (rest s) /\ aused a' = used s /\ touchesOnly this 68 a a' /\ repMsg (mem a') this (aused a) (aused a') x
  | Fail s => exists a', mMsgParse this e a r = MFail a' (rest s) /\ aused a' = used s /\ touchesOnly this 68 a a'
  | Panic => bigTables e = false -> mMsgParse this e a r = MPanic
  | Loop => mMsgParse this e a r = MLoop
  end.
Proof.
  intros e a r this Hl (H8 & Ha) Hc. apply legal_wfA in Hl as (Hw & Hn). pose proof (sim_msg e this a r Hn Hw H8 Ha Hc) as G.
  unfold sim in G. destruct (parseMsg e _) as [u s|s| |]; auto. destruct G as (x & a' & G1 & G2 & G3 & G4). destruct x. exists a'. auto.
Qed.
Print Assumptions C48_message_parse.

(** ParseRawHeaders: it creates its objects itself, so that it changes no allocated byte. *)
Theorem C48_raw_headers_parse : forall e a r, legal e a ->
  match parseRawHeaders e (mkst r (aused a)) with
  | Ok l s => exists p a', mParseRawHeaders e a r = MOk p a' (rest s) /\ aused a' = used s /\ touchesOnly 0 0 a a' /\ (aused a' < cap a' -> mEncRawHeaders p e a' = WOk (encRawHeaders l))
  | Fail s => exists a', mParseRawHeaders e a r = MFail a' (rest s) /\ aused a' = used s /\ touchesOnly 0 0 a a'
  | Panic => bigTables e = false -> mParseRawHeaders e a r = MPanic
  | Loop => mParseRawHeaders e a r = MLoop
  end.
Proof.
  intros e a r Hl. apply legal_wfA in Hl as (Hw & Hn). num Hw. pose proof (sim_parseRawHeaders e a r Hw) as G. unfold sim in G. destruct (parseRawHeaders e _) as [l s|s| |]; auto.
  - destruct G as (p & a' & G1 & G2 & G3 & HR). exists p, a'. num G3. split; [exact G1|]. split; [exact G2|]. split; [eapply keeps_sub; [exact G3|intros i _ []]|].
    intros Hc. pose proof (keeps_wf _ _ _ _ Hw G3) as Hw'. destruct HR as (prev & tr & B & C & _ & V). apply (enc_rawHeaders e a' (aused a') Hw' ltac:(lia) ltac:(lia) (aused a)); [lia|].
    exists (iptrs 0 tr). split; [exact C|]. split; [apply (ptrsOf_length (itemOk_in OMsg) _ B)|]. eapply sel_F2; [exact V|]. intros b p0 q v Hin _. pose proof (blocks_in (itemOk_in OMsg) B Hin) as (L1 & L2 & L3). exists b, q. auto.
  - destruct G as (a' & G1 & G2 & G3). exists a'. split; [exact G1|]. split; [exact G2|]. eapply keeps_sub; [exact G3|intros i _ []].
Qed.
Print Assumptions C48_raw_headers_parse.

(** SipMsg.Encode of a message that the arena represents (in the first [hi] bytes of the arena, of which [c] is where a Content-Length header that Encode
    added is): the text, the memory used and the message left behind are those of the value layer, and no byte that is not the message's own changes. *)
Theorem C48_message_encode : forall e a this lo hi c x b, legal e a -> allocated a this 68 -> this + 68 <= lo -> hi <= aused a -> hi < cap a -> (extMsg x = true -> hi < 32768) ->
  placed this lo hi (aused a) c -> hasBoundary x -> repMsgC (mem a) this lo hi c x ->
  match encMsg b x e (mkst [] (aused a)) with
  | Ok (t, x') s => len t < two32 -> exists a' c', mEncMsg this e a b = EOk tt a' t /\ aused a' = used s /\ repMsgC (mem a') this lo hi c' x' /\
      (forall i, 8 <= i < aused a -> ~ own this lo hi c i -> mem a' i = mem a i)
  | Fail s => exists a' b' c', mEncMsg this e a b = EFail a' b' /\ aused a' = used s /\ repMsgC (mem a') this lo hi c' (mkmsg (mStart x) (leftHdrs e (aused a) (mHdrs x)) (mBodies x)) /\
      (forall i, 8 <= i < aused a -> ~ own this lo hi c i -> mem a' i = mem a i)
  | _ => False
  end.
Proof.
  intros e a this lo hi c x b Hl (H8 & Ha) L1 L2 L3 L4 HP HB HR. apply legal_wfA in Hl as (Hw & Hn). pose proof (enc_msg e a this lo hi c x [] b Hw H8 L1 L2 L3 L4 HP HB HR) as G.
  destruct (encMsg b x e _) as [[t x'] s|s| |]; auto.
  - intros Lt. destruct (G Lt) as (a' & c' & G1 & G2 & G3 & G4 & G5 & G6 & G7). exists a', c'. split; [exact G1|]. split; [exact G2|]. split; [exact G7|]. apply G3.
  - destruct G as (a' & b' & c' & G1 & G2 & G3 & G4 & G5 & G6). exists a', b', c'. split; [exact G1|]. split; [exact G2|]. split; [exact G6|]. apply G3.
Qed.
Print Assumptions C48_message_encode.

(** The exception is real: an empty boundary after which not one byte of the arena is left. Its address is the end of the arena and reading it crashes; with
    one byte more the same message is refused, as the value layer says in both cases (its body has no delimiter). *)
Theorem C48_boundary_refuted :
  let t := s2b "INFO sip:a@h SIP/2.0" ++ [13; 10] ++ s2b "c: multipart/x;boundary=a;boundary=""""" ++ [13; 10; 13; 10] ++ s2b "x" in
  let a n := mkA (fun _ => 7) n 8 0 0 0 0 0 in
  legal (defaultEnv (Some 165)) (a 165) /\ wNew WKMsg (defaultEnv (Some 165)) (a 165) t = MPanic /\ wValue WKMsg (defaultEnv (Some 165)) (mkst t 8) = Fail (mkst (s2b "x") 165) /\
  exists a', wNew WKMsg (defaultEnv (Some 166)) (a 166) t = MFail a' (s2b "x") /\ wValue WKMsg (defaultEnv (Some 166)) (mkst t 8) = Fail (mkst (s2b "x") 165).
Proof.
  cbv zeta. split; [repeat split; try (intros; discriminate); cbn; lia|]. split; [vm_compute; reflexivity|]. split; [vm_compute; reflexivity|]. eexists. split; vm_compute; reflexivity.
Qed.
Print Assumptions C48_boundary_refuted.

(** ** C49 *)
(** Any sequence of operations on a fresh arena, whatever bytes it contains: as long as the value layer gives a result (no crash, no use of an object that failed or was
    destroyed, see [valRun]), the run on the bytes shows the caller exactly that. *)
Theorem C49_world : forall e a ops outs, legal e a -> valRun e (aused a) [] ops = Some outs -> memRun e a [] ops = Some outs.
Proof.
  intros e a ops outs Hl. apply legal_wfA in Hl as (Hw & Hn). apply world; [exact Hn|exact Hw|]. split; [reflexivity|]. exists (fun _ _ => False). split; [|auto]. intros [|i] x v E; discriminate.
Qed.
Print Assumptions C49_world.

(** What the arena contained before does not show. *)
Corollary C49_garbage : forall e a a' ops outs, legal e a -> legal e a' -> aused a' = aused a -> valRun e (aused a) [] ops = Some outs -> memRun e a [] ops = memRun e a' [] ops.
Proof. intros e a a' ops outs H H' U V. rewrite (C49_world e a ops outs H V). symmetry. apply C49_world; [exact H'|]. now rewrite U. Qed.
Print Assumptions C49_garbage.

(** [ops] does not encode the object [i], and gives back no memory below [top]. *)
Definition spares (i : nat) (top : N) (o : op) : Prop := match o with ONew _ _ => True | OEncode j _ => j <> i | OFreeAll => False | OFreePart n => top <= n end.
(** The memory in use never shrinks, and stays within the arena. *)
Definition grows {A} (p : P A) : Prop := forall e c r u, memend e = Some c -> u <= c -> match p e (mkst r u) with Ok _ s | Fail s => u <= used s /\ used s <= c | _ => True end.
Lemma grows_ret {A} (x : A) : grows (ret x). Proof. intros e c r u _ L. cbn. lia. Qed.
Lemma grows_fail {A} : grows (@pfail A). Proof. intros e c r u _ L. cbn. lia. Qed.
Lemma grows_bind {A B} (p : P A) (f : A -> P B) : grows p -> (forall x, grows (f x)) -> grows (bind p f).
Proof.
  intros H1 H2 e c r u M0 L. unfold bind. specialize (H1 e c r u M0 L). destruct (p e (mkst r u)) as [x [r1 u1]|s| |]; auto. cbn [used] in H1. specialize (H2 x e c r1 u1 M0 ltac:(lia)). destruct (f x e _); auto; lia.
Qed.
Lemma grows_struct n : grows (allocStruct n).
Proof. intros e c r u M0 L. unfold allocStruct, leMem. rewrite M0. cbn [used rest]. destruct (N.leb_spec (u + n) c); cbn [used]; lia. Qed.
Lemma grows_str b : grows (allocCString b).
Proof. intros e c r u M0 L. unfold allocCString, leMem. rewrite M0. cbn [used rest]. destruct (N.leb_spec (u + (len b + 2)) c); cbn [used]; lia. Qed.
Lemma wEncoding_grows e c u k o pre t o' u' : memend e = Some c -> u <= c -> wEncoding e u k o pre = Some (t, o', u') -> u <= u' /\ u' <= c.
Proof.
  intros M0 L. destruct k as [k| |], o as [o|l|x]; cbn [wEncoding]; try discriminate; try (intros E; injection E as <- <- <-; lia).
  assert (G : grows (encMsg pre x)).
  { unfold encMsg. intros e' c' r' w M1 L1. unfold withEnv. cbv beta.
    eapply (grows_bind (ensureLength (mHdrs x))); [unfold ensureLength; destruct (contentLengthOf (mHdrs x)); [apply grows_ret|apply grows_bind; [apply grows_struct|intros; apply grows_ret]]| |exact M1|exact L1].
    intros h1. apply grows_bind.
    - destruct (hasMulti x); [|apply grows_ret]. unfold findOrCreateBoundary. apply grows_bind.
      + destruct (contentTypeOf h1); [apply grows_ret|]. repeat first [apply grows_ret|apply grows_bind; [first [apply grows_struct|apply grows_str]|intros]].
      + intros v. apply grows_bind; [|intros; apply grows_ret]. destruct (boundaryParam v) as [p|]; [destruct (gvalueText (gpValue p)); [apply grows_ret|apply grows_fail]|]. unfold setBoundary.
        destruct v as [ad t1 ps| |pr tr hp t1 ps|n mt|rr c0 mt|n|mn sb t1 ps|d t1 ps|w0 w2]; try apply grows_fail. apply grows_bind; [destruct t1; [apply grows_ret|apply grows_struct]|intros]. repeat first [apply grows_ret|apply grows_bind; [first [apply grows_struct|apply grows_str]|intros]].
    - intros hb. cbv zeta. destruct (mBodies x); apply grows_ret. }
  specialize (G e c [] u M0 L). destruct (encMsg pre x e (mkst [] u)) as [[t0 x0] s|s| |]; try discriminate.
  - destruct (len t0 <? two32); [|discriminate]. intros E. injection E as <- <- <-. exact G.
  - intros E. injection E as <- <- <-. exact G.
Qed.
Lemma wValue_grows k e c t u : netLen e -> memend e = Some c -> c < 65536 -> 8 <= u -> u <= c -> wCorner k e t u = false -> match wValue k e (mkst t u) with Ok _ s | Fail s => u <= used s /\ used s <= c | _ => True end.
Proof.
  intros Hn M0 L1 L2 L3 Hc. pose proof (wNew_sim k e (mkA (fun _ => 0) c u 0 0 0 0 0) t) as S0. cbn [aused] in S0. unfold sim in S0. specialize (S0 ltac:(repeat split; auto) Hn Hc). cbn [aused] in S0.
  destruct (wValue k e (mkst t u)) as [x s|s| |]; auto.
  - destruct S0 as (p & a' & _ & U & K & _). num K. cbn [aused cap] in *. lia.
  - destruct S0 as (a' & _ & U & K). num K. cbn [aused cap] in *. lia.
Qed.
Lemma setAt_other {A} (l : list A) i j x : i <> j -> nth_error (setAt l i x) j = nth_error l j.
Proof. revert i j. induction l as [|z l IH]; intros [|i] [|j] H; cbn; auto; [congruence]. Qed.
Lemma valRun_spared e c i k v top ops2 : netLen e -> memend e = Some c -> c < 65536 -> forall ops1 u vs outs, 8 <= u <= c -> Forall (spares i top) ops1 -> nth_error vs i = Some (k, Some (v, top)) -> top <= u -> valRun e u vs (ops1 ++ ops2) = Some outs ->
  exists outs1 outs2 u' vs', outs = outs1 ++ outs2 /\ List.length outs1 = List.length ops1 /\ valRun e u' vs' ops2 = Some outs2 /\ nth_error vs' i = Some (k, Some (v, top)) /\ top <= u'.
Proof.
  intros Hn M0 Lc. induction ops1 as [|o ops1 IH]; intros u vs outs Hu HF Hi Lu; cbn [app]; [intros E; exists [], outs, u, vs; auto|]. inversion HF as [|? ? Ho HF']; subst. cbn [valRun].
  assert (Done : forall x u1 vs1, nth_error vs1 i = Some (k, Some (v, top)) -> 8 <= u1 <= c -> top <= u1 -> option_map (cons x) (valRun e u1 vs1 (ops1 ++ ops2)) = Some outs ->
    exists outs1 outs2 u' vs', outs = outs1 ++ outs2 /\ List.length outs1 = List.length (o :: ops1) /\ valRun e u' vs' ops2 = Some outs2 /\ nth_error vs' i = Some (k, Some (v, top)) /\ top <= u').
  { intros x u1 vs1 H1 H2 L1 E. destruct (valRun e u1 vs1 (ops1 ++ ops2)) as [o1|] eqn:E1; [|discriminate]. injection E as <-. destruct (IH u1 vs1 o1 H2 HF' H1 L1 E1) as (q1 & q2 & u' & vs' & -> & Q1 & Q2 & Q3 & Q4). exists (x :: q1), q2, u', vs'. cbn [List.length app]. rewrite Q1. auto. }
  assert (Hl : (i < List.length vs)%nat) by (apply nth_error_Some; congruence).
  destruct o as [k0 t|j pre| |n]; cbn [spares] in Ho.
  - destruct (wCorner k0 e t u) eqn:Ec; [discriminate|]. pose proof (wValue_grows k0 e c t u Hn M0 Lc ltac:(lia) ltac:(lia) Ec) as G. destruct (wValue k0 e (mkst t u)) as [w s|s| |]; try discriminate; apply Done; try lia; now rewrite nth_error_app1.
  - destruct (nth_error vs j) as [[k1 [[w top1]|]]|]; try discriminate. destruct (ltMem e u && _); [|discriminate]. destruct (wEncoding e u k1 w pre) as [[[t w'] u1]|] eqn:Ew; [|discriminate]. pose proof (wEncoding_grows e c u _ _ _ _ _ _ M0 (proj2 Hu) Ew).
    apply Done; [|lia|lia]. rewrite setAt_other; auto.
  - contradiction.
  - cbv zeta. destruct (leMem e (freeTo n u)) eqn:El; [|discriminate]. unfold leMem in El. rewrite M0 in El. apply N.leb_le in El. assert (L1 : top <= freeTo n u /\ 8 <= freeTo n u) by (unfold freeTo in *; destruct (N.leb_spec u n); lia). apply Done; [|lia|lia]. rewrite nth_error_map, Hi. cbn [option_map survives].
    replace (top <=? freeTo n u) with true by lia. reflexivity.
Qed.
(** An object is not affected by what happens later to others: created first, then any operations that spare it, then encoded: the text is the encoding of what the text it was
    created from means. *)
Theorem C49_undisturbed : forall e a k t mid pre o s outs, legal e a -> wValue k e (mkst t (aused a)) = Ok o s -> Forall (spares 0 (used s)) mid ->
  valRun e (aused a) [] (ONew k t :: mid ++ [OEncode 0 pre]) = Some outs ->
  exists u text o' u', memRun e a [] (ONew k t :: mid ++ [OEncode 0 pre]) = Some outs /\ wEncoding e u k o pre = Some (text, o', u') /\ nth_error outs (S (List.length mid)) = Some (EvText text, u').
Proof.
  intros e a k t mid pre o s outs Hl Hv HF E. pose proof (C49_world _ _ _ _ Hl E) as R. pose proof Hl as (M0 & Lc & L1 & L2 & Hn). cbn [valRun] in E. destruct (wCorner k e t (aused a)) eqn:Ec; [discriminate|].
  pose proof (wValue_grows k e _ t _ Hn M0 Lc L1 L2 Ec) as G. rewrite Hv in *. destruct (valRun e (used s) _ _) as [outs'|] eqn:Ev; [|discriminate]. injection E as <-.
  destruct (valRun_spared e (cap a) 0 k o (used s) [OEncode 0 pre] Hn M0 Lc mid (used s) [(k, Some (o, used s))] outs' ltac:(lia) HF eq_refl ltac:(lia) Ev) as (q1 & q2 & u' & vs' & -> & Lq & Q2 & Q3 & Q4).
  cbn [valRun] in Q2. rewrite Q3 in Q2. destruct (ltMem e u' && _); [|discriminate]. destruct (wEncoding e u' k o pre) as [[[text o'] u1]|] eqn:Ew; [|discriminate]. injection Q2 as <-.
  exists u', text, o', u1. split; [exact R|]. split; [exact Ew|]. cbn [nth_error]. rewrite nth_error_app2 by lia. rewrite Lq, Nat.sub_diag. reflexivity.
Qed.
Print Assumptions C49_undisturbed.

(** Two messages (a multipart one; one without Content-Length, encoded twice), a header, a list of raw headers and a text that is no URI; then the memory of the last two objects is given
    back and used again, and everything still there is encoded again. *)
Definition exLine (s : string) : bytes := s2b s ++ [13; 10].
Definition exMulti : bytes := exLine "INVITE sip:b@h SIP/2.0" ++ exLine "f: <sip:a@h>;tag=1" ++ exLine "X: y" ++ exLine "c: multipart/mixed;boundary=q" ++ exLine "" ++
  exLine "--q" ++ exLine "c: a/b" ++ exLine "" ++ exLine "one" ++ exLine "--q" ++ exLine "l: 3" ++ exLine "" ++ exLine "two" ++ exLine "--q--".
Definition exSingle : bytes := exLine "SIP/2.0 200 OK" ++ exLine "CSeq: 7 FOO" ++ exLine "c: a/b" ++ exLine "" ++ s2b "hello".
Definition exOps : list op :=
  [ONew WKMsg exMulti; ONew WKMsg exSingle; ONew (WKObj (KHdr KVia)) (s2b "v: SIP/2.0/UDP h"); ONew (WKObj KSipUri) (s2b "tel:1"); OEncode 0 []; OEncode 1 (s2b "> "); OEncode 1 []; OFreePart 1000;
   ONew WKRaws (exLine "t: x" ++ exLine "Zz: 1" ++ exLine "") ; ONew (WKObj (KAddr false)) (s2b "Bob <sip:b@h>"); OEncode 4 []; OFreePart 470; ONew (WKObj KTelUri) (s2b "tel:+1"); OEncode 6 []; OEncode 4 []; OEncode 0 []; OEncode 1 []].
Definition exText (n : nat) (outs : list (event * N)) : option bytes := match nth_error outs n with Some (EvText t, _) => t | _ => None end.
Example C49_world_ex : exists outs, legal exEnv exArena /\ valRun exEnv 8 [] exOps = Some outs /\ memRun exEnv exArena [] exOps = Some outs /\
  map snd outs = [277; 376; 400; 418; 426; 434; 434; 434; 460; 505; 505; 478; 492; 492; 492; 492; 492] /\
  exText 4 outs = Some (exLine "INVITE sip:b@h SIP/2.0" ++ exLine "From: <sip:a@h>;tag=1" ++ exLine "Content-Length:         76" ++ exLine "Content-Type: multipart/mixed;boundary=q" ++ exLine "Session-Expires: y" ++
    exLine "MIME-Version: 1.0" ++ exLine "" ++ exLine "--q" ++ exLine "Content-Type: a/b" ++ exLine "" ++ exLine "one" ++ exLine "--q" ++ exLine "Content-Length:          3" ++ exLine "" ++ exLine "two" ++ s2b "--q--") /\
  exText 5 outs = Some (s2b "> " ++ exLine "SIP/2.0 200 OK" ++ exLine "Content-Length:          0" ++ exLine "CSeq: 7 FOO" ++ exLine "Content-Type: a/b" ++ exLine "") /\
  exText 10 outs = Some (exLine "To: x" ++ exLine "Zz: 1") /\ exText 13 outs = Some (s2b "tel:+1") /\ exText 14 outs = exText 10 outs /\ exText 15 outs = exText 4 outs /\ exText 16 outs = exText 6 outs.
Proof.
  eexists. split; [repeat split; try (intros; discriminate); cbn; lia|]. split; [vm_compute; reflexivity|]. split; [vm_compute; reflexivity|]. repeat (split; [vm_compute; reflexivity|]). vm_compute; reflexivity.
Qed.
(** Encode of an address that FreePart gave back is outside the theorem, and the bytes are then those of another object. *)
Example C49_freed_ex : valRun exEnv 8 [] (firstn 13 exOps ++ [OEncode 5 []]) = None /\
  match memRun exEnv exArena [] (firstn 13 exOps ++ [OEncode 5 []]) with Some outs => exText 13 outs <> Some (s2b "Bob <sip:b@h>") | None => True end.
Proof. split; [vm_compute; reflexivity|]. vm_compute. first [exact Logic.I|intros E; discriminate]. Qed.
