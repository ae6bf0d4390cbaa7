(** C55: structs used again: Parse into the same struct any number of times, setters, FreePart that keeps the struct. *)
From Verif Require Import Base Charset BaseLemmas Num Lws Str Monad Host Uri Arena ArenaProofs Layout Mem MemSim MemTac MemUri MemRep MemEnc MemHostProofs MemUriProofs MemSipUriProofs MemEncProofs MemHistory Tel MemTel MemTelProofs GenParam Addr MemGen MemGenProofs MemAddr MemAddrProofs MethodTree Lookup StartLine Headers RawHeaders Msg MemSteps MemStart MemStartProofs MemHdr MemHdrProofs MemBlocks MemMsg MemMsgProofs MemHeadersProofs MemBodyProofs MemMsgEnc MemMsgEncProofs MemMsgTop Extension P18_Memory MemWorld P19_World MemSession.
From Coq Require Import String.
Open Scope N_scope.

(** Any sequence of calls on an arena, whatever bytes it contains: as long as the value layer gives a result ([valStep] says when it does not), the run on the bytes shows the
    caller exactly that, and uses exactly as much memory after every call. *)
Theorem C55_session : forall e a ops outs, legal e a -> valSession e (aused a) [] ops = Some outs -> memSession e a [] ops = Some outs.
Proof.
  intros e a ops outs Hl. apply legal_wfA in Hl as (Hw & Hn). apply session; [exact Hn|exact Hw|]. split; [reflexivity|]. exists (fun _ _ => False). split; [|auto]. intros [|i] x v E; discriminate.
Qed.
Print Assumptions C55_session.

(** What the arena contained before does not show. *)
Corollary C55_garbage : forall e a a' ops outs, legal e a -> legal e a' -> aused a' = aused a -> valSession e (aused a) [] ops = Some outs -> memSession e a [] ops = memSession e a' [] ops.
Proof. intros e a a' ops outs H H' U V. rewrite (C55_session e a ops outs H V). symmetry. apply C55_session; [exact H'|]. now rewrite U. Qed.
Print Assumptions C55_garbage.

(** C12 for whole programs: from an arena that was used before and then given back with FreeAll, every sequence of calls (parses of URIs, headers, messages, Encode, ...) shows the
    caller what it shows from a new arena of that size. *)
Theorem C12_recycled_arena : forall e a c ops outs, legal e a -> cap a = c + 8 -> valSession e 8 [] ops = Some outs ->
  memSession e (FreeAll a) [] ops = memSession e (Init c) [] ops /\ memSession e (Init c) [] ops = Some outs.
Proof.
  intros e a c ops outs Hl Hc V. pose proof Hl as (H1 & H2 & H3 & H4 & H5).
  assert (LF : legal e (FreeAll a)). { unfold legal, FreeAll, PREFIX_LEN in *. cbn [cap aused]. repeat split; auto; lia. }
  assert (LI : legal e (Init c)).
  { unfold legal, Init, PREFIX_LEN, u32, two32 in *. cbn [cap aused]. rewrite N.mod_small by lia. rewrite <- Hc. repeat split; auto; lia. }
  split; [|apply C55_session; [exact LI|exact V]]. apply (C55_garbage e (FreeAll a) (Init c) ops outs LF LI); [reflexivity|exact V].
Qed.
Print Assumptions C12_recycled_arena.

(** ** The loop of a server *)
(** One struct, made once; then for every text that arrives: give back everything behind the struct, Parse the text into it, and if that worked Encode it behind the bytes [pre]. *)
Definition roundOps (e : env) (k : skind) (u : N) (tp : bytes * bytes) : list sop :=
  [SFreePart (u - 8); SParse 0 (fst tp)] ++ match sValue k e (mkst (fst tp) u) with Ok _ _ => [SEncode 0 (snd tp)] | _ => [] end.
(** What such a round shows, when the arena has [u] bytes in use at its start. Only the text of this round is mentioned. *)
Definition roundEvents (e : env) (k : skind) (u : N) (tp : bytes * bytes) : list (sevent * N) :=
  (SvFree, u) ::
  match sValue k e (mkst (fst tp) u) with
  | Ok o s => (SvParse true (rest s), used s) :: match sEncoding e (used s) k o (snd tp) with Some (t, _, u') => [(SvText t, u')] | None => [] end
  | Fail s => [(SvParse false (rest s), used s)]
  | _ => []
  end.
(** The round is inside the limits of [valStep]: no crash, no corner case, room behind what was parsed. *)
Definition roundFine (e : env) (k : skind) (u : N) (tp : bytes * bytes) : Prop :=
  sCorner k e (fst tp) u = false /\
  match sValue k e (mkst (fst tp) u) with
  | Ok o s => ltMem e (used s) = true /\ (sExt o = true -> used s < 32768) /\ sEncoding e (used s) k o (snd tp) <> None
  | Fail s => True
  | _ => False
  end.
Lemma sValue_grows k e c t u : netLen e -> isStruct k = true -> memend e = Some c -> c < 65536 -> 8 + ssize k <= u -> u <= c -> sCorner k e t u = false ->
  match sValue k e (mkst t u) with Ok _ s | Fail s => u <= used s /\ used s <= c | _ => True end.
Proof.
  intros Hn Sk M0 Lc L1 L2 Hc. assert (Hw : wfA e (mkA (fun _ => 0) c u 0 0 0 0 0)) by (repeat split; cbn; auto; lia).
  pose proof (sParse_sim k e (mkA (fun _ => 0) c u 0 0 0 0 0) t 8 Hw Hn Sk ltac:(lia) ltac:(cbn; lia) Hc) as S0. unfold sim in S0. cbn [aused] in S0.
  destruct (sValue k e (mkst t u)) as [x s|s| |]; auto.
  - destruct S0 as (p & a' & _ & U & K & _). num K. cbn [aused cap] in *. lia.
  - destruct S0 as (a' & _ & U & K). num K. cbn [aused cap] in *. lia.
Qed.
Lemma sEncoding_grows e c u k o pre t o' u' : memend e = Some c -> u <= c -> sEncoding e u k o pre = Some (t, o', u') -> u <= u' /\ u' <= c.
Proof.
  intros M0 L. destruct k as [w|], o as [o|h]; cbn [sEncoding]; try discriminate.
  - destruct (wEncoding e u w o pre) as [[[t1 o1] u1]|] eqn:E; [|discriminate]. intros Q. injection Q as <- <- <-. eapply wEncoding_grows; eauto.
  - intros Q. injection Q as <- <- <-. lia.
Qed.
Lemma loop_val e c k u : netLen e -> isStruct k = true -> memend e = Some c -> c < 65536 -> 8 + ssize k <= u -> u <= c -> forall rounds, Forall (roundFine e k u) rounds ->
  forall u1 w, u <= u1 <= c -> valSession e u1 [(k, Some (u, w))] (flat_map (roundOps e k u) rounds) = Some (flat_map (roundEvents e k u) rounds).
Proof.
  intros Hn Sk M0 Lc L1 L2. induction rounds as [|[t pre] rounds IH]; intros HF u1 w Hu; [reflexivity|]. inversion HF as [|? ? (F1 & F2) HF']; subst. specialize (IH HF'). cbn [flat_map roundOps roundEvents fst snd] in *.
  pose proof (sValue_grows k e c t u Hn Sk M0 Lc L1 L2 F1) as G. assert (Ef : freeTo (u - 8) u1 = u) by (unfold freeTo; destruct (N.leb_spec u1 (u - 8)); lia).
  unfold roundOps at 1, roundEvents at 1. cbn [fst snd app valSession valStep]. cbv zeta. rewrite Ef. unfold leMem at 1. rewrite M0. replace (u <=? c) with true by lia. cbn [map remains]. replace (u <=? u) with true by lia.
  assert (En : exists w', match w with Some (_, top) => if top <=? u then w else None | None => None end = w') by eauto. destruct En as (w' & ->). cbn [nth_error]. rewrite Sk, F1. cbn [andb negb].
  destruct (sValue k e (mkst t u)) as [o s|s| |]; [| |contradiction|contradiction].
  - destruct F2 as (F2 & F3 & F4). cbn [setAt app valSession valStep nth_error]. rewrite F2. replace (negb (sExt o) || (used s <? 32768)) with true by (destruct (sExt o); [specialize (F3 eq_refl); cbn; symmetry; lia|reflexivity]). cbn [andb].
    destruct (sEncoding e (used s) k o pre) as [[[tx o'] u']|] eqn:Es; [|congruence]. pose proof (sEncoding_grows e c (used s) k o pre tx o' u' M0 (proj2 G) Es) as G2. cbn [setAt app]. rewrite IH by lia. reflexivity.
  - cbn [setAt app]. rewrite IH by lia. reflexivity.
Qed.
(** The whole run: every round shows what its own text alone determines, from the same [u] bytes in use: nothing of the previous texts, and no memory is lost however
    many rounds there are. *)
Theorem C55_reuse : forall e a k rounds, legal e a -> isStruct k = true -> aused a + ssize k <= cap a -> Forall (roundFine e k (aused a + ssize k)) rounds ->
  memSession e a [] (SNew k :: flat_map (roundOps e k (aused a + ssize k)) rounds) = Some ((SvNew true, aused a + ssize k) :: flat_map (roundEvents e k (aused a + ssize k)) rounds).
Proof.
  intros e a k rounds Hl Sk Lc HF. apply C55_session; [exact Hl|]. destruct Hl as (M0 & L1 & L2 & L3 & Hn). cbn [valSession valStep]. rewrite Sk. unfold allocStruct at 1, leMem at 1. cbn [used rest]. rewrite M0. replace (aused a + ssize k <=? cap a) with true by lia. cbn [used app].
  rewrite (loop_val e (cap a) k (aused a + ssize k) Hn Sk M0 L1) by (auto; lia). reflexivity.
Qed.
Print Assumptions C55_reuse.

(** ** The setters *)
(** The address and the port a SipHostPort has after the calls [ds]: those given last. *)
Fixpoint lastHost (ds : list edit) : host :=
  match ds with
  | [] => HUnknown
  | d :: ds' => match lastHost ds' with
                | HUnknown => match d with EdIpv4 (x :: y :: z :: w :: _) => HIpv4 x y z w | EdIpv6 ip => HIpv6 (firstn 16 ip) | EdName b => HName b | _ => HUnknown end
                | h => h
                end
  end.
Fixpoint lastPort (ds : list edit) : option N := match ds with [] => None | d :: ds' => match lastPort ds' with None => match d with EdPort n => Some n | _ => None end | p => p end end.
(** An argument with all its bytes. *)
Definition full (d : edit) : Prop := match d with EdPort n => n < two16 | EdIpv4 ip => 4 <= len ip | EdIpv6 ip => 16 <= len ip | EdName _ => True | EdSecure _ | EdRemoveContent => False end.
(** The memory a setter takes. *)
Definition takes (d : edit) : N := match d with EdPort _ => 0 | EdIpv4 _ => 4 | EdIpv6 _ => 16 | EdName b => len b + 2 | EdSecure _ | EdRemoveContent => 0 end.
Fixpoint takesAll (ds : list edit) : N := match ds with [] => 0 | d :: ds' => takes d + takesAll ds' end.
Definition upto (h0 : hostport) (ds : list edit) : hostport := mkhp (match lastHost ds with HUnknown => hpHost h0 | h => h end) (match lastPort ds with None => hpPort h0 | p => p end).
Definition seen (h : hostport) : sevent :=
  SvHost (match hpHost h with HIpv4 _ _ _ _ => true | _ => false end) (match hpHost h with HIpv6 _ => true | _ => false end) (match hpHost h with HName _ => true | _ => false end) (hpPort h).
Fixpoint editEvents (u : N) (ds : list edit) : list (sevent * N) := match ds with [] => [] | d :: ds' => (SvEdit true, u + takes d) :: editEvents (u + takes d) ds' end.
Lemma upto_cons h d ds : full d -> exists h1, (forall e c u, memend e = Some c -> u + takes d <= c -> exists p s, sEditV d (SHost h) = Some p /\ p e (mkst [] u) = Ok (SHost h1) s /\ used s = u + takes d) /\ upto h1 ds = upto h (d :: ds).
Proof.
  assert (Same : forall h1 : hostport, (match lastHost ds with HUnknown => hpHost h1 | h2 => h2 end = match lastHost (d :: ds) with HUnknown => hpHost h | h2 => h2 end) ->
    (match lastPort ds with None => hpPort h1 | p => p end = match lastPort (d :: ds) with None => hpPort h | p => p end) -> upto h1 ds = upto h (d :: ds)).
  { intros h1 E1 E2. unfold upto. rewrite E1, E2. reflexivity. }
  destruct d as [n|ip|ip|b|b|]; cbn [full takes]; intros F.
  - exists (mkhp (hpHost h) (Some n)). split; [|apply Same; cbn; [destruct (lastHost ds)|destruct (lastPort ds)]; reflexivity]. intros e c u M0 L. cbn [sEditV]. replace (n <? two16) with true by lia. eexists _, _. split; [reflexivity|]. split; [reflexivity|]. cbn. lia.
  - destruct ip as [|x [|y [|z [|w ip]]]]; cbn in F; try lia. exists (mkhp (HIpv4 x y z w) (hpPort h)). split; [|apply Same; cbn; [destruct (lastHost ds)|destruct (lastPort ds)]; reflexivity].
    intros e c u M0 L. cbn [sEditV]. eexists _, _. split; [reflexivity|]. unfold bind, allocStruct, leMem. rewrite M0. cbn [used rest]. replace (u + 4 <=? c) with true by lia. split; reflexivity.
  - exists (mkhp (HIpv6 (firstn 16 ip)) (hpPort h)). split; [|apply Same; cbn [lastHost lastPort hpHost hpPort]; [destruct (lastHost ds)|destruct (lastPort ds)]; reflexivity].
    intros e c u M0 L. cbn [sEditV]. replace (16 <=? len ip) with true by lia. eexists _, _. split; [reflexivity|]. unfold bind, allocStruct, leMem. rewrite M0. cbn [used rest]. replace (u + 16 <=? c) with true by lia. split; reflexivity.
  - exists (mkhp (HName b) (hpPort h)). split; [|apply Same; cbn; [destruct (lastHost ds)|destruct (lastPort ds)]; reflexivity].
    intros e c u M0 L. cbn [sEditV]. eexists _, _. split; [reflexivity|]. unfold bind, allocCString, leMem. rewrite M0. cbn [used rest]. replace (u + (len b + 2) <=? c) with true by lia. split; reflexivity.
  - contradiction.
  - contradiction.
Qed.
Lemma edits_val e c ops : memend e = Some c -> forall ds h u en top, Forall full ds -> u + takesAll ds <= c -> top <= u ->
  exists top', valSession e u [(SKHost, Some (en, Some (SHost h, top)))] (map (SEdit 0) ds ++ ops) =
    option_map (app (editEvents u ds)) (valSession e (u + takesAll ds) [(SKHost, Some (en, Some (SHost (upto h ds), top')))] ops).
Proof.
  intros M0. induction ds as [|d ds IH]; intros h u en top HF L Lt; cbn [map app editEvents takesAll] in *.
  - exists top. rewrite N.add_0_r. unfold upto. cbn. destruct h. destruct (valSession e u _ ops); reflexivity.
  - inversion HF as [|? ? F HF']; subst. destruct (upto_cons h d ds F) as (h1 & H1 & H2). destruct (H1 e c u M0 ltac:(lia)) as (p & s & E1 & E2 & E3). cbn [valSession valStep nth_error]. replace (editReads d) with false by (destruct d; try reflexivity; contradiction). cbn [andb]. rewrite E1, E2. cbn [setAt]. rewrite E3.
    destruct (IH h1 (u + takes d) en (if u + takes d =? u then top else u + takes d) HF' ltac:(lia) ltac:(destruct (N.eqb_spec (u + takes d) u); lia)) as (top' & ->). exists top'. rewrite H2, N.add_assoc. destruct (valSession e _ _ ops); reflexivity.
Qed.
(** A new SipHostPort, then any setters with whole arguments and memory for them: IsIpv4, IsIpv6, IsHostname, HasPort, GetPort and Encode answer for the address and the port
    given last. *)
Theorem C55_setters : forall e a ds pre, legal e a -> Forall full ds -> aused a + 6 + takesAll ds < cap a ->
  let h := mkhp (lastHost ds) (lastPort ds) in let u := aused a + 6 + takesAll ds in
  memSession e a [] (SNew SKHost :: map (SEdit 0) ds ++ [SLook 0; SEncode 0 pre]) =
  Some ((SvNew true, aused a + 6) :: editEvents (aused a + 6) ds ++ [(seen h, u); (SvText (Some (pre ++ encHostPort e h)), u)]).
Proof.
  intros e a ds pre Hl HF L h u. apply C55_session; [exact Hl|]. destruct Hl as (M0 & L1 & L2 & L3 & Hn). cbn [valSession valStep isStruct ssize sFresh]. unfold allocStruct at 1, leMem at 1. cbn [used rest]. rewrite M0. replace (aused a + 6 <=? cap a) with true by lia. cbn [used app].
  destruct (edits_val e (cap a) [SLook 0; SEncode 0 pre] M0 ds (mkhp HUnknown None) (aused a + 6) (aused a + 6) (aused a + 6) HF ltac:(lia) ltac:(lia)) as (top' & ->). fold u.
  assert (Eh : upto (mkhp HUnknown None) ds = h) by (unfold upto, h; cbn; destruct (lastHost ds), (lastPort ds); reflexivity). rewrite Eh. cbn [valSession valStep nth_error vLook]. unfold ltMem. rewrite M0. replace (u <? cap a) with true by lia. cbn [sExt negb andb orb sEncoding option_map]. reflexivity.
Qed.
Print Assumptions C55_setters.

(** net.IP.String that shows the bytes themselves. *)
Definition rawNet : env := mkenv (Some 4096) false false false false false false true false false false true false false (fun _ => true) (fun _ => None) (fun ip => ip).
(** A net.IP that is too short: SetIpv4 with 2 bytes, SetIpv6 with the 4 bytes of net.IPv4(...).To4(). The address is completed with whatever the memory contained. *)
Theorem C55_short_ip_refuted :
  let a g := mkA (fun _ => g) 4096 8 0 0 0 0 0 in let ops ip := [SNew SKHost; SEdit 0 (EdIpv4 ip); SEncode 0 []] in let ops6 ip := [SNew SKHost; SEdit 0 (EdIpv6 ip); SEncode 0 []] in
  legal exEnv (a 7) /\ legal exEnv (a 9) /\
  memSession exEnv (a 7) [] (ops [10; 1]) = Some [(SvNew true, 14); (SvEdit true, 18); (SvText (Some (s2b "10.1.7.7")), 18)] /\ memSession exEnv (a 9) [] (ops [10; 1]) = Some [(SvNew true, 14); (SvEdit true, 18); (SvText (Some (s2b "10.1.9.9")), 18)] /\
  memSession rawNet (a 7) [] (ops6 [10; 0; 0; 1]) = Some [(SvNew true, 14); (SvEdit true, 30); (SvText (Some ([91; 10; 0; 0; 1] ++ repeat 7 12 ++ [93])), 30)] /\ valSession exEnv 8 [] (ops [10; 1]) = None.
Proof.
  cbv zeta. split; [repeat split; try (intros; discriminate); cbn; lia|]. split; [repeat split; try (intros; discriminate); cbn; lia|]. split; [vm_compute; reflexivity|]. split; [vm_compute; reflexivity|]. split; [vm_compute; reflexivity|vm_compute; reflexivity].
Qed.

Print Assumptions C55_short_ip_refuted.

(** One SipMsg used for three texts (the second no message), a host with setters in between, a SipUri changed from sip to sips; the rounds fulfil the hypotheses of C55_reuse. *)
Definition exSession : list sop :=
  [SNew (SK WKMsg); SNew SKHost; SNew (SK (WKObj KSipUri)); SParse 0 exMulti; SEncode 0 []; SParse 1 (s2b "h.x:99;q"); SLook 1; SEncode 1 (s2b "> "); SParse 2 (s2b "sip:a@h;lr"); SLook 2; SEdit 2 (EdSecure true); SLook 2; SEncode 2 [];
   SEdit 1 (EdIpv4 [10; 0; 0; 1]); SEdit 1 (EdPort 5060); SLook 1; SEncode 1 []; SFreePart 92; SParse 0 (s2b "SIP/2.0 xx"); SParse 0 exSingle; SEncode 0 []; SParse 2 (s2b "sip:b@h"); SEncode 2 []; SEncode 0 []].
Definition exSeen (n : nat) (outs : list (sevent * N)) : option sevent := option_map fst (nth_error outs n).
Example C55_session_ex : exists outs, legal exEnv exArena /\ valSession exEnv 8 [] exSession = Some outs /\ memSession exEnv exArena [] exSession = Some outs /\
  map (fun i => nth_error (map snd outs) i) [0; 1; 2; 3; 17; 20; 23]%nat = map Some [76; 82; 100; 301; 100; 139; 145] /\
  map (fun i => exSeen i outs) [5; 6; 7; 9; 11; 12; 15; 16; 18; 22]%nat =
    map Some [SvParse true (s2b ";q"); SvHost false false true (Some 99); SvText (Some (s2b "> h.x:99")); SvSips false; SvSips true; SvText (Some (s2b "sips:a@h;lr")); SvHost true false false (Some 5060); SvText (Some (s2b "10.0.0.1:5060"));
      SvParse false (s2b "xx"); SvText (Some (s2b "sip:b@h"))] /\
  exSeen 23 outs = exSeen 20 outs.
Proof. eexists. split; [repeat split; try (intros; discriminate); cbn; lia|]. split; [vm_compute; reflexivity|]. split; [vm_compute; reflexivity|]. split; [vm_compute; reflexivity|]. split; vm_compute; reflexivity. Qed.
(** The hypotheses of C55_reuse are met. *)
Example C12_recycled_case : exists a outs, legal exEnv a /\ cap a = (cap exArena - 8) + 8 /\ 100 < aused a /\ valSession exEnv 8 [] exSession = Some outs.
Proof.
  destruct C55_session_ex as (outs & L & V & _). exists (mkA (fun i => i mod 251) (cap exArena) 120 9 9 9 9 9), outs. destruct L as (H1 & H2 & H3 & H4 & H5).
  split; [|split; [reflexivity|split; [reflexivity|exact V]]]. unfold legal. cbn [cap aused]. repeat split; auto; vm_compute; congruence.
Qed.
Example C55_reuse_case : let rounds := [(exMulti, []); (s2b "SIP/2.0 xx", []); (exSingle, s2b "> "); (exMulti, [])] in
  legal exEnv exArena /\ Forall (roundFine exEnv (SK WKMsg) 76) rounds /\ List.length (flat_map (roundEvents exEnv (SK WKMsg) 76) rounds) = 11%nat.
Proof.
  cbv zeta. split; [repeat split; try (intros; discriminate); cbn; lia|]. split; [|vm_compute; reflexivity].
  repeat (apply Forall_cons; [split; [vm_compute; reflexivity|vm_compute; try (split; [reflexivity|]; split; [reflexivity|discriminate]); exact Logic.I]|]). apply Forall_nil.
Qed.
Example C55_setters_case : let ds := [EdName (s2b "a.b"); EdPort 1; EdIpv4 [10; 0; 0; 1]; EdPort 5060] in
  Forall full ds /\ aused exArena + 6 + takesAll ds < cap exArena /\ encHostPort exEnv (mkhp (lastHost ds) (lastPort ds)) = s2b "10.0.0.1:5060".
Proof. cbv zeta. split; [repeat (apply Forall_cons; [vm_compute; first [exact Logic.I|reflexivity|discriminate]|]); apply Forall_nil|]. split; vm_compute; reflexivity. Qed.
