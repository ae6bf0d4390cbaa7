(** C57: reading and changing parsed objects through the exported functions. *)
From Verif Require Import Base Charset BaseLemmas Num Lws Str StrSpec StrProofs Monad Host Uri Room Good UriSpec Arena ArenaProofs Layout Mem MemSim MemTac MemUri MemRep MemEnc MemHostProofs MemUriProofs MemSipUriProofs MemEncProofs MemHistory Tel MemTel MemTelProofs GenParam Addr AddrSpec MemGen MemGenProofs MemAddr MemAddrProofs MethodTree HeaderTree Lookup StartLine Headers RawHeaders Msg ListSpec MemSteps MemStart MemStartProofs MemHdr MemHdrProofs MemBlocks MemMsg MemMsgProofs MemHeadersProofs MemBodyProofs MemMsgEnc MemMsgEncProofs MemMsgTop P18_Memory MsgRt MsgProofs P13_Discipline HeaderList ListProofs MemWorld P19_World MemAsk MemAskProofs MemRemove MemSession Nine NineParse P05_Uri P08_Addr P11_RawHeaders MsgSpec MsgEnc Inv P12_Messages Extension P23_Session.
From Coq Require Import String.
Open Scope N_scope.

(** ** Answers do not age *)
(** Calls that leave object 0 alone. Encode of a message changes its Content-Length; Encode of anything else does not change the object. *)
Definition leaves (w : wkind) (o : sop) : Prop :=
  match o with
  | SParse 0 _ | SEdit 0 _ => False
  | SEncode 0 _ => w <> WKMsg
  | _ => True
  end.
(** The memory in use at the end. *)
Definition lastUsed (u : N) (outs : list (sevent * N)) : N := last (map snd outs) u.
Lemma lastUsed_cons u x outs : lastUsed u (x :: outs) = lastUsed (snd x) outs.
Proof. unfold lastUsed. cbn [map]. generalize (map snd outs). intros l. revert x. induction l as [|y l IH]; intros x; [reflexivity|]. change (last (snd x :: y :: l) u) with (last (y :: l) u). revert IH. destruct l as [|z l]; [reflexivity|]. intros _. clear. revert y z. induction l as [|w l IH]; intros y z; [reflexivity|]. exact (IH z w). Qed.
Lemma setAt_other {A} (l : list A) i v : nth_error (setAt l (S i) v) 0 = nth_error l 0.
Proof. destruct l; reflexivity. Qed.
Lemma setAt_same {A} (l : list A) v w : nth_error l 0 = Some w -> nth_error (setAt l 0 v) 0 = Some v.
Proof. destruct l; [discriminate|reflexivity]. Qed.
Lemma nth_app0 {A} (l r : list A) v : nth_error l 0 = Some v -> nth_error (l ++ r) 0 = Some v.
Proof. destruct l; [discriminate|auto]. Qed.
Lemma leaves_step e u vs o v u' vs' w en x top : valStep e u vs o = Some (v, u', vs') -> nth_error vs 0 = Some (SK w, Some (en, Some (SO x, top))) -> leaves w o -> en <= top -> top <= u' -> 8 < top ->
  nth_error vs' 0 = Some (SK w, Some (en, Some (SO x, top))).
Proof.
  intros H E L Le Lt L8. destruct o as [k|i t|t|i pre|i d|i|i q| |n]; cbn [valStep leaves] in *.
  - destruct (isStruct k); [|discriminate]. destruct (allocStruct _ _ _); try discriminate; injection H as <- <- <-; now apply nth_app0.
  - destruct i as [|i]; [contradiction|]. destruct (nth_error vs (S i)) as [[k [[en' w0]|]]|]; try discriminate. destruct (isStruct k && _); [|discriminate]. destruct (sValue k e _); try discriminate; injection H as <- <- <-; rewrite setAt_other; exact E.
  - destruct (parseRawHeaders _ _); try discriminate; injection H as <- <- <-; now apply nth_app0.
  - destruct i as [|i].
    + rewrite E in H. destruct (ltMem e u && _); [|discriminate]. cbn [sEncoding] in H. destruct (wEncoding e u w x pre) as [[[t o'] u1]|] eqn:Ew; [|discriminate]. injection H as <- <- <-. rewrite (setAt_same _ _ _ E).
      assert (O : o' = x /\ u1 = u) by (destruct w as [k| |]; [| |congruence]; cbn [wEncoding] in Ew; [destruct x; try discriminate; injection Ew as <- <- <-; auto|destruct x; try discriminate; injection Ew as <- <- <-; auto]). destruct O as (-> & ->). rewrite N.eqb_refl. reflexivity.
    + destruct (nth_error vs (S i)) as [[k [[en' [[o0 t0]|]]|]]|]; try discriminate. destruct (ltMem e u && _); [|discriminate]. destruct (sEncoding e u k o0 pre) as [[[t o'] u1]|]; [|discriminate]. injection H as <- <- <-. rewrite setAt_other. exact E.
  - destruct i as [|i]; [contradiction|]. destruct (nth_error vs (S i)) as [[k [[en' [[o0 t0]|]]|]]|]; try discriminate. destruct (if editReads d && _ then None else _) as [p|]; [|discriminate]. destruct (p e _); try discriminate; injection H as <- <- <-; rewrite ?setAt_other; exact E.
  - destruct (nth_error vs i) as [[k [[en' [[o0 t0]|]]|]]|]; try discriminate. destruct (vLook o0); [|discriminate]. injection H as <- <- <-. exact E.
  - destruct (nth_error vs i) as [[[w1|] [[en' [[[o0|h0] t0]|]]|]]|]; try discriminate. destruct (ltMem e u && _); [|discriminate]. destruct (askValue e o0 q); [|discriminate]. injection H as <- <- <-. exact E.
  - injection H as <- <- <-. lia.
  - cbv zeta in H. destruct (leMem e _); [|discriminate]. injection H as <- <- <-. rewrite nth_error_map, E. cbn [option_map remains]. replace (en <=? freeTo n u) with true by lia. replace (top <=? freeTo n u) with true by lia. reflexivity.
Qed.
Lemma leaves_run e w en x top more : en <= top -> 8 < top -> forall ops u vs outs, valSession e u vs ops = Some outs -> nth_error vs 0 = Some (SK w, Some (en, Some (SO x, top))) -> Forall (leaves w) ops -> Forall (fun v => top <= snd v) outs ->
  exists vs', nth_error vs' 0 = Some (SK w, Some (en, Some (SO x, top))) /\ valSession e u vs (ops ++ more) = option_map (app outs) (valSession e (lastUsed u outs) vs' more).
Proof.
  intros Le L8. induction ops as [|o ops IH]; intros u vs outs; cbn [valSession app].
  - intros H E _ _. injection H as <-. exists vs. split; [exact E|]. cbn. destruct (valSession e u vs more); reflexivity.
  - destruct (valStep e u vs o) as [[[v u'] vs']|] eqn:Es; [|discriminate]. destruct (valSession e u' vs' ops) as [outs'|] eqn:Eo; [|discriminate]. intros H E F1 F2. cbn [option_map] in H. injection H as <-. inversion F1 as [|? ? L1 F1']; subst. inversion F2 as [|? ? L2 F2']; subst. cbn [snd] in L2.
    pose proof (leaves_step e u vs o v u' vs' w en x top Es E L1 Le L2 L8) as E'. destruct (IH u' vs' outs' Eo E' F1' F2') as (vs2 & E2 & R). exists vs2. split; [exact E2|]. rewrite R, lastUsed_cons. cbn [snd]. destruct (valSession e _ vs2 more); reflexivity.
Qed.

(** An object is made and a text parsed into it; whatever happens then to other objects (and Encode, questions and refused calls on this one), as long as the memory in use does not
    fall below what it was after the parse: the question is answered for the value that was parsed. *)
Theorem C57_answer : forall e a w t o s ops o1 o2 outs q x, legal e a -> sValue (SK w) e (mkst t (aused a + ssize (SK w))) = Ok (SO o) s ->
  valSession e (aused a) [] (SNew (SK w) :: SParse 0 t :: ops) = Some (o1 :: o2 :: outs) -> Forall (leaves w) ops -> Forall (fun v => used s <= snd v) outs ->
  lastUsed (used s) outs < cap a -> (wExt o = true -> lastUsed (used s) outs < 32768) -> askValue e o q = Some x ->
  memSession e a [] (SNew (SK w) :: SParse 0 t :: ops ++ [SAsk 0 q]) = Some (o1 :: o2 :: outs ++ [(SvAnswer x, lastUsed (used s) outs)]).
Proof.
  intros e a w t o s ops o1 o2 outs q x Hl Hv V F1 F2 Lc Lt Hx. apply C55_session; [exact Hl|]. destruct Hl as (M0 & L1 & L2 & L3 & Hn). cbn [valSession valStep] in *. destruct (isStruct (SK w)) eqn:Sk; [|discriminate].
  unfold allocStruct, leMem in V |- *. rewrite M0 in *. cbn [used rest] in *. destruct (N.leb_spec (aused a + ssize (SK w)) (cap a)) as [Lz|Lz]; [|cbn [app nth_error] in V; discriminate].
  cbn [used app nth_error] in *. rewrite Sk in *. cbn [andb] in *. destruct (negb (sCorner (SK w) e t (aused a + ssize (SK w)))) eqn:Ec; [|discriminate]. rewrite Hv in *. cbn [setAt] in *.
  assert (Z : 0 < ssize (SK w)) by (destruct w as [k| |]; [|discriminate|cbn; lia]; destruct k as [| | | |k]; try (cbn; lia); destruct k; vm_compute; reflexivity).
  assert (G : aused a + ssize (SK w) <= used s).
  { apply Bool.negb_true_iff in Ec. pose proof (sValue_grows (SK w) e (cap a) t (aused a + ssize (SK w)) Hn Sk M0 L1 ltac:(lia) Lz Ec) as G. rewrite Hv in G. lia. }
  destruct (valSession e (used s) _ ops) as [outs'|] eqn:Eo; [|discriminate]. cbn [option_map] in *. injection V as <- <- <-.
  destruct (leaves_run e w (aused a + ssize (SK w)) o (used s) [SAsk 0 q] G ltac:(lia) ops _ _ _ Eo eq_refl F1 F2) as (vs' & E0 & ->).
  cbn [valSession valStep]. rewrite E0. unfold ltMem. rewrite M0. replace (lastUsed (used s) outs' <? cap a) with true by lia. cbn [andb].
  replace (negb (wExt o) || (lastUsed (used s) outs' <? 32768)) with true by (destruct (wExt o); [specialize (Lt eq_refl); cbn; symmetry; lia|reflexivity]). rewrite Hx. reflexivity.
Qed.
Print Assumptions C57_answer.

(** ** URIs *)
Definition uriKind : skind := SK (WKObj KSipUri).
(** GetUriParamByName gives the first parameter that has the name up to the case of letters. *)
Lemma findParam_first name ps before p after : name <> [] -> ps = before ++ p :: after -> sameNoCase (upName p) name -> Forall (fun x => ~ sameNoCase (upName x) name) before -> findParam name ps = AParam (upValue p).
Proof.
  intros Hne -> Hs Hb. unfold findParam. induction Hb as [|x l Hx _ IH]; cbn [app find].
  - apply (equalNoCase_spec _ _ Hne) in Hs. now rewrite Hs.
  - destruct (equalNoCase (upName x) name) eqn:E; [apply (equalNoCase_spec _ _ Hne) in E; contradiction|exact IH].
Qed.
Lemma findParam_none name ps : name <> [] -> Forall (fun x => ~ sameNoCase (upName x) name) ps -> findParam name ps = ANothing.
Proof.
  intros Hne Hb. unfold findParam. induction Hb as [|x l Hx _ IH]; cbn [find]; [reflexivity|]. destruct (equalNoCase (upName x) name) eqn:E; [apply (equalNoCase_spec _ _ Hne) in E; contradiction|exact IH].
Qed.
Lemma uri_says e a u k : legal e a -> eUriNoEscape e = false -> wfSipUri e u -> uriFollow u k -> aused a + 18 + 57 + 9 * len (encSipUri e u ++ k) < cap a -> exists n, n < cap a /\
  forall ops outs, valSession e n [(uriKind, Some (aused a + 18, Some (SO (WObj (OSipUri u)), n)))] ops = Some outs ->
  memSession e a [] (SNew uriKind :: SParse 0 (encSipUri e u ++ k) :: ops) = Some ((SvNew true, aused a + 18) :: (SvParse true k, n) :: outs).
Proof.
  intros Hl He Hwf Hf L. pose proof Hl as (M0 & L1 & L2 & L3 & Hn).
  destruct (C22_uri_round_trip e u k (aused a + 18) He Hwf Hf) as (n & E); [unfold roomFor; rewrite M0; lia|].
  pose proof (nine_used _ _ _ _ _ _ _ n_sipUri ltac:(cbn; lia) E) as GM. cbn [used rest] in GM. exists n. split; [lia|]. intros ops outs V. apply C55_session; [exact Hl|].
  cbn [valSession valStep]. change (isStruct uriKind) with true. change (ssize uriKind) with 18. unfold allocStruct, leMem. rewrite M0. cbn [used rest]. replace (aused a + 18 <=? cap a) with true by lia. change (sFresh uriKind) with (@None sobj). cbn [app nth_error used]. change (isStruct uriKind) with true. change (sCorner uriKind e (encSipUri e u ++ k) (aused a + 18)) with false. cbn [andb negb].
  replace (sValue uriKind e (mkst (encSipUri e u ++ k) (aused a + 18))) with (Ok (SO (WObj (OSipUri u))) (mkst k n)) by (unfold sValue, uriKind, objValue, bind; rewrite E; reflexivity). cbn [used rest setAt]. rewrite V. reflexivity.
Qed.
(** A URI is written as text, the text (and anything behind it that does not continue the URI) is parsed into a new SipUri, and a question asked: the answer is what was written. *)
Theorem C57_uri : forall e a u k, legal e a -> eUriNoEscape e = false -> wfSipUri e u -> uriFollow u k -> aused a + 18 + 57 + 9 * len (encSipUri e u ++ k) < cap a ->
  exists n, let says q x := memSession e a [] [SNew uriKind; SParse 0 (encSipUri e u ++ k); SAsk 0 q] = Some [(SvNew true, aused a + 18); (SvParse true k, n); (SvAnswer x, n)] in
    says QIsSipUri (ABool (negb (uSecure u))) /\ says QIsSipsUri (ABool (uSecure u)) /\
    says QUser (AText (match uUser u with Some t => t | None => [] end)) /\ says QPassword (AText (match uPass u with Some t => t | None => [] end)) /\
    says QIsIpv4 (ABool (match hpHost (uHost u) with HIpv4 _ _ _ _ => true | _ => false end)) /\ says QIsIpv6 (ABool (match hpHost (uHost u) with HIpv6 _ => true | _ => false end)) /\
    says QIsHostname (ABool (match hpHost (uHost u) with HName _ => true | _ => false end)) /\
    says QHasPort (ABool (match hpPort (uHost u) with Some _ => true | None => false end)) /\ (forall n0, hpPort (uHost u) = Some n0 -> says QPort (ANum n0)) /\
    (forall name before p after, name <> [] -> uParams u = before ++ p :: after -> sameNoCase (upName p) name -> Forall (fun x => ~ sameNoCase (upName x) name) before -> says (QParam name) (AParam (upValue p))) /\
    (forall name, name <> [] -> Forall (fun x => ~ sameNoCase (upName x) name) (uParams u) -> says (QParam name) ANothing).
Proof.
  intros e a u k Hl He Hwf Hf L. destruct (uri_says e a u k Hl He Hwf Hf L) as (n & Ln & R). exists n. cbv zeta.
  assert (S0 : forall q x, askUri u q = Some x -> memSession e a [] [SNew uriKind; SParse 0 (encSipUri e u ++ k); SAsk 0 q] = Some [(SvNew true, aused a + 18); (SvParse true k, n); (SvAnswer x, n)]).
  { intros q x Hx. apply (R [SAsk 0 q]). cbn [valSession valStep uriKind nth_error wExt extObj negb orb askValue]. unfold ltMem. rewrite (proj1 Hl). replace (n <? cap a) with true by lia. cbn [andb]. rewrite Hx. reflexivity. }
  repeat match goal with |- _ /\ _ => split end; try (apply S0; reflexivity).
  - intros n0 En. apply S0. cbn [askUri]. now rewrite En.
  - intros name before p after Hne Ep Hs Hb. apply S0. cbn [askUri]. destruct name; [congruence|]. f_equal. eapply findParam_first; eauto.
  - intros name Hne Hb. apply S0. cbn [askUri]. destruct name; [congruence|]. f_equal. now apply findParam_none.
Qed.
Print Assumptions C57_uri.
(** The same for a parameter list by itself: whatever GetUriParamByName answers is explained by one of the two cases. *)
Theorem C57_param_exact : forall u name, name <> [] ->
  (exists before p after, uParams u = before ++ p :: after /\ sameNoCase (upName p) name /\ Forall (fun x => ~ sameNoCase (upName x) name) before /\ askUri u (QParam name) = Some (AParam (upValue p))) \/
  (Forall (fun x => ~ sameNoCase (upName x) name) (uParams u) /\ askUri u (QParam name) = Some ANothing).
Proof.
  intros u name Hne. assert (D : (exists before p after, uParams u = before ++ p :: after /\ sameNoCase (upName p) name /\ Forall (fun x => ~ sameNoCase (upName x) name) before) \/ Forall (fun x => ~ sameNoCase (upName x) name) (uParams u)).
  { induction (uParams u) as [|p ps IH]; [right; constructor|]. destruct (equalNoCase (upName p) name) eqn:E; pose proof (equalNoCase_spec (upName p) name Hne) as Q; rewrite E in Q.
    - left. exists [], p, ps. split; [reflexivity|]. split; [now apply Q|constructor].
    - assert (Np : ~ sameNoCase (upName p) name) by (intros H; apply Q in H; discriminate). destruct IH as [(b & q & c & -> & H1 & H2)|H]; [left; exists (p :: b), q, c; split; [reflexivity|]; split; [exact H1|now constructor]|right; now constructor]. }
  destruct name as [|c name]; [congruence|]. destruct D as [(b & q & r & E & H1 & H2)|H].
  - left. exists b, q, r. split; [exact E|]. split; [exact H1|]. split; [exact H2|]. cbn [askUri]. f_equal. eapply findParam_first; eauto.
  - right. split; [exact H|]. cbn [askUri]. f_equal. now apply findParam_none.
Qed.
Print Assumptions C57_param_exact.
(** The parameters that the parser stores apart under ParseSetSipUriKnownParam are not found by GetUriParamByName: the URI has a transport parameter, Encode writes it, and the
    search finds nothing. *)
Definition knownEnv : env := mkenv (Some 4096) true false false false false false true false false false true false false (fun _ => true) (fun _ => None) (fun _ => []).
Theorem C57_known_param_refuted : exists e a, legal e a /\
  memSession e a [] [SNew uriKind; SParse 0 (s2b "sip:h;transport=tcp;x=1"); SAsk 0 (QParam (s2b "X")); SAsk 0 (QParam (s2b "transport")); SEncode 0 []] =
  Some [(SvNew true, 26); (SvParse true [], 75); (SvAnswer (AParam (Some (s2b "1"))), 75); (SvAnswer ANothing, 75); (SvText (Some (s2b "sip:h;transport=tcp;x=1")), 75)].
Proof. exists knownEnv, exArena. split; [repeat split; try (intros; discriminate); cbn; lia|]. vm_compute. reflexivity. Qed.
Print Assumptions C57_known_param_refuted.

(** SetPort and SetSipUri/SetSipsUri on a parsed URI: from then on the port (the scheme) is the one given, everything else as parsed, and Encode writes the changed URI. *)
Theorem C57_set_port : forall e a u k n0 q x pre, legal e a -> eUriNoEscape e = false -> wfSipUri e u -> uriFollow u k -> aused a + 18 + 57 + 9 * len (encSipUri e u ++ k) < cap a -> n0 < two16 ->
  (match q with QPort => x = ANum n0 | QHasPort => x = ABool true | _ => askUri u q = Some x end) ->
  exists n, memSession e a [] [SNew uriKind; SParse 0 (encSipUri e u ++ k); SEdit 0 (EdPort n0); SAsk 0 q; SEncode 0 pre] =
    Some [(SvNew true, aused a + 18); (SvParse true k, n); (SvEdit true, n); (SvAnswer x, n);
          (SvText (Some (pre ++ encSipUri e (mkuri (uSecure u) (uUser u) (uPass u) (mkhp (hpHost (uHost u)) (Some n0)) (uKnown u) (uParams u) (uHeaders u)))), n)].
Proof.
  intros e a u k n0 q x pre Hl He Hwf Hf L L0 Hq. destruct (uri_says e a u k Hl He Hwf Hf L) as (n & Ln & R). exists n. apply (R [SEdit 0 (EdPort n0); SAsk 0 q; SEncode 0 pre]).
  unfold uriKind. cbn [valSession valStep nth_error editReads andb sEditV]. replace (n0 <? two16) with true by lia. unfold ret at 1. cbn [used setAt nth_error]. rewrite N.eqb_refl. unfold ltMem. rewrite (proj1 Hl). replace (n <? cap a) with true by lia. cbn [wExt sExt extObj negb orb andb askValue].
  assert (Ex : askUri (mkuri (uSecure u) (uUser u) (uPass u) (mkhp (hpHost (uHost u)) (Some n0)) (uKnown u) (uParams u) (uHeaders u)) q = Some x) by (destruct q; cbn [askUri hpPort uHost] in *; try exact Hq; now rewrite Hq).
  rewrite Ex. cbn [extObj negb orb sExt wExt]. replace (n <? cap a) with true by lia. reflexivity.
Qed.
Print Assumptions C57_set_port.
Theorem C57_set_scheme : forall e a u k b q x pre, legal e a -> eUriNoEscape e = false -> wfSipUri e u -> uriFollow u k -> aused a + 18 + 57 + 9 * len (encSipUri e u ++ k) < cap a ->
  (match q with QIsSipUri => x = ABool (negb b) | QIsSipsUri => x = ABool b | _ => askUri u q = Some x end) ->
  exists n, memSession e a [] [SNew uriKind; SParse 0 (encSipUri e u ++ k); SEdit 0 (EdSecure b); SAsk 0 q; SEncode 0 pre] =
    Some [(SvNew true, aused a + 18); (SvParse true k, n); (SvEdit true, n); (SvAnswer x, n);
          (SvText (Some (pre ++ encSipUri e (mkuri b (uUser u) (uPass u) (uHost u) (uKnown u) (uParams u) (uHeaders u)))), n)].
Proof.
  intros e a u k b q x pre Hl He Hwf Hf L Hq. destruct (uri_says e a u k Hl He Hwf Hf L) as (n & Ln & R). exists n. apply (R [SEdit 0 (EdSecure b); SAsk 0 q; SEncode 0 pre]).
  unfold uriKind. cbn [valSession valStep nth_error editReads andb sEditV]. unfold ret at 1. cbn [used setAt nth_error]. rewrite N.eqb_refl. unfold ltMem. rewrite (proj1 Hl). replace (n <? cap a) with true by lia. cbn [wExt sExt extObj negb orb andb askValue].
  assert (Ex : askUri (mkuri b (uUser u) (uPass u) (uHost u) (uKnown u) (uParams u) (uHeaders u)) q = Some x) by (destruct q; cbn [askUri hpPort uHost uSecure] in *; try exact Hq; now rewrite Hq).
  rewrite Ex. cbn [extObj negb orb sExt wExt]. replace (n <? cap a) with true by lia. reflexivity.
Qed.
Print Assumptions C57_set_scheme.

(** ** Addresses *)
(** hasDisplayName says the opposite: true exactly for the addresses that were parsed without a display name. IsSipUri and IsSipsUri look at the URI; both say no for a tel URI. *)
Theorem C57_addr : forall e a ps x k q, legal e a -> eUriNoEscape e = false -> wfAddr e x -> addrFollow e ps x k -> aused a + 10 + 57 + 9 * len (encAddr e x ++ k) < cap a ->
  let ans := match q with
             | QHasDisplayName => Some (match aName x with Some _ => false | None => true end)
             | QIsSipUri => Some (match aUri x with ASip u => negb (uSecure u) | ATel _ => false end)
             | QIsSipsUri => Some (match aUri x with ASip u => uSecure u | ATel _ => false end)
             | _ => None
             end in
  forall b, ans = Some b -> exists n, memSession e a [] [SNew (SK (WKObj (KAddr ps))); SParse 0 (encAddr e x ++ k); SAsk 0 q] = Some [(SvNew true, aused a + 10); (SvParse true k, n); (SvAnswer (ABool b), n)].
Proof.
  intros e a ps x k q Hl He Hwf Hf L ans b Hb. pose proof Hl as (M0 & L1 & L2 & L3 & Hn).
  destruct (C28_addr_round_trip e ps x k (aused a + 10) He Hwf Hf) as (n & E); [unfold roomFor; rewrite M0; lia|].
  pose proof (nine_used _ _ _ _ _ _ _ (n_addr ps) ltac:(cbn; lia) E) as GM. cbn [used rest] in GM. exists n.
  eapply (C57_answer e a (WKObj (KAddr ps)) (encAddr e x ++ k) _ (mkst k n) [] _ _ [] q (ABool b) Hl).
  - cbn [sValue objValue ssize objSize]. unfold bind. rewrite E. reflexivity.
  - cbn [valSession valStep isStruct ssize objSize]. unfold allocStruct, leMem. rewrite M0. cbn [used rest]. replace (aused a + 10 <=? cap a) with true by lia. cbn [sFresh app nth_error isStruct sCorner negb andb used].
    cbn [sValue objValue]. unfold bind. rewrite E. reflexivity.
  - constructor.
  - constructor.
  - cbn. lia.
  - cbn. discriminate.
  - cbn [askValue askAddr]. destruct q; cbn in ans; try discriminate; unfold ans in Hb; injection Hb as <-; reflexivity.
Qed.
Print Assumptions C57_addr.

(** ** Headers of a message *)
(** None of the header's values is stored apart. *)
Definition notApart (h : hset) (i : N) : Prop := forall vs, In (i, vs) (combine (slotIndexes OMsg) (hsCommon h)) -> vs = [].
Lemma findCommon_cases l i : match findCommon l i with Some vs => exists l1 l2, l = l1 ++ (i, vs) :: l2 /\ vs <> [] | None => forall vs, In (i, vs) l -> vs = [] end.
Proof.
  induction l as [|[j [|v vs]] l IH]; cbn [findCommon]; [intros vs []| |].
  - destruct (findCommon l i) as [ws|]; [destruct IH as (l1 & l2 & -> & H); exists ((j, []) :: l1), l2; auto|]. intros vs [E|H]; [now injection E|auto].
  - destruct (N.eqb_spec j i) as [->|Hj]; [exists [], l; split; [reflexivity|discriminate]|]. destruct (findCommon l i) as [ws|]; [destruct IH as (l1 & l2 & -> & H); exists ((j, v :: vs) :: l1), l2; auto|]. intros ws [E|H]; [injection E as E _; congruence|auto].
Qed.
Lemma slots_end e l : flat_map (encSlot e) l = [] \/ exists b, flat_map (encSlot e) l = b ++ CRLF.
Proof.
  induction l as [|[i vs] l IH]; [now left|]. cbn [flat_map]. destruct IH as [->|(b & ->)].
  - rewrite app_nil_r. unfold encSlot. destruct vs as [|v vs]; [now left|]. right. cbn [fst snd]. eexists. rewrite !app_assoc. reflexivity.
  - right. exists (encSlot e (i, vs) ++ b). now rewrite app_assoc.
Qed.
(** GetHeaderByIndex on any message: either the header is stored apart, and the text of its values stands in a line of its own in what Encode writes, behind the header's name; or
    it is not, and the answer is the first of the other headers with that index, name and value as they were read; or there is none of either. *)
Theorem C57_header : forall e x i, List.length (hsCommon (mHdrs x)) = 19%nat -> i <> SIP_HDR_UNKNOWN -> exists ans, askMsg e x (QHeader i) = Some ans /\
  match ans with
  | AParsed t => exists before after, encHdrs OMsg e (mHdrs x) = before ++ hiName (slotInfo i) ++ s2b ": " ++ t ++ CRLF ++ after /\ (before = [] \/ exists b, before = b ++ CRLF)
  | ARaw n v => notApart (mHdrs x) i /\ exists l1 l2, hsRaw (mHdrs x) = l1 ++ mkraw i n v :: l2 /\ Forall (fun r => rId r <> i) l1
  | ANothing => notApart (mHdrs x) i /\ Forall (fun r => rId r <> i) (hsRaw (mHdrs x))
  | _ => False
  end.
Proof.
  intros e x i Hl Hi. cbn [askMsg]. unfold getHeaderByIndex. pose proof (findCommon_cases (combine (slotIndexes OMsg) (hsCommon (mHdrs x))) i) as F. destruct (findCommon _ i) as [vs|].
  - eexists. split; [reflexivity|]. cbv beta iota. destruct F as (l1 & l2 & El & Hv). unfold encHdrs. destruct (hsCommon (mHdrs x)) as [|s0 ss]; [discriminate|]. cbn [slotIndexes combine tl] in *. destruct l1 as [|y l1]; [injection El as E _; congruence|]. injection El as _ El. cbn [tl]. rewrite El.
    rewrite flat_map_app. cbn [flat_map]. exists (flat_map (encSlot e) l1), (flat_map (encSlot e) l2 ++ encRawHeaders (hsRaw (mHdrs x))). split; [|apply slots_end].
    unfold encSlot at 2. destruct vs as [|v vs]; [congruence|]. cbn [fst snd valuesText]. rewrite <- !app_assoc. reflexivity.
  - pose proof (C35_find_known (hsRaw (mHdrs x)) i) as K. destruct (findKnownRaw (hsRaw (mHdrs x)) i) as [r|].
    + eexists. split; [reflexivity|]. cbn [rawAnswer]. split; [exact F|]. destruct K as (l1 & l2 & E & Er & Fl). exists l1, l2. split; [|exact Fl]. rewrite E. destruct r; cbn in *. now subst.
    + eexists. split; [reflexivity|]. split; [exact F|exact K].
Qed.
Print Assumptions C57_header.

(** ** RemoveContentHeaders on a parsed message *)
(** What is left of the other headers: all of them, if none is a Content-* header; else the first one that is not (if it stands before the last Content-* header) and those behind the
    last Content-* header. *)
Definition rawsLeft (l l' : list raw) : Prop :=
  (Forall (fun r => ~ isContent r) l -> l' = l) /\
  (forall a c b, l = a ++ c :: b -> isContent c -> Forall (fun r => ~ isContent r) b ->
    (Forall isContent a -> l' = b) /\ (forall a1 y a2, a = a1 ++ y :: a2 -> Forall isContent a1 -> ~ isContent y -> l' = y :: b)).
(** What is left of the message. *)
Definition contentGone (x x' : msg) : Prop :=
  mStart x' = mStart x /\ mBodies x' = mBodies x /\ rawsLeft (hsRaw (mHdrs x)) (hsRaw (mHdrs x')) /\ List.length (hsCommon (mHdrs x')) = List.length (hsCommon (mHdrs x)) /\
  forall k d, nth_error (slotIndexes OMsg) k = Some d -> nth_error (hsCommon (mHdrs x')) k = if d =? SIP_HDR_CONTENT_DISPOSITION then Some [] else nth_error (hsCommon (mHdrs x)) k.
Lemma test_false r : contentTest r = false <-> ~ isContent r.
Proof. pose proof (contentTest_spec r) as H. destruct (contentTest r); split; intros Q; [discriminate|exfalso; apply Q, H; reflexivity|intros C; apply H in C; discriminate|reflexivity]. Qed.
Lemma afterLast_none l : Forall (fun r => ~ isContent r) l -> afterLastBy contentTest l = None.
Proof. induction 1 as [|x l Hx _ IH]; [reflexivity|]. cbn [afterLastBy]. rewrite IH. apply test_false in Hx. now rewrite Hx. Qed.
Lemma afterLast_some a c b : isContent c -> Forall (fun r => ~ isContent r) b -> afterLastBy contentTest (a ++ c :: b) = Some b.
Proof.
  intros Hc Hb. induction a as [|x a IH]; cbn [app afterLastBy]; [|now rewrite IH]. rewrite (afterLast_none b Hb). apply contentTest_spec in Hc. now rewrite Hc.
Qed.
Lemma removeBy_lead a b : Forall isContent a -> removeBy contentTest (a ++ b) = removeBy contentTest b.
Proof. induction 1 as [|x l Hx _ IH]; [reflexivity|]. cbn [app removeBy]. apply contentTest_spec in Hx. now rewrite Hx. Qed.
Lemma removeBy_none l : Forall (fun r => ~ isContent r) l -> removeBy contentTest l = l.
Proof. intros H. destruct H as [|x l Hx Hl]; [reflexivity|]. cbn [removeBy]. rewrite (afterLast_none l Hl). apply test_false in Hx. now rewrite Hx. Qed.
Lemma removeRaws_left l : rawsLeft l (removeRaws l).
Proof.
  split; [apply removeBy_none|]. intros a c b -> Hc Hb. split.
  - intros Ha. unfold removeRaws. rewrite (removeBy_lead a _ Ha). cbn [removeBy]. apply contentTest_spec in Hc. rewrite Hc. now apply removeBy_none.
  - intros a1 y a2 -> Ha1 Hy. unfold removeRaws. rewrite <- app_assoc, (removeBy_lead a1 _ Ha1). cbn [app removeBy]. apply test_false in Hy. rewrite Hy. now rewrite (afterLast_some a2 c b Hc Hb).
Qed.
Lemma removeContent_gone x : List.length (hsCommon (mHdrs x)) = 19%nat -> contentGone x (removeContent x).
Proof.
  intros L. split; [reflexivity|]. split; [reflexivity|]. split; [apply removeRaws_left|]. cbn [removeContent mHdrs hsCommon]. rewrite setNth_length. split; [reflexivity|].
  intros k d Hk. assert (Hk' : (k < 19)%nat) by (apply (nth_error_Some (slotIndexes OMsg) k); congruence).
  destruct (hsCommon (mHdrs x)) as [|v0 l] eqn:E0; [discriminate|]. do 18 (destruct l as [|? l]; [discriminate|]). destruct l; [|discriminate].
  do 19 (destruct k as [|k]; [cbn in Hk; injection Hk as <-; reflexivity|]). lia.
Qed.
(** No Content-* header is left: the questions for them find nothing. *)
Lemma removeRaws_clean l : Forall (fun r => ~ isContent r) (removeRaws l).
Proof.
  assert (G : forall l r, afterLastBy contentTest l = Some r -> Forall (fun r => ~ isContent r) r).
  { clear l. induction l as [|x l IH]; intros r; cbn [afterLastBy]; [discriminate|]. destruct (afterLastBy contentTest l) as [r0|] eqn:E; [intros H; injection H as <-; now apply IH|]. destruct (contentTest x); [|discriminate]. intros H. injection H as <-.
    clear IH. induction l as [|y l IHl]; [constructor|]. cbn [afterLastBy] in E. destruct (afterLastBy contentTest l); [discriminate|]. destruct (contentTest y) eqn:Ey; [discriminate|]. constructor; [now apply test_false|now apply IHl]. }
  assert (N0 : forall l, afterLastBy contentTest l = None -> Forall (fun r => ~ isContent r) l).
  { clear l. induction l as [|y l IHl]; intros E; [constructor|]. cbn [afterLastBy] in E. destruct (afterLastBy contentTest l); [discriminate|]. destruct (contentTest y) eqn:Ey; [discriminate|]. constructor; [now apply test_false|now apply IHl]. }
  unfold removeRaws. induction l as [|x l IH]; cbn [removeBy]; [constructor|]. destruct (contentTest x) eqn:Ex; [exact IH|]. constructor; [now apply test_false|]. destruct (afterLastBy contentTest l) as [r|] eqn:El; [eapply G; eauto|now apply N0].
Qed.
(** The session: parse, RemoveContentHeaders, ask for a header, Encode. The answer and the text are those of the message without the headers. *)
Lemma removed_ext x : extMsg (removeContent x) = true -> extMsg x = true.
Proof.
  unfold extMsg, removeContent. cbn [mStart mHdrs hsCommon]. intros H. apply orb_true_iff in H as [->|H]; [reflexivity|]. apply orb_true_iff. right. revert H. generalize 12%nat as n, (hsCommon (mHdrs x)) as l.
  intros n l. revert n. induction l as [|v l IH]; intros [|n]; cbn [setNth existsb]; auto.
  - cbn [orb]. intros ->. apply orb_true_r.
  - intros H. apply orb_true_iff in H as [->|H]; [reflexivity|]. rewrite (IH _ H). apply orb_true_r.
Qed.
Theorem C57_removed : forall e a t x s q ans pre text x' s', legal e a -> parseMsg e (mkst t (aused a + 68)) = Ok x s -> cornerCase e t (aused a + 68) = false -> aused a + 68 <= cap a -> used s < cap a -> (extMsg x = true -> used s < 32768) ->
  exists y, contentGone x y /\ Forall (fun r => ~ isContent r) (hsRaw (mHdrs y)) /\
   (askMsg e y q = Some ans -> encMsg pre y e (mkst [] (used s)) = Ok (text, x') s' -> len text < two32 ->
    memSession e a [] [SNew (SK WKMsg); SParse 0 t; SEdit 0 EdRemoveContent; SAsk 0 q; SEncode 0 pre] =
      Some [(SvNew true, aused a + 68); (SvParse true (rest s), used s); (SvEdit true, used s); (SvAnswer ans, used s); (SvText (Some text), used s')]).
Proof.
  intros e a t x s q ans pre text x' s' Hl Hp Hc Lz Lc Lt. pose proof Hl as (M0 & L1 & L2 & L3 & Hn). exists (removeContent x). split; [|split].
  - apply removeContent_gone. exact (proj1 (C36_parsed e _ x s Hp)).
  - cbn [removeContent mHdrs hsRaw]. apply removeRaws_clean.
  - intros Ha He Ht. apply C55_session; [exact Hl|]. cbn [valSession valStep isStruct ssize sFresh]. unfold allocStruct, leMem. rewrite M0. cbn [used rest]. replace (aused a + 68 <=? cap a) with true by lia. cbn [app nth_error isStruct sCorner used]. rewrite Hc. cbn [negb andb sValue].
    unfold bind, ret. rewrite Hp. cbn [setAt used rest nth_error editReads sEditV negb andb]. unfold ltMem. rewrite M0. replace (used s <? cap a) with true by lia. cbn [negb andb sEditV]. unfold ret. cbn [used setAt nth_error askValue]. assert (Xt : (negb (extMsg (removeContent x)) || (used s <? 32768)) = true) by (destruct (extMsg (removeContent x)) eqn:Ex; [specialize (Lt (removed_ext x Ex)); cbn [negb orb]; apply N.ltb_lt; lia|reflexivity]). cbn [sExt wExt]. rewrite Xt. cbn [andb]. rewrite Ha.
    assert (C : (used s <? cap a) = true) by lia. rewrite ?C. cbn [sExt wExt andb]. rewrite ?Xt, ?C. cbn [andb sExt wExt sEncoding wEncoding]. rewrite ?Xt. cbn [andb sEncoding wEncoding]. rewrite He. replace (len text <? two32) with true by lia. reflexivity.
Qed.
Print Assumptions C57_removed.

(** ** After Encode *)
Lemma findCommon_set h j v i : nth j (slotIndexes OMsg) 0 <> i -> findCommon (combine (slotIndexes OMsg) (setNth (hsCommon h) j v)) i = findCommon (combine (slotIndexes OMsg) (hsCommon h)) i.
Proof.
  generalize (slotIndexes OMsg) as l, (hsCommon h) as c. intros l c. revert j c. induction l as [|k l IH]; intros j [|w c] Hn; try (destruct j; reflexivity).
  destruct j as [|j]; cbn [setNth combine nth] in *.
  - cbn [findCommon]. destruct (N.eqb_spec k i) as [Ek|_]; [congruence|]. destruct w, v; reflexivity.
  - cbn [findCommon]. rewrite IH by exact Hn. reflexivity.
Qed.
Lemma ask_setNth e st h b b' j v i : nth j (slotIndexes OMsg) 0 <> i -> askMsg e (mkmsg st (mkhset (setNth (hsCommon h) j v) (hsRaw h)) b) (QHeader i) = askMsg e (mkmsg st h b') (QHeader i).
Proof. intros Hn. cbn [askMsg mHdrs]. unfold getHeaderByIndex. cbn [hsCommon hsRaw]. now rewrite findCommon_set. Qed.
Lemma findCommon_at : forall l i j c, nth_error l j = Some i -> List.length c = List.length l -> nth j c [] <> [] -> (forall k, (k < j)%nat -> nth k l 0 <> i) -> findCommon (combine l c) i = Some (nth j c []).
Proof.
  induction l as [|a l IH]; intros i [|j] [|v c] En Lc Hv Hk; try discriminate; cbn [nth_error nth combine] in *.
  - injection En as ->. destruct v as [|x v]; [congruence|]. cbn [findCommon]. now rewrite N.eqb_refl.
  - cbn [findCommon]. assert (E : (a =? i) = false) by (apply N.eqb_neq; exact (Hk 0%nat ltac:(lia))). rewrite E. cbn [List.length] in Lc. rewrite (IH i j c En ltac:(lia) Hv); [destruct v; reflexivity|]. intros k Hk0. exact (Hk (S k) ltac:(lia)).
Qed.
(** Encode creates a Content-Length (and with several bodies a boundary); every other header is answered as before. The Content-Length in the object is not the one in the text: it
    keeps the number that was there before (0 if there was none). *)
Theorem C57_after_encode : forall e pre m s text m' s', lengthSlot (mHdrs m) -> encMsg pre m e s = Ok (text, m') s' ->
  (forall i, i <> SIP_HDR_CONTENT_LENGTH -> (hasMulti m = true -> i <> SIP_HDR_CONTENT_TYPE) -> askMsg e m' (QHeader i) = askMsg e m (QHeader i)) /\
  askMsg e m' QMultiBody = askMsg e m QMultiBody /\
  askMsg e m' (QHeader SIP_HDR_CONTENT_LENGTH) = Some (AParsed (encContentLength (statedLength (mHdrs m)))).
Proof.
  intros e pre m s text m' s' W E. split; [|split].
  - intros i H7 H10. destruct (encMsg_text e pre m s text m' s' W E) as (b & S0 & _ & L & H & _). destruct m' as [st h bs]. cbn [mStart mHdrs] in *. subst st.
    assert (Q : askMsg e (mkmsg (mStart m) (withLength (statedLength (mHdrs m)) (mHdrs m)) []) (QHeader i) = askMsg e m (QHeader i)) by (unfold withLength; rewrite (ask_setNth e (mStart m) (mHdrs m) [] (mBodies m) 7) by (vm_compute; vm_compute in H7; congruence); destruct m; reflexivity).
    destruct (hasMulti m).
    + destruct H as (s1 & s2 & H). unfold findOrCreateBoundary in H. apply bind_inv in H as (v & s3 & _ & H). apply bind_inv in H as (vb & s4 & _ & H). injection H as <- _ _. rewrite (ask_setNth e (mStart m) (withLength (statedLength (mHdrs m)) (mHdrs m)) bs [] 10) by (specialize (H10 eq_refl); vm_compute; vm_compute in H10; congruence). exact Q.
    + subst h. exact Q.
  - cbn [askMsg]. f_equal. f_equal. unfold encMsg, withEnv in E. apply bind_inv in E as (h1 & s1 & _ & E). apply bind_inv in E as (hb & s2 & _ & E). unfold hasMulti in *. destruct (mBodies m) as [|b [|b2 bs]] eqn:Eb; injection E as _ <- _; reflexivity.
  - destruct (encMsg_text e pre m s text m' s' W E) as (b & S0 & N7 & L & _). cbn [askMsg]. unfold getHeaderByIndex.
    assert (F : findCommon (combine (slotIndexes OMsg) (hsCommon (mHdrs m'))) SIP_HDR_CONTENT_LENGTH = Some (nth 7 (hsCommon (mHdrs m')) [])).
    { apply (findCommon_at (slotIndexes OMsg) SIP_HDR_CONTENT_LENGTH 7); [reflexivity|rewrite L; reflexivity|rewrite N7; discriminate|]. intros k Hk. do 7 (destruct k as [|k]; [vm_compute; discriminate|]). lia. }
    rewrite F, N7. unfold valuesText. change (hiMulti (slotInfo SIP_HDR_CONTENT_LENGTH)) with false. cbv iota. rewrite app_nil_r. reflexivity.
Qed.
Print Assumptions C57_after_encode.

(** ** Examples *)
Definition exAsk : bytes := s2b "INVITE sip:b@h SIP/2.0" ++ CRLF ++ s2b "Subject: one" ++ CRLF ++ s2b "Via: SIP/2.0/UDP a, SIP/2.0/TCP b;x" ++ CRLF ++ s2b "Date: now" ++ CRLF ++ s2b "Content-Encoding: gzip" ++ CRLF ++ s2b "X-Y: z" ++ CRLF ++ s2b "Subject: two" ++ CRLF ++ s2b "Content-Type: text/plain" ++ CRLF ++ CRLF ++ s2b "hello".
Definition exAsks : list sop := [SNew (SK WKMsg); SParse 0 exAsk; SAsk 0 (QHeader SIP_HDR_SUBJECT); SAsk 0 (QHeader SIP_HDR_VIA); SAsk 0 (QHeader SIP_HDR_DATE); SAsk 0 (QHeader SIP_HDR_CONTENT_LENGTH); SEncode 0 []; SAsk 0 (QHeader SIP_HDR_CONTENT_LENGTH);
  SEdit 0 EdRemoveContent; SAsk 0 (QHeader SIP_HDR_DATE); SAsk 0 (QHeader SIP_HDR_CONTENT_ENCODING); SAsk 0 (QHeader SIP_HDR_SUBJECT); SAsk 0 QMultiBody; SEncode 0 []].
(** RemoveContentHeaders takes the Date header along (C39); asked for Date afterwards, the message has none. *)
Theorem C57_removed_refuted : exists outs, legal exEnv exArena /\ memSession exEnv exArena [] exAsks = Some outs /\
  map (fun n => exSeen n outs) [2; 3; 4; 5; 7; 9; 10; 11; 12]%nat =
    map (fun x => Some (SvAnswer x)) [ARaw None (s2b "one"); AParsed (s2b "SIP/2.0/UDP a, SIP/2.0/TCP b;x"); ARaw None (s2b "now"); ANothing; AParsed (s2b "         0"); ANothing; ANothing; ARaw None (s2b "one"); ABool false].
Proof. eexists. split; [repeat split; try (intros; discriminate); cbn; lia|]. split; [vm_compute; reflexivity|]. vm_compute. reflexivity. Qed.
Print Assumptions C57_removed_refuted.
(** hasDisplayName is the wrong way round. *)
Theorem C57_display_name_refuted : legal exEnv exArena /\
  memSession exEnv exArena [] [SNew (SK (WKObj (KAddr false))); SParse 0 (s2b "Bob <sip:b@h>"); SAsk 0 QHasDisplayName; SParse 0 (s2b "<sip:b@h>"); SAsk 0 QHasDisplayName] =
  Some [(SvNew true, 18); (SvParse true [], 53); (SvAnswer (ABool false), 53); (SvParse true [], 77); (SvAnswer (ABool true), 77)].
Proof. split; [repeat split; try (intros; discriminate); cbn; lia|]. vm_compute. reflexivity. Qed.
Print Assumptions C57_display_name_refuted.
(** The hypotheses of C57_answer: another message is parsed and encoded in between and given back. *)
Example C57_answer_case : exists o s o1 o2 outs, let ops := [SNew (SK WKMsg); SParse 1 exMulti; SEncode 1 []; SEncode 0 (s2b "> "); SAsk 0 QUser; SFreePart 80] in let t := s2b "sip:a%20b:p@h:99;lr;X=1;x=2?q=r z" in
  sValue uriKind exEnv (mkst t (aused exArena + 18)) = Ok (SO o) s /\ valSession exEnv 8 [] (SNew uriKind :: SParse 0 t :: ops) = Some (o1 :: o2 :: outs) /\ Forall (leaves (WKObj KSipUri)) ops /\ Forall (fun v => used s <= snd v) outs /\
  lastUsed (used s) outs = 88 /\ map (askValue exEnv o) [QUser; QPassword; QPort; QParam (s2b "x"); QParam (s2b "y"); QHasPort; QIsIpv4] = map Some [AText (s2b "a b"); AText (s2b "p"); ANum 99; AParam (Some (s2b "1")); ANothing; ABool true; ABool false].
Proof.
  do 5 eexists. cbv zeta. split; [vm_compute; reflexivity|]. split; [vm_compute; reflexivity|]. split; [repeat (constructor; [vm_compute; try exact Logic.I; discriminate|]); constructor|]. split; [repeat (constructor; [vm_compute; discriminate|]); constructor|]. split; vm_compute; reflexivity.
Qed.
(** The hypotheses of C57_uri and C57_addr are those of C22_uri_round_trip and C28_addr_round_trip, with an arena; here with a URI that has everything. *)
Definition exAskUri : sipuri := mkuri true (Some (s2b "a b")) (Some (s2b "p:w")) (mkhp (HIpv4 10 0 0 1) (Some 99)) None [mkup (s2b "lr") None; mkup (s2b "X") (Some (s2b "1")); mkup (s2b "x") (Some (s2b "2"))] [].
Example C57_uri_case : legal exEnv exArena /\ eUriNoEscape exEnv = false /\ wfSipUri exEnv exAskUri /\ uriFollow exAskUri (s2b ">;tag") /\ aused exArena + 18 + 57 + 9 * len (encSipUri exEnv exAskUri ++ s2b ">;tag") < cap exArena /\
  encSipUri exEnv exAskUri = s2b "sips:a%20b:p%3Aw@10.0.0.1:99;lr;X=1;x=2".
Proof.
  split; [repeat split; try (intros; discriminate); cbn; lia|]. split; [reflexivity|]. split; [|split; [|split; [vm_compute; reflexivity|vm_compute; reflexivity]]].
  - split; [split; [discriminate|repeat constructor]|]. split; [repeat constructor|]. split; [|split; [|split]].
    + repeat split; vm_compute; reflexivity.
    + split; [discriminate|exact Logic.I].
    + apply Forall_cons; [split; [discriminate|]; split; [repeat constructor|exact Logic.I]|]. apply Forall_cons; [split; [discriminate|]; split; [repeat constructor|]; split; [discriminate|repeat constructor]|]. apply Forall_cons; [split; [discriminate|]; split; [repeat constructor|]; split; [discriminate|repeat constructor]|]. apply Forall_nil.
    + constructor.
  - split; [vm_compute; auto|]. split; [discriminate|]. intros X; discriminate X.
Qed.
