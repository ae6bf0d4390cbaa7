(** C62: from the text to the bytes of the arena and back: the grammar, the memory and the encoder together. *)
From Verif Require Import Base BaseLemmas Charset CharsetSpec Num NumSpec Lws LwsSpec Str StrSpec StrProofs QuotedSpec MethodTree HeaderTree NameSpec Monad Good Room Rt Seq Inv
  Host HostSpec Uri UriSpec UriSound Tel TelSpec GenParam GenParamSpec Addr AddrSpec AddrProofs StartLine StartLineSpec StartLineProofs Headers HeadersSpec HeadersProofs RawHeaders RawSpec RawProofs Msg MsgSpec MsgProofs MsgRt MsgEnc
  GrammarSpec Exact ExactUri GrammarMsg ExactMsg ExactHead GrammarWhole ExactName ExactWhole Nine NineParse Inside
  Arena ArenaProofs Layout Mem MemSim MemRep MemHistory MemStartProofs MemHdrProofs MemBlocks MemMsg MemMsgProofs MemHeadersProofs MemBodyProofs MemMsgTop
  P05_Uri P12_Messages P13_Discipline Extension P18_Memory MemWorld P19_World ParsedSpec P20_Stable P21_StableMsg P26_Grammar P27_Whole P29_Memory.
From Coq Require Import String.
Local Open Scope N_scope.

(** ** Specification *)
(** The grammar of the texts of each kind of object (without the memory, which the grammar does not mention). *)
Inductive ObjRead (e : env) : kind -> bytes -> obj -> bytes -> Prop :=
| ORSipUri t u k : SipUriRead e t u k -> ObjRead e KSipUri t (OSipUri u) k
| ORTelUri t x k : TelUriRead e t x k -> ObjRead e KTelUri t (OTelUri x) k
| ORAddr b t x k : AddrRead e b t x k -> ObjRead e (KAddr b) t (OAddr x) k
| ORStartLine t l k : StartLineRead e t l k -> ObjRead e KStartLine t (OStartLine l) k
| ORHdr h t v k : LineRead e h t v k -> ObjRead e (KHdr h) t (OHdr v) k.
(** The message can be written: if it has several bodies, its Content-Type names a boundary. *)
Definition writable (m : msg) : Prop :=
  hasMulti m = true -> exists v p b, contentTypeOf (mHdrs m) = Some v /\ boundaryParam v = Some p /\ gvalueText (gpValue p) = Some b.

(** ** Room *)
Lemma lengthEnd_mem n e p h : lengthEnd (withMem n e) p h = lengthEnd e p h.
Proof.
  unfold lengthEnd. f_equal. f_equal. f_equal; [apply flat_map_ext; intros; apply encSlot_mem|]. destruct (contentLengthOf h); [|reflexivity]. f_equal. f_equal. unfold encSlotValue. destruct (hiKind _); [apply encHVal_mem|reflexivity].
Qed.
Lemma encodes e pre m : writable m -> exists text m' d, d <= 8 /\ forall n r u, leMem (withMem n e) (u + 8) = true -> encMsg pre m (withMem n e) (mkst r u) = Ok (text, m') (mkst r (u + d)).
Proof.
  intros W.
  assert (G1 : exists h1 d, d <= 8 /\ contentTypeOf h1 = contentTypeOf (mHdrs m) /\ forall n r u, leMem (withMem n e) (u + 8) = true -> ensureLength (mHdrs m) (withMem n e) (mkst r u) = Ok h1 (mkst r (u + d))).
  { unfold ensureLength. destruct (contentLengthOf (mHdrs m)) as [v|].
    - exists (mHdrs m), 0. split; [lia|]. split; [reflexivity|]. intros n r u _. unfold ret. now rewrite N.add_0_r.
    - eexists _, 8. split; [lia|]. split; [|intros n r u H; unfold bind, allocStruct; cbn [used rest]; rewrite H; reflexivity].
      unfold contentTypeOf. cbn [hsCommon]. now rewrite setNth_nth_ne by discriminate. }
  destruct G1 as (h1 & d & Ld & Ct & G1).
  assert (G2 : exists hb, forall n s, (if hasMulti m then findOrCreateBoundary h1 else ret (h1, [])) (withMem n e) s = Ok hb s).
  { unfold writable in W. destruct (hasMulti m); [|eexists; reflexivity]. destruct (W eq_refl) as (v & p & b & W1 & W2 & W3). eexists. intros n s. unfold findOrCreateBoundary. rewrite Ct, W1. unfold bind, ret. rewrite W2, W3. reflexivity. }
  destruct G2 as [hb G2].
  assert (G3 : exists x, forall n s, (let h := fst hb in
  let head := pre ++ encStartLine (withMem n e) (mStart m) ++ encHdrs OMsg (withMem n e) h ++
    (if hasMulti m then match getHeaderByIndex h SIP_HDR_MIME_VERSION with None => s2b "MIME-Version: 1.0" ++ CRLF | Some _ => [] end else []) ++ CRLF in
  match mBodies m with
  | [] => ret (head, mkmsg (mStart m) h [])
  | bs =>
      let text := if hasMulti m then encMultipart (withMem n e) (snd hb) bs else encSingle bs in
      ret (patch (head ++ text) (lengthEnd (withMem n e) (pre ++ encStartLine (withMem n e) (mStart m)) h) (encUInt (len text)),
           mkmsg (mStart m) h (if hasMulti m then map fixLength bs else bs))
  end) (withMem n e) s = Ok x s).
  { cbv zeta. destruct (mBodies m) as [|b bs]; eexists; intros n s; rewrite ?encStartLine_mem, ?encHdrs_mem, ?encMultipart_mem, ?lengthEnd_mem; reflexivity. }
  destruct G3 as [[text m'] G3]. exists text, m', d. split; [exact Ld|]. intros n r u H. unfold encMsg, withEnv. unfold bind at 1. rewrite (G1 n r u H). unfold bind at 1. rewrite G2. apply G3.
Qed.
(** With that much room the parse does not fill the arena. *)
Lemma no_corner e r u : roomFor e (u + 57 + 9 * len r) -> cornerCase e r u = false.
Proof.
  intros R. unfold cornerCase. destruct (msgHeaders e (mkst r u)) as [h s| | |] eqn:E; auto. unfold msgHeaders in E. apply bind_inv in E as (l & s1 & E1 & E2). unfold onRest in E2. destruct (rest s1) as [|x q] eqn:Er; [discriminate|].
  pose proof (nine_used _ _ _ _ _ _ _ n_startLine ltac:(cbn; lia) E1) as K1. pose proof (nine_used _ _ _ _ _ _ _ (n_headers OMsg) ltac:(cbn; lia) E2) as K2. cbn [used rest] in K1.
  unfold emptyAtEnd. destruct (contentTypeOf h) as [v|]; [|reflexivity]. destruct (boundaryParam v) as [p|]; [|reflexivity]. destruct (gvalueText _) as [[|]|]; try reflexivity.
  unfold ltMem. unfold roomFor in R. destruct (memend e) as [m|]; [|reflexivity]. apply negb_false_iff, N.ltb_lt. lia.
Qed.

(** ** Messages *)
(** The bytes of the arena after Parse are the message that the grammar reads; the rest of the arena is as it was. *)
Theorem C62_message_accept : forall e a this t m k, legal e a -> allocated a this 68 -> aused a + 57 + 9 * len (t ++ k) <= cap a ->
  MessageRead (withMem None e) t m k ->
  exists a', mMsgParse this e a (t ++ k) = MOk tt a' k /\ repMsg (mem a') this (aused a) (aused a') m /\ touchesOnly this 68 a a' /\ aused a' <= aused a + 9 * len (t ++ k).
Proof.
  intros e a this t m k Hl Ha Hr H. assert (R : roomFor e (aused a + 57 + 9 * len (t ++ k))) by (unfold roomFor; destruct Hl as (-> & _); exact Hr).
  destruct (proj2 (C59_message_exact e _ _ m k R) (ex_intro _ t (conj eq_refl H))) as [u' E].
  pose proof (C48_message_parse e a (t ++ k) this Hl Ha (no_corner _ _ _ R)) as G. rewrite E in G. destruct G as (a' & G1 & G2 & G3 & G4). exists a'. cbn [rest used] in *. repeat (split; [assumption|]). rewrite G2. apply msg_used in E. exact E.
Qed.
Print Assumptions C62_message_accept.
(** The text consists of lines (ended by CRLF, no backslash before the line break), and a phone-context has a value: such a text does not make a parser crash or loop (see C32, C33). *)
Definition tame (r : bytes) : Prop :=
  ((exists lines, r = lines ++ [10]) \/ r = []) /\
  (forall a name b decoded, r = a ++ name ++ b -> Decodes (inset SIP_PNAME) name decoded -> sameNoCase decoded (s2b "phone-context") -> exists b', b = s2b "=" ++ b') /\
  (forall x y, r = x ++ 10 :: y -> exists x', x = x' ++ [13]) /\ (forall x y, r = x ++ 13 :: y -> (exists y', y = 10 :: y') /\ ~ (exists x', x = x' ++ [92])).
(** Exactly: Parse succeeds on the bytes, and leaves the text [k], if and only if the grammar has a reading that leaves [k]; on texts made of lines it returns in any case. *)
Theorem C62_message_exact : forall e a this r, legal e a -> allocated a this 68 -> aused a + 57 + 9 * len r <= cap a -> bigTables e = false \/ tame r ->
  (forall k, (exists a', mMsgParse this e a r = MOk tt a' k) <-> exists t m, r = t ++ k /\ MessageRead (withMem None e) t m k) /\
  (tame r -> (exists a' k, mMsgParse this e a r = MOk tt a' k) \/ exists a' k, mMsgParse this e a r = MFail a' k /\ touchesOnly this 68 a a').
Proof.
  intros e a this r Hl Ha Hr Hb. assert (R : roomFor e (aused a + 57 + 9 * len r)) by (unfold roomFor; destruct Hl as (-> & _); exact Hr).
  pose proof (C48_message_parse e a r this Hl Ha (no_corner _ _ _ R)) as G.
  assert (NP : tame r -> parseMsg e (mkst r (aused a)) <> Panic) by (intros (T1 & T2 & _); exact (C33_no_crash _ _ PMsg e (mkst r (aused a)) R T1 T2)).
  assert (NL : tame r -> parseMsg e (mkst r (aused a)) <> Loop) by (intros (_ & _ & T1 & T2); exact (C32_crlf_only _ _ PMsg e (mkst r (aused a)) T1 T2)).
  destruct (parseMsg e (mkst r (aused a))) as [m s|s| |] eqn:E.
  - destruct G as (a' & G1 & G2 & G3 & G4). split; [|intros _; left; eauto]. intros k. split.
    + intros (b & Q). rewrite G1 in Q. injection Q as _ Q. destruct s as [q u']. cbn [rest] in *. subst q. destruct (proj1 (C59_message_exact e r (aused a) m k R) (ex_intro _ u' E)) as (t & E1 & E2). eauto.
    + intros (t & m0 & E1 & E2). destruct (proj2 (C59_message_exact e r (aused a) m0 k R) (ex_intro _ t (conj E1 E2))) as [u' E3]. rewrite E in E3. injection E3 as _ ->. exists a'. exact G1.
  - destruct G as (a' & G1 & G2 & G3). split; [|intros _; right; eauto]. intros k. split; [intros (b & Q); rewrite G1 in Q; discriminate|].
    intros (t & m0 & E1 & E2). destruct (proj2 (C59_message_exact e r (aused a) m0 k R) (ex_intro _ t (conj E1 E2))) as [u' E3]. rewrite E in E3. discriminate.
  - destruct Hb as [Hb|Hb]; [|exfalso; exact (NP Hb eq_refl)]. split; [|intros T; exfalso; exact (NP T eq_refl)]. intros k. rewrite (G Hb). split; [intros (b & Q); discriminate|].
    intros (t & m0 & E1 & E2). destruct (proj2 (C59_message_exact e r (aused a) m0 k R) (ex_intro _ t (conj E1 E2))) as [u' E3]. rewrite E in E3. discriminate.
  - split; [|intros T; exfalso; exact (NL T eq_refl)]. intros k. rewrite G. split; [intros (b & Q); discriminate|].
    intros (t & m0 & E1 & E2). destruct (proj2 (C59_message_exact e r (aused a) m0 k R) (ex_intro _ t (conj E1 E2))) as [u' E3]. rewrite E in E3. discriminate.
Qed.
Print Assumptions C62_message_exact.

(** ** Reading and writing *)
(** NewSipMsg, Parse and Encode on the bytes of the arena: the text written is the encoding of the message that the grammar reads. *)
Lemma new_msg e a r t m k : legal e a -> aused a + 125 + 9 * len r <= cap a -> r = t ++ k -> MessageRead (withMem None e) t m k ->
  wCorner WKMsg e r (aused a) = false /\ exists u, wValue WKMsg e (mkst r (aused a)) = Ok (WMsg m) (mkst k u) /\ aused a <= u <= aused a + 68 + 9 * len r.
Proof.
  intros Hl Hr E H. assert (R : roomFor e (aused a + 68 + 57 + 9 * len r)) by (unfold roomFor; destruct Hl as (-> & _); lia). split; [apply no_corner; exact R|].
  destruct (proj2 (C59_message_exact e _ _ m k R) (ex_intro _ t (conj E H))) as [u E1]. exists u. pose proof (msg_used _ _ _ _ E1) as K. cbn [used rest] in K.
  pose proof (C31_position _ _ PMsg e (mkst r (aused a + 68))) as K2. rewrite E1 in K2. destruct K2 as [_ K2]. cbn [used] in K2. split; [|lia].
  unfold wValue, bind, allocStruct. cbn [used rest]. unfold leMem. destruct Hl as (-> & _). rewrite (proj2 (N.leb_le _ _)) by lia. rewrite E1. reflexivity.
Qed.
Lemma enc_given e pre m text m' s' : encMsg pre m (withMem None e) (mkst [] 8) = Ok (text, m') s' -> writable m -> exists d, d <= 8 /\ forall n r u, leMem (withMem n e) (u + 8) = true -> encMsg pre m (withMem n e) (mkst r u) = Ok (text, m') (mkst r (u + d)).
Proof. intros E W. destruct (encodes e pre m W) as (t & x & d & L1 & G). exists d. split; [exact L1|]. rewrite (G None [] 8 eq_refl) in E. injection E as -> -> _. exact G. Qed.
(** A message that was read can be written if it names the boundary between its bodies; otherwise not. *)
Lemma parsed_writable e s m s' pre x s2 : parseMsg e s = Ok m s' -> encMsg pre m (withMem None e) (mkst [] 8) = Ok x s2 -> writable m.
Proof.
  intros H E HM. destruct (parsed_boundary _ _ _ _ H HM) as (v & p & V1 & V2). exists v, p. unfold encMsg, withEnv in E. apply bind_inv in E as (h1 & s1 & E1 & E). apply bind_inv in E as (hb & s3 & E2 & _). rewrite HM in E2.
  assert (Ct : contentTypeOf h1 = contentTypeOf (mHdrs m)).
  { unfold ensureLength in E1. destruct (contentLengthOf (mHdrs m)); [now injection E1 as <- _|]. apply bind_inv in E1 as (w & s4 & _ & E1). injection E1 as <- _. unfold contentTypeOf. cbn [hsCommon]. now rewrite setNth_nth_ne by discriminate. }
  unfold findOrCreateBoundary in E2. rewrite Ct, V1 in E2. unfold bind, ret in E2. rewrite V2 in E2. destruct (gvalueText (gpValue p)) as [b|]; [|discriminate]. exists b. auto.
Qed.
Lemma read_parsed e t m k : MessageRead (withMem None e) t m k -> exists s', parseMsg (withMem None e) (mkst (t ++ k) 8) = Ok m s'.
Proof. intros H. destruct (proj2 (C59_message_exact (withMem None e) (t ++ k) 8 m k Logic.I) (ex_intro _ t (conj eq_refl H))) as [u E]. eauto. Qed.
Theorem C62_session : forall e a t m k pre text m' s', legal e a -> aused a + 134 + 9 * len (t ++ k) <= cap a -> (extMsg m = true -> aused a + 68 + 9 * len (t ++ k) < 32768) ->
  MessageRead (withMem None e) t m k -> encMsg pre m (withMem None e) (mkst [] 8) = Ok (text, m') s' -> len text < two32 ->
  exists u1 u2, memRun e a [] [ONew WKMsg (t ++ k); OEncode 0 pre] = Some [(EvNew true k, u1); (EvText (Some text), u2)] /\ u1 <= u2 <= u1 + 8.
Proof.
  intros e a t m k pre text m' s' Hl Hr H32 H E Ht. destruct (new_msg e a (t ++ k) t m k Hl ltac:(lia) eq_refl H) as (Hc & u1 & Hv & L1). destruct (read_parsed _ _ _ _ H) as [s1 Hp].
  destruct (enc_given _ _ _ _ _ _ E (parsed_writable _ _ _ _ _ _ _ Hp E)) as (d & Ld & G). exists u1, (u1 + d). split; [|lia]. apply C49_world; [exact Hl|]. cbn [valRun]. rewrite Hc, Hv. cbn [rest used option_map app nth_error].
  assert (M0 : memend e = Some (cap a)) by exact (proj1 Hl). unfold ltMem. rewrite M0. rewrite (proj2 (N.ltb_lt _ _)) by lia. assert (Xt : (negb (wExt (WMsg m)) || (u1 <? 32768)) = true) by (cbn [wExt]; destruct (extMsg m); [specialize (H32 eq_refl); cbn [negb orb]; apply N.ltb_lt; lia|reflexivity]). rewrite Xt. cbn [andb]. unfold wEncoding.
  specialize (G (memend e) [] u1). rewrite withMem_self in G. rewrite G by (unfold leMem; rewrite M0; apply N.leb_le; lia). rewrite (proj2 (N.ltb_lt _ _) Ht). reflexivity.
Qed.
Print Assumptions C62_session.

(** Read, write, read what was written, write again. [plainBodies]: what C50 asks of the bodies, if nothing follows the text. *)
Definition plainBodies (e : env) (m : msg) : Prop :=
  match mBodies m with
  | [] => noType (mHdrs m) \/ singleType (mHdrs m)
  | [b] => singleType (mHdrs m) /\ noLonger (statedLength (mHdrs m)) (len (bData b))
  | bs => Forall (fun x => plainHdrs OBody e (bHdrs x)) bs /\ ~ In 13 (boundaryOf (mHdrs m)) /\ noLonger (statedLength (mHdrs m)) (len (encMultipart e (boundaryOf (mHdrs m)) bs)) /\
          len (encMultipart e (boundaryOf (mHdrs m)) bs) < 4294967296
  end.
Lemma stable_any e0 s m s1 e s2 text m' s3 u : parseMsg e0 s = Ok m s1 -> netGood e0 -> e = withMem (memend e) e0 -> eUriNoEscape e = false -> plainLine e (mStart m) -> plainHdrs OMsg e (mHdrs m) ->
  plainBodies e m -> encMsg [] m e s2 = Ok (text, m') s3 -> exists x left, stable e x text [] left u.
Proof.
  intros H NG Ee He Pl Ph Pb E. unfold plainBodies in Pb. destruct (mBodies m) as [|b [|b2 bs]] eqn:Eb.
  - eexists _, _. apply (C50_message_no_body e0 s m s1 e s2 text m' s3 [] u); auto. destruct Pb; auto.
  - destruct Pb as [P1 P2]. eexists _, _. apply (C50_message_one_body e0 s m s1 e b s2 text m' s3 [] u); auto.
  - destruct Pb as (P1 & P2 & P3 & P4). eexists _, _. apply (C50_message_multipart e0 s m s1 e s2 text m' s3 [] u); auto; rewrite ?Eb; auto. cbn [List.length]. lia.
Qed.
Theorem C62_loop : forall e a t m k text m' s', legal e a -> netGood e -> eUriNoEscape e = false ->
  MessageRead (withMem None e) t m k -> plainLine e (mStart m) -> plainHdrs OMsg e (mHdrs m) -> plainBodies e m ->
  encMsg [] m (withMem None e) (mkst [] 8) = Ok (text, m') s' ->
  aused a + 220 + 9 * len (t ++ k) + 9 * len text <= cap a -> aused a + 144 + 9 * len (t ++ k) + 9 * len text < 32768 ->
  exists left u1 u2 u3, memRun e a [] [ONew WKMsg (t ++ k); OEncode 0 []; ONew WKMsg text; OEncode 1 []; OEncode 0 []] =
    Some [(EvNew true k, u1); (EvText (Some text), u2); (EvNew true left, u3); (EvText (Some text), u3); (EvText (Some text), u3)].
Proof.
  intros e a t m k text m' s' Hl NG He H Pl Ph Pb E Hr H32. destruct (new_msg e a (t ++ k) t m k Hl ltac:(lia) eq_refl H) as (Hc & u1 & Hv & L1). destruct (read_parsed _ _ _ _ H) as [s1 Hp].
  destruct (enc_given _ _ _ _ _ _ E (parsed_writable _ _ _ _ _ _ _ Hp E)) as (d & Ld & G).
  assert (M0 : memend e = Some (cap a)) by exact (proj1 Hl). pose proof (G (memend e) [] u1) as G1. rewrite withMem_self in G1. specialize (G1 ltac:(unfold leMem; rewrite M0; apply N.leb_le; lia)).
  destruct (stable_any (withMem None e) _ m _ e _ text m' _ (u1 + d + 68) Hp NG ltac:(destruct e; reflexivity) He Pl Ph Pb G1) as (x & left & y & (u3 & Lu & Ry) & _ & Ey). rewrite app_nil_r in Lu.
  exists left, u1, (u1 + d), u3. apply C49_world; [exact Hl|]. cbn [valRun]. rewrite Hc, Hv. cbn [rest used option_map app nth_error]. unfold ltMem, leMem.
  assert (Lt : len text < two32) by (destruct Hl as (_ & Hl & _); unfold two32; lia).
  rewrite M0. rewrite (proj2 (N.ltb_lt u1 (cap a))) by lia. rewrite (proj2 (N.ltb_lt u1 32768)) by lia. rewrite ?orb_true_r. cbn [andb]. unfold wEncoding at 1. rewrite G1, (proj2 (N.ltb_lt _ _) Lt). cbn [used setAt].
  assert (Hc2 : wCorner WKMsg e text (u1 + d) = false) by (apply no_corner; unfold roomFor; rewrite M0; lia). rewrite Hc2.
  assert (Hv2 : wValue WKMsg e (mkst text (u1 + d)) = Ok (WMsg y) (mkst left u3)).
  { unfold wValue, bind, allocStruct, leMem. cbn [used rest]. rewrite M0, (proj2 (N.leb_le _ _)) by lia. specialize (Ry (memend e)). rewrite M0 in Ry. specialize (Ry ltac:(lia)). rewrite app_nil_r in Ry. rewrite <- M0, withMem_self in Ry. rewrite Ry. reflexivity. }
  rewrite Hv2. cbn [rest used option_map app nth_error]. rewrite (proj2 (N.ltb_lt u3 (cap a))) by lia. rewrite (proj2 (N.ltb_lt u3 32768)) by lia. rewrite ?orb_true_r. cbn [andb]. unfold wEncoding at 1.
  destruct (Ey (memend e) (mkst [] u3)) as [y' Ey']. rewrite withMem_self in Ey'. rewrite Ey', (proj2 (N.ltb_lt _ _) Lt). cbn [used setAt nth_error]. 
  unfold wEncoding.
  pose proof (C43_encode_again e [] m _ text m' _ (proj1 (C36_parsed _ _ _ _ Hp)) G1 (memend e) (mkst [] u3)) as Ea. rewrite withMem_self in Ea. rewrite Ea.
  rewrite (proj2 (N.ltb_lt u3 (cap a))) by lia. rewrite (proj2 (N.ltb_lt u3 32768)) by lia. rewrite (proj2 (N.ltb_lt _ _) Lt), ?orb_true_r. reflexivity.
Qed.
Print Assumptions C62_loop.

(** ** The other objects *)
Lemma obj_exact e k r u o q : roomFor e (u + 57 + 9 * len r) ->
  ((exists u', objValue k e (mkst r u) = Ok o (mkst q u')) <-> exists t, r = t ++ q /\ ObjRead (withMem None e) k t o q).
Proof.
  intros R. assert (Aux : forall A (p : P A) (f : A -> obj) (Rd : bytes -> A -> bytes -> Prop), (forall v, (exists u', p e (mkst r u) = Ok v (mkst q u')) <-> exists t, r = t ++ q /\ Rd t v q) ->
    ((exists u', (v <- p ;; ret (f v)) e (mkst r u) = Ok o (mkst q u')) <-> exists t v, o = f v /\ r = t ++ q /\ Rd t v q)).
  { intros A p f Rd H. split.
    - intros [u' E]. apply bind_inv in E as (v & s & E1 & E2). injection E2 as <- ->. destruct (proj1 (H v) (ex_intro _ u' E1)) as (t & E3 & E4). eauto 6.
    - intros (t & v & -> & E1 & E2). destruct (proj2 (H v) (ex_intro _ t (conj E1 E2))) as [u' E3]. exists u'. unfold bind. now rewrite E3. }
  destruct k as [| |b| |h]; cbn [objValue]; (etransitivity; [apply Aux; intros v; first [apply (C58_sip_uri_exact e r u v q R)|apply (C58_tel_uri_exact e r u v q R)|apply (C58_addr_exact e b r u v q R)|apply (C58_start_line_exact e r u v q R)|apply (C58_header_exact e h r u v q R)]|]).
  all: split; [intros (t & v & -> & E1 & E2); exists t; split; [exact E1|constructor; exact E2]|intros (t & E1 & E2); exists t; inversion E2; subst; eauto].
Qed.
Lemma obj_used e k r u : roomFor e u -> match objValue k e (mkst r u) with Ok _ s' | Fail s' => u <= used s' <= u + 57 + 9 * len r | _ => True end.
Proof.
  intros R. assert (Aux : forall A (p : P A) (f : A -> obj), parser A p -> match (v <- p ;; ret (f v)) e (mkst r u) with Ok _ s' | Fail s' => u <= used s' <= u + 57 + 9 * len r | _ => True end).
  { intros A p f Hp. pose proof (C61_any A p Hp e (mkst r u) R) as K. pose proof (C31_position A p Hp e (mkst r u)) as K2. unfold bind, ret. destruct (p e (mkst r u)); cbn [used rest] in *; auto; destruct K2; lia. }
  destruct k as [| |b| |h]; cbn [objValue]; apply Aux; constructor.
Qed.
(** Parsing succeeds on the bytes exactly on the texts that the grammar reads; Encode then writes the encoding of what the grammar says was read. *)
Theorem C62_object : forall e a k t o q pre, legal e a -> aused a + objSize k + 58 + 9 * len (t ++ q) <= cap a -> (extObj o = true -> aused a + objSize k + 57 + 9 * len (t ++ q) < 32768) ->
  ObjRead (withMem None e) k t o q ->
  exists u, memRun e a [] [ONew (WKObj k) (t ++ q); OEncode 0 pre] = Some [(EvNew true q, u); (EvText (Some (pre ++ objEncoding e k o)), u)] /\ u <= aused a + objSize k + 57 + 9 * len (t ++ q).
Proof.
  intros e a k t o q pre Hl Hr H32 H. assert (M0 : memend e = Some (cap a)) by exact (proj1 Hl). assert (R : roomFor e (aused a + objSize k + 57 + 9 * len (t ++ q))) by (unfold roomFor; rewrite M0; lia).
  destruct (proj2 (obj_exact e k _ _ o q R) (ex_intro _ t (conj eq_refl H))) as [u E]. pose proof (obj_used e k (t ++ q) (aused a + objSize k) ltac:(unfold roomFor; rewrite M0; lia)) as K. rewrite E in K. cbn [used] in K.
  exists u. split; [|lia]. apply C49_world; [exact Hl|]. cbn [valRun wCorner wValue]. unfold bind, allocStruct, leMem, ltMem. cbn [used rest]. rewrite M0, (proj2 (N.leb_le _ _)) by lia. unfold bind in E. rewrite E. unfold ret. cbn [used rest app nth_error option_map].
  rewrite (proj2 (N.ltb_lt u (cap a))) by lia. assert (Xt : (negb (wExt (WObj o)) || (u <? 32768)) = true) by (cbn [wExt]; destruct (extObj o); [specialize (H32 eq_refl); cbn [negb orb]; apply N.ltb_lt; lia|reflexivity]). rewrite Xt. reflexivity.
Qed.
Print Assumptions C62_object.
(** A text that the grammar does not read is refused (or the parser crashes or loops: C17, C25, C32, C33). *)
Theorem C62_object_reject : forall e a k r, legal e a -> aused a + objSize k + 57 + 9 * len r <= cap a -> bigTables e = false \/ tame r ->
  (forall t o q, r = t ++ q -> ~ ObjRead (withMem None e) k t o q) ->
  (forall p a' q, wNew (WKObj k) e a r <> MOk p a' q) /\ (tame r -> exists q u, memRun e a [] [ONew (WKObj k) r] = Some [(EvNew false q, u)]).
Proof.
  intros e a k r Hl Hr Hb H. assert (M0 : memend e = Some (cap a)) by exact (proj1 Hl). assert (R : roomFor e (aused a + objSize k + 57 + 9 * len r)) by (unfold roomFor; rewrite M0; lia).
  assert (E : wValue (WKObj k) e (mkst r (aused a)) = match objValue k e (mkst r (aused a + objSize k)) with Ok o s => Ok (WObj o) s | Fail s => Fail s | Panic => Panic | Loop => Loop end).
  { cbn [wValue]. unfold bind, allocStruct, leMem. cbn [used rest]. rewrite M0, (proj2 (N.leb_le _ _)) by lia. destruct (objValue k e _); reflexivity. }
  pose proof Hl as Hl'. apply legal_wfA in Hl' as (Hw & Hn). pose proof (wNew_sim (WKObj k) e a r Hw Hn eq_refl) as S0. unfold sim in S0. rewrite E in S0.
  assert (T : tame r -> objValue k e (mkst r (aused a + objSize k)) <> Panic /\ objValue k e (mkst r (aused a + objSize k)) <> Loop).
  { intros (T1 & T2 & T3 & T4). assert (Aux : forall A (p : P A) (f : A -> obj), parser A p -> (v <- p ;; ret (f v)) e (mkst r (aused a + objSize k)) <> Panic /\ (v <- p ;; ret (f v)) e (mkst r (aused a + objSize k)) <> Loop).
    { intros A p f Hp. pose proof (C33_no_crash A p Hp e (mkst r (aused a + objSize k)) R T1 T2) as N1. pose proof (C32_crlf_only A p Hp e (mkst r (aused a + objSize k)) T3 T4) as N2. unfold bind, ret. destruct (p e _); split; congruence. }
    destruct k as [| |b| |h]; cbn [objValue]; apply Aux; constructor. }
  destruct (objValue k e (mkst r (aused a + objSize k))) as [o s|s| |] eqn:Ev.
  - exfalso. destruct s as [q u']. destruct (proj1 (obj_exact e k r _ o q R) (ex_intro _ u' Ev)) as (t & E1 & E2). exact (H t o q E1 E2).
  - split.
    + intros p a' q Q. destruct S0 as (a1 & S0 & _). rewrite Q in S0. discriminate.
    + intros _. exists (rest s), (used s). apply C49_world; [exact Hl|]. cbn [valRun wCorner]. rewrite E. reflexivity.
  - split; [|intros Tm; destruct (T Tm) as [[] _]; reflexivity]. intros p a' q Q. destruct Hb as [Hb|Hb]; [rewrite (S0 Hb) in Q; discriminate|destruct (T Hb) as [[] _]; reflexivity].
  - split; [|intros Tm; destruct (T Tm) as [_ []]; reflexivity]. intros p a' q Q. rewrite S0 in Q. discriminate.
Qed.
Print Assumptions C62_object_reject.

(** The list of raw headers. *)
Theorem C62_raw_block : forall e a t hs k pre, legal e a -> aused a + 58 + 9 * len (t ++ k) <= cap a -> RawFieldsRead t hs k ->
  exists u, memRun e a [] [ONew WKRaws (t ++ k); OEncode 0 pre] = Some [(EvNew true k, u); (EvText (Some (pre ++ encRawHeaders hs)), u)] /\ u <= aused a + 57 + 9 * len (t ++ k).
Proof.
  intros e a t hs k pre Hl Hr H. assert (M0 : memend e = Some (cap a)) by exact (proj1 Hl). assert (R : roomFor e (aused a + 57 + 9 * len (t ++ k))) by (unfold roomFor; rewrite M0; lia).
  destruct (proj2 (C59_raw_block_exact e _ _ hs k R) (ex_intro _ t (conj eq_refl H))) as [u E]. pose proof (C61_any _ _ PRawHeaders e (mkst (t ++ k) (aused a)) ltac:(unfold roomFor; rewrite M0; cbn [used]; lia)) as K. rewrite E in K. cbn [used rest] in K.
  exists u. split; [|lia]. apply C49_world; [exact Hl|]. cbn [valRun wCorner wValue]. unfold bind, ltMem. rewrite E. unfold ret. cbn [used rest app nth_error option_map wExt negb orb]. rewrite M0, (proj2 (N.ltb_lt u (cap a))) by lia. reflexivity.
Qed.
Print Assumptions C62_raw_block.

(** ** Cases *)
Definition bigArena : arena := mkA (fun _ => 7) 30000 8 0 0 0 0 0.
Example C62_case_legal : legal (defaultEnv (Some 30000)) bigArena /\ netGood (defaultEnv (Some 30000)) /\ bigTables (defaultEnv (Some 30000)) = false /\ eUriNoEscape (defaultEnv (Some 30000)) = false.
Proof. repeat split; cbn; try lia; discriminate. Qed.
(** A message with two bodies meets the hypotheses of C62_loop (and C62_session). *)
Example C62_case_loop : let e := defaultEnv (Some 30000) in exists t m k text m' s', t ++ k = exText2 /\ MessageRead (withMem None e) t m k /\ plainLine e (mStart m) /\ plainHdrs OMsg e (mHdrs m) /\ plainBodies e m /\
  List.length (mBodies m) = 2%nat /\ encMsg [] m (withMem None e) (mkst [] 8) = Ok (text, m') s' /\
  aused bigArena + 220 + 9 * len (t ++ k) + 9 * len text <= cap bigArena /\ aused bigArena + 144 + 9 * len (t ++ k) + 9 * len text < 32768.
Proof.
  cbv zeta. destruct (parseMsg (defaultEnv None) (mkst exText2 8)) as [m s1| | |] eqn:E; [|vm_compute in E; discriminate..].
  destruct (C59_message_sound (defaultEnv None) _ _ _ E) as (t & Et & H). cbn [rest] in Et. exists t, m, (rest s1). vm_compute in E. injection E as <- <-. eexists. eexists. eexists. cbn [rest] in *. rewrite <- Et.
  split; [reflexivity|]. split; [exact H|]. split; [apply lineB_ok; vm_compute; reflexivity|]. split; [apply hdrsB_ok; vm_compute; reflexivity|].
  split; [|split; [reflexivity|]; split; [vm_compute; reflexivity|]; split; vm_compute; [discriminate|reflexivity]].
  unfold plainBodies. cbn [mBodies]. split; [repeat (constructor; [apply hdrsB_ok; vm_compute; reflexivity|]); constructor|]. split; [vm_compute; intuition discriminate|]. split; [left; reflexivity|vm_compute; reflexivity].
Qed.
(** The objects: a header, a telephone number, a start line. *)
Example C62_case_objects : (exists t v, ObjRead (defaultEnv None) (KHdr KFrom) t (OHdr v) CRLF /\ t ++ CRLF = s2b "fRoM : ""A B"" <sip:a@h>;tag=1" ++ CRLF) /\
  (exists t x, ObjRead (defaultEnv None) KTelUri t (OTelUri x) (s2b ">") /\ t ++ s2b ">" = s2b "tel:+12;phone-context=+1>") /\
  (exists t l, ObjRead (defaultEnv None) KStartLine t (OStartLine l) [] /\ t ++ [] = exLine "SIP/2.0 200 OK").
Proof.
  split; [|split].
  - destruct (reading (defaultEnv None) (parseHeader KFrom) _ (s2b "fRoM : ""A B"" <sip:a@h>;tag=1" ++ CRLF) CRLF (exact_header _ _) ltac:(vm_compute; reflexivity)) as (t & v & H1 & H2). exists t, v. split; [constructor; exact H1|exact H2].
  - destruct (reading (defaultEnv None) parseTelUri _ (s2b "tel:+12;phone-context=+1>") (s2b ">") (exact_telUri _) ltac:(vm_compute; reflexivity)) as (t & v & H1 & H2). exists t, v. split; [constructor; exact H1|exact H2].
  - destruct (reading (defaultEnv None) parseStartLine _ (exLine "SIP/2.0 200 OK") [] (exact_startLine _) ltac:(vm_compute; reflexivity)) as (t & v & H1 & H2). exists t, v. split; [constructor; exact H1|exact H2].
Qed.
(** A text that no reading covers, made of lines. *)
Lemma decodes_shorter (ok : N -> bool) t d : Decodes ok t d -> len d <= len t.
Proof. intros H. induction H; rewrite ?len_cons; lia. Qed.
Example C62_case_reject : tame (exLine "INVITE") /\ forall t m k, exLine "INVITE" = t ++ k -> ~ MessageRead (defaultEnv None) t m k.
Proof.
  split.
  - split; [left; exists (s2b "INVITE" ++ [13]); reflexivity|]. split; [|split].
    + intros a name b d E H Hs. exfalso. apply decodes_shorter in H. assert (L1 : len (exLine "INVITE") = len (a ++ name ++ b)) by now rewrite E. rewrite !len_app in L1. change (len (exLine "INVITE")) with 8 in L1.
      assert (L2 : len d = 13). { unfold sameNoCase in Hs. apply (f_equal len) in Hs. unfold len in *. rewrite !map_length in Hs. exact Hs. } lia.
    + intros x y E. change (exLine "INVITE") with [73; 78; 86; 73; 84; 69; 13; 10] in E. exists [73; 78; 86; 73; 84; 69].
      do 7 (destruct x as [|c0 x]; cbn [app] in E; [discriminate|injection E as <- E]). destruct x as [|c0 x]; [reflexivity|]. cbn [app] in E. injection E as _ E. destruct x; discriminate.
    + intros x y E. change (exLine "INVITE") with [73; 78; 86; 73; 84; 69; 13; 10] in E.
      do 6 (destruct x as [|c0 x]; cbn [app] in E; [discriminate|injection E as <- E]). destruct x as [|c0 x]; cbn [app] in E.
      * injection E as <-. split; [exists []; reflexivity|]. intros (x' & Q). apply (f_equal (@rev N)) in Q. rewrite rev_app_distr in Q. discriminate.
      * injection E as _ E. destruct x as [|c1 x]; [discriminate|]. cbn [app] in E. injection E as _ E. destruct x; discriminate.
  - intros t m k E H. destruct (proj2 (C59_message_exact (defaultEnv None) (exLine "INVITE") 8 m k Logic.I) (ex_intro _ t (conj E H))) as [u Q]. vm_compute in Q. discriminate.
Qed.
