(** Property C61: how much memory a parse takes. *)
From Verif Require Import Base Charset CharsetSpec CharsetProofs BaseLemmas Num NumSpec NumProofs Lws LwsSpec LwsProofs Str StrSpec StrProofs Monad Good Rt Seq GoodAuto Inv
  IndexTree IndexProofs MethodTree HeaderTree Lookup NameSpec NameProofs Room Host HostSpec HostProofs Uri UriSpec UriGood UriProofs Tel TelSpec TelProofs GenParam GenParamSpec GenParamProofs Addr AddrSpec AddrProofs
  StartLine StartLineSpec StartLineProofs Headers HeadersSpec HeadersProofs RawHeaders RawSpec RawProofs Msg Thrift MsgSpec MsgProofs MsgRt MsgEnc Shift Nine NineParse Inside P05_Uri P13_Discipline.

(** ** Whole messages *)
(** A message that is accepted takes at most nine bytes of the arena for every byte of the text it was read from, whatever the text, the arena and the options. *)
Theorem C61_message : forall e s m s', parseMsg e s = Ok m s' -> used s' <= used s + 9 * len (rest s).
Proof. exact msg_used. Qed.
Print Assumptions C61_message.
(** If the message has no bodies, or several, this holds of the bytes that were read. (A single body is copied and not skipped.) *)
Theorem C61_message_read : forall e s m s', parseMsg e s = Ok m s' -> used s' + 9 * len (rest s') <= used s + 9 * len (rest s) + fold_right (fun b n => len (bData b) + n) 0 (mBodies m).
Proof.
  intros e s m s' H. pose proof (proj2 (n_msg _ _ _ eq_refl) _ _ H) as K. cbn beta in K. unfold phi, L in K.
  replace (bodyBytes (mBodies m)) with (Z.of_N (fold_right (fun b n => len (bData b) + n) 0 (mBodies m))) in K; [lia|]. clear. unfold bodyBytes, L. induction (mBodies m) as [|b l IH]; [reflexivity|]. cbn [fold_right]. lia.
Qed.
Print Assumptions C61_message_read.

(** ** The other parsers *)
(** [takes A p c]: the parser [p], and the number of bytes by which it stays below nine for every byte it reads. *)
Inductive takes : forall A, P A -> N -> Prop :=
| THost : takes _ parseHost 2
| THostPort : takes _ parseHostPort 2
| TSipUri : takes _ parseSipUri 38
| TTelUri : takes _ parseTelUri 42
| TAddr ps : takes _ (parseAddr ps) 20
| TNameAddr : takes _ parseNameAddr 38
| TAddrSpec : takes _ parseAddrSpec 20
| TParams k : takes _ (parseParams k) 0
| TMethod : takes _ parseMethod 0
| TVersion : takes _ parseVersion 36
| TStartLine : takes _ parseStartLine 18
| THeaderValue k : takes _ (parseHVal k) 6
| TSipHeader k : k <> KContact -> takes _ (parseSipX k) 0
| THeader k : takes _ (parseHeader k) 15
| THeaderName : takes _ parseHeaderName 9
| TRawHeaders : takes _ parseRawHeaders 0
| THeaders o : takes _ (parseHeaders o) 0
| TMultipart b : takes _ (parseMultiBody b) 0.
(** What a successful parse has read is a prefix [t] of the input, and it has taken at most [9 * len t - c] bytes, in every arena. *)
Theorem C61_read : forall A (p : P A) c, takes A p c -> forall e s a s', p e s = Ok a s' ->
  exists t, rest s = t ++ rest s' /\ used s <= used s' /\ used s' + c <= used s + 9 * len t.
Proof.
  intros A p c H e s a s' E.
  assert (X : parser A p) by (destruct H; constructor). pose proof (C31_position A p X e s) as P0. rewrite E in P0. destruct P0 as [[t Ht] Hu]. exists t. split; [exact Ht|]. split; [exact Hu|].
  assert (K : (Z.of_N (used s') + 9 * L (rest s') + Z.of_N c <= Z.of_N (used s) + 9 * L (rest s))%Z).
  { destruct H; revert E;
    [intros E; pose proof (proj2 (n_host _ _ _ eq_refl) _ _ E) as K
    |intros E; pose proof (proj2 (n_hostPort _ _ _ eq_refl) _ _ E) as K
    |intros E; pose proof (proj2 (n_sipUri _ _ _ eq_refl) _ _ E) as K
    |intros E; pose proof (proj2 (n_telUri _ _ _ eq_refl) _ _ E) as K
    |intros E; pose proof (proj2 (n_addr _ _ _ _ eq_refl) _ _ E) as K
    |intros E; pose proof (proj2 (n_nameAddr _ _ _ eq_refl) _ _ E) as K
    |intros E; pose proof (proj2 (n_addrSpec _ _ _ eq_refl) _ _ E) as K
    |intros E; pose proof (proj2 (n_params _ _ _ _ eq_refl) _ _ E) as K
    |intros E; pose proof (proj2 (n_method _ _ _ eq_refl) _ _ E) as K
    |intros E; pose proof (proj2 (n_version _ _ _ eq_refl) _ _ E) as K
    |intros E; pose proof (proj2 (n_startLine _ _ _ eq_refl) _ _ E) as K
    |intros E; pose proof (proj2 (n_hval k _ _ _ eq_refl) _ _ E) as K; destruct k; cbn [valueCost] in K
    |intros E; pose proof (proj2 (n_sipX k _ _ _ eq_refl) _ _ E) as K; destruct k; try congruence
    |intros E; pose proof (proj2 (n_header k _ _ _ eq_refl) _ _ E) as K; destruct k; cbn [valueCost] in K
    |intros E; pose proof (proj2 (n_headerName _ _ _ eq_refl) _ _ E) as K
    |intros E; pose proof (proj2 (n_rawHeaders _ _ _ eq_refl) _ _ E) as K
    |intros E; pose proof (proj2 (n_headers _ _ _ _ eq_refl) _ _ E) as K
    |intros E; pose proof (proj2 (n_parseMulti _ _ _ _ eq_refl) _ _ E) as K]; cbn beta in K; unfold phi in K; try lia. }
  rewrite Ht in K. rewrite L_app in K. unfold L in K. lia.
Qed.
Print Assumptions C61_read.
(** A Contact header in a message may take nine bytes more: "*" is one byte and takes eighteen. *)
Theorem C61_contact : forall e s v s', parseSipX KContact e s = Ok v s' -> exists t, rest s = t ++ rest s' /\ used s' <= used s + 9 * len t + 9.
Proof.
  intros e s v s' E. pose proof (C31_position _ _ (PSipHeader KContact) e s) as P0. rewrite E in P0. destruct P0 as [[t Ht] _]. exists t. split; [exact Ht|].
  pose proof (proj2 (n_sipX KContact _ _ _ eq_refl) _ _ E) as K. cbn beta iota in K. unfold phi in K. rewrite Ht, L_app in K. unfold L in K. lia.
Qed.
Print Assumptions C61_contact.

(** ** When a parse fails *)
Lemma parser_inside A (p : P A) : parser A p -> inside p.
Proof.
  intros H. destruct H; first [apply in_host|apply in_hostPort|apply in_sipUri|apply in_uriAfter|apply in_uriAfterNo|apply in_telUri|apply in_telAfter|apply in_telAfterNo|apply in_addr|apply in_nameAddr|apply in_addrSpec|apply in_params|apply in_method
    |apply in_version|apply in_startLine|apply in_hval|apply in_sipX|apply in_header|apply in_headerName|apply in_rawHeaders|apply in_headers|apply in_msgBody|apply in_msg|apply in_rawScan|idtac].
  unfold parseMultiBody. ins. unfold multipartBody. ins.
Qed.
(** However a parse ends, the arena is not overfull, ... *)
Theorem C61_inside : forall A (p : P A), parser A p -> forall e m s, memend e = Some m -> used s <= m ->
  match p e s with Ok _ s' | Fail s' => used s' <= m | Panic | Loop => True end.
Proof. intros A p H. exact (parser_inside A p H). Qed.
Print Assumptions C61_inside.
(** ... and at most nine bytes for every byte of the input, and 57 more, were taken. *)
Theorem C61_any : forall A (p : P A), parser A p -> forall e s, roomFor e (used s) ->
  match p e s with Ok _ s' | Fail s' => used s' <= used s + 57 + 9 * len (rest s) | Panic | Loop => True end.
Proof.
  intros A p H e s R. set (m0 := used s + 57 + 9 * len (rest s)).
  pose proof (C61_inside A p H (withMem (Some m0) e) m0 s eq_refl ltac:(unfold m0; lia)) as K.
  unfold roomFor in R. destruct (memend e) as [m|] eqn:Em.
  - destruct (N.le_gt_cases m0 m) as [G|G].
    + rewrite (parser_enough A p H e s m0) in K by (unfold m0; lia). rewrite <- (parser_enough A p H e s m G) in K. rewrite <- Em, withMem_self in K. destruct (p e s); auto.
    + pose proof (C61_inside A p H e m s Em R) as K2. destruct (p e s); auto; lia.
  - rewrite (parser_enough A p H e s m0) in K by (unfold m0; lia). rewrite <- Em, withMem_self in K. destruct (p e s); auto.
Qed.
Print Assumptions C61_any.
(** So for texts of at most 7200 bytes an arena of 65535 bytes with no more than 600 in use is as good as an unlimited one: the outcome, the position and the memory taken are the same. *)
Theorem C61_64k : forall A (p : P A), parser A p -> forall e s, memend e = Some 65535 -> used s <= 600 -> len (rest s) <= 7200 -> p e s = p (withMem None e) s.
Proof. intros A p H e s Hm Hu Hl. rewrite <- (parser_enough A p H e s 65535) by lia. rewrite <- Hm. now rewrite withMem_self. Qed.
Print Assumptions C61_64k.

(** ** Nine cannot be improved *)
(** A response whose only header is a Contact with [k + 1] stars: "m:*,*,...,*" (44 is the comma, 42 the star). *)
Fixpoint moreStars (k : nat) : bytes := match k with O => [] | S k' => 44 :: 42 :: moreStars k' end.
Definition starMsg (k : nat) : bytes := s2b "SIP/2.0 200 OK" ++ CRLF ++ s2b "m:*" ++ moreStars k ++ CRLF ++ CRLF.
Lemma stars_len k : len (moreStars k) = 2 * N.of_nat k.
Proof. induction k as [|k IH]; [reflexivity|]. cbn [moreStars]. rewrite !len_cons, IH. lia. Qed.
Lemma stars_loop e set : infinite e -> forall (Q : hset -> Prop), (forall h v, Q h -> Q (set h v)) -> forall k st u, Q (fst st) -> exists h, Q h /\
  loopP (multiBody KContact set) st e (mkst (moreStars k ++ CRLF ++ CRLF) u) = Ok h (mkst CRLF (u + 18 * N.of_nat k)).
Proof.
  intros Hi Q HQ. induction k as [|k IH]; intros st u H0; rewrite loopP_unfold by apply multi_progresses.
  - unfold multiBody, onRest. cbn. rewrite N.add_0_r. eexists. split; [|reflexivity]. now apply HQ.
  - assert (E1 : exists st', Q (fst st') /\ multiBody KContact set st e (mkst (moreStars (S k) ++ CRLF ++ CRLF) u) = Ok (inl st') (mkst (moreStars k ++ CRLF ++ CRLF) (u + 18))).
    { unfold multiBody, onRest. cbn [rest moreStars app].
      replace (IsOnlyCRLF (44 :: 42 :: moreStars k ++ CRLF ++ CRLF)) with false by (destruct k; reflexivity). cbv iota zeta. change (ParseSWSMarkCanOmmit 44 (44 :: 42 :: moreStars k ++ CRLF ++ CRLF)) with (42 :: moreStars k ++ CRLF ++ CRLF, true, true). cbv iota.
      unfold bind, goto. unfold parseSipX, bind, allocStruct, leMem. cbn [used rest hvalSize parseHVal]. replace (memend e) with (@None N) by (symmetry; exact Hi). unfold parseContact, bind, pSWS, onRest. cbn [rest used].
      change (ParseSWS_2 (42 :: moreStars k ++ CRLF ++ CRLF)) with (42 :: moreStars k ++ CRLF ++ CRLF). cbn [N.eqb Pos.eqb]. unfold goto, ret. cbn [rest used].
      replace (ParseSWS_2 (moreStars k ++ CRLF ++ CRLF)) with (moreStars k ++ CRLF ++ CRLF) by (destruct k; reflexivity). eexists. split; [|reflexivity]. now apply HQ. }
    destruct E1 as (st' & H1 & E1). rewrite E1. destruct (IH st' (u + 18) H1) as (h & H2 & E2). exists h. split; [exact H2|]. rewrite E2. f_equal. f_equal. lia.
Qed.
Lemma stars_read k : exists m, parseMsg (exNet None) (mkst (starMsg k) 8) = Ok m (mkst [] (30 + 18 * N.of_nat k)).
Proof.
  unfold starMsg. set (tl := moreStars k ++ CRLF ++ CRLF). unfold parseMsg.
  assert (E1 : exists l, parseStartLine (exNet None) (mkst (s2b "SIP/2.0 200 OK" ++ CRLF ++ s2b "m:*" ++ tl) 8) = Ok l (mkst (s2b "m:*" ++ tl) 12)) by (eexists; vm_compute; reflexivity).
  destruct E1 as [l E1]. rewrite (bind_ok _ _ _ _ _ _ E1). rewrite onRest_eq. change (s2b "m:*" ++ tl) with (109 :: 58 :: 42 :: tl).
  assert (E2 : exists h, nth 10 (hsCommon h) [] = [] /\ parseHeaders OMsg (exNet None) (mkst (109 :: 58 :: 42 :: tl) 12) = Ok h (mkst [] (30 + 18 * N.of_nat k))).
  { unfold parseHeaders. rewrite loopP_unfold by apply one_progresses.
    destruct (stars_loop (exNet None) (setCommon OMsg SIP_HDR_CONTACT true) eq_refl (fun h => List.length (hsCommon h) = 19%nat /\ nth 10 (hsCommon h) [] = [])) with (k := k) (st := (emptyHdrs OMsg, VStar)) (u := 30) as (h & (_ & Hn) & E3).
    { intros h v [H1 H2]. unfold setCommon. cbn [hsCommon]. change (slotOf OMsg SIP_HDR_CONTACT) with 3%nat. split; [rewrite setNth_length; exact H1|rewrite setNth_nth_ne; [exact H2|discriminate]]. }
    { split; reflexivity. }
    fold tl in E3.
    assert (E4 : headersBody (oneHeader OMsg) (emptyHdrs OMsg) (exNet None) (mkst (109 :: 58 :: 42 :: tl) 12) = Ok (inl h) (mkst CRLF (30 + 18 * N.of_nat k))).
    { unfold headersBody, onRest. cbn [rest]. change (IsCRLF (109 :: 58 :: 42 :: tl)) with false. cbv iota.
      assert (EN : parseHeaderName (exNet None) (mkst (109 :: 58 :: 42 :: tl) 12) = Ok (None, SIP_HDR_CONTACT) (mkst (42 :: tl) 12)) by (vm_compute; reflexivity).
      rewrite (bind_ok _ _ _ _ _ _ EN). cbn [fst snd].
      assert (EO : oneHeader OMsg (emptyHdrs OMsg) None SIP_HDR_CONTACT (exNet None) (mkst (42 :: tl) 12) = Ok h (mkst CRLF (30 + 18 * N.of_nat k))); [|rewrite (bind_ok _ _ _ _ _ _ EO); reflexivity].
      unfold oneHeader, withEnv. change (needParse OMsg (exNet None) SIP_HDR_CONTACT) with (Some (KContact, true)). cbv iota beta.
      assert (EX : parseSipX KContact (exNet None) (mkst (42 :: tl) 12) = Ok VStar (mkst tl 30)) by (unfold tl; destruct k; vm_compute; reflexivity).
      rewrite (bind_ok _ _ _ _ _ _ EX). exact E3. }
    rewrite E4. exists h. split; [|rewrite loopP_unfold by apply one_progresses; reflexivity].
    exact Hn. }
  destruct E2 as (h & Hn & E2). rewrite (bind_ok _ _ _ _ _ _ E2). unfold bind, parseMsgBody, contentTypeOf. rewrite Hn. eexists. reflexivity.
Qed.
(** There are arbitrarily long messages that take all of nine bytes for every byte, up to a constant; so no smaller factor will do. *)
Theorem C61_tight : forall n, exists text m s', n <= len text /\ parseMsg (exNet None) (mkst text 8) = Ok m s' /\ 8 + 9 * len text <= used s' + 185.
Proof.
  intros n. destruct (stars_read (N.to_nat n)) as [m E]. exists (starMsg (N.to_nat n)), m. eexists. split; [|split; [exact E|]]; unfold starMsg; rewrite !len_app, stars_len; cbn [used]; rewrite ?N2Nat.id.
  - lia.
  - change (len (s2b "SIP/2.0 200 OK")) with 14. change (len CRLF) with 2. change (len (s2b "m:*")) with 3. lia.
Qed.
Print Assumptions C61_tight.
(** Nor is a smaller factor enough: whatever [c < 9] and [d], there is a message that is accepted in large arenas, and is refused in every arena (of at least 100 bytes) of up to
    [c] bytes for every byte of the message and [d] more. *)
Lemma stars_fail e n set : memend e = Some n -> forall k st u, u <= n -> n < u + 18 * N.of_nat k -> exists s', loopP (multiBody KContact set) st e (mkst (moreStars k ++ CRLF ++ CRLF) u) = Fail s'.
Proof.
  intros Hm. induction k as [|k IH]; intros st u H1 H2; [lia|]. rewrite loopP_unfold by apply multi_progresses.
  assert (E1 : exists st', multiBody KContact set st e (mkst (moreStars (S k) ++ CRLF ++ CRLF) u) =
     if u + 18 <=? n then Ok (inl st') (mkst (moreStars k ++ CRLF ++ CRLF) (u + 18)) else Fail (mkst (42 :: moreStars k ++ CRLF ++ CRLF) u)).
  { exists (set (fst st) (snd st), VStar). unfold multiBody, onRest. cbn [rest moreStars app].
    replace (IsOnlyCRLF (44 :: 42 :: moreStars k ++ CRLF ++ CRLF)) with false by (destruct k; reflexivity). cbv iota zeta. change (ParseSWSMarkCanOmmit 44 (44 :: 42 :: moreStars k ++ CRLF ++ CRLF)) with (42 :: moreStars k ++ CRLF ++ CRLF, true, true). cbv iota.
    unfold bind, goto. unfold parseSipX, bind, allocStruct, leMem. cbn [used rest hvalSize parseHVal]. rewrite Hm. unfold parseContact, bind, pSWS, onRest. cbn [rest used].
    destruct (u + 18 <=? n); [|reflexivity]. cbn [rest used].
    change (ParseSWS_2 (42 :: moreStars k ++ CRLF ++ CRLF)) with (42 :: moreStars k ++ CRLF ++ CRLF). cbn [N.eqb Pos.eqb]. unfold goto, ret. cbn [rest used].
    replace (ParseSWS_2 (moreStars k ++ CRLF ++ CRLF)) with (moreStars k ++ CRLF ++ CRLF) by (destruct k; reflexivity). reflexivity. }
  destruct E1 as [st' E1]. rewrite E1. destruct (N.leb_spec (u + 18) n); [|eexists; reflexivity]. apply IH; lia.
Qed.
Theorem C61_needed : forall c d, c < 9 -> exists text, (exists m s', parseMsg (exNet None) (mkst text 8) = Ok m s') /\
  forall n, 100 <= n <= c * len text + d -> exists s', parseMsg (exNet (Some n)) (mkst text 8) = Fail s'.
Proof.
  intros c d Hc. set (k := N.to_nat (200 + d)). exists (starMsg k). split; [destruct (stars_read k) as [m E]; eauto|].
  intros n [H1 H2]. assert (HL : len (starMsg k) = 23 + 2 * N.of_nat k).
  { unfold starMsg. rewrite !len_app, stars_len. change (len (s2b "SIP/2.0 200 OK")) with 14. change (len CRLF) with 2. change (len (s2b "m:*")) with 3. lia. }
  assert (HN : n < 30 + 18 * N.of_nat k). { assert (c * len (starMsg k) <= 8 * len (starMsg k)) by (apply N.mul_le_mono_r; lia). unfold k in *. lia. }
  unfold starMsg. set (tl := moreStars k ++ CRLF ++ CRLF). unfold parseMsg.
  assert (E1 : exists l, parseStartLine (exNet (Some n)) (mkst (s2b "SIP/2.0 200 OK" ++ CRLF ++ s2b "m:*" ++ tl) 8) = Ok l (mkst (s2b "m:*" ++ tl) 12)).
  { eexists. apply (th_startLine (exNet None)); [vm_compute; reflexivity|cbn [used]; lia]. }
  destruct E1 as [l E1]. rewrite (bind_ok _ _ _ _ _ _ E1). rewrite onRest_eq. change (s2b "m:*" ++ tl) with (109 :: 58 :: 42 :: tl).
  destruct (stars_fail (exNet (Some n)) n (setCommon OMsg SIP_HDR_CONTACT true) eq_refl k (emptyHdrs OMsg, VStar) 30 ltac:(lia) HN) as [s' E3]. fold tl in E3. exists s'.
  assert (E4 : headersBody (oneHeader OMsg) (emptyHdrs OMsg) (exNet (Some n)) (mkst (109 :: 58 :: 42 :: tl) 12) = Fail s').
  { unfold headersBody, onRest. cbn [rest]. change (IsCRLF (109 :: 58 :: 42 :: tl)) with false. cbv iota.
    assert (EN : parseHeaderName (exNet (Some n)) (mkst (109 :: 58 :: 42 :: tl) 12) = Ok (None, SIP_HDR_CONTACT) (mkst (42 :: tl) 12)).
    { apply (th_headerName (exNet None)); [vm_compute; reflexivity|cbn [used]; lia]. }
    rewrite (bind_ok _ _ _ _ _ _ EN). cbn [fst snd].
    assert (EO : oneHeader OMsg (emptyHdrs OMsg) None SIP_HDR_CONTACT (exNet (Some n)) (mkst (42 :: tl) 12) = Fail s'); [|unfold bind; rewrite EO; reflexivity].
    unfold oneHeader, withEnv. change (needParse OMsg (exNet (Some n)) SIP_HDR_CONTACT) with (Some (KContact, true)). cbv iota beta.
    assert (EX : parseSipX KContact (exNet (Some n)) (mkst (42 :: tl) 12) = Ok VStar (mkst tl 30)).
    { apply (th_sipX KContact (exNet None)); [unfold tl; destruct k; vm_compute; reflexivity|cbn [used]; lia]. }
    rewrite (bind_ok _ _ _ _ _ _ EX). exact E3. }
  unfold bind, parseHeaders. rewrite loopP_unfold by apply one_progresses. rewrite E4. reflexivity.
Qed.
Print Assumptions C61_needed.
(** The hypotheses are met: a message with a body is read in an arena of 65535 bytes; the same text without its empty line is refused, and memory was taken. *)
Definition memText : bytes := s2b "INVITE sip:bob@example.com SIP/2.0" ++ CRLF ++ s2b "v: SIP/2.0/UDP h;branch=1" ++ CRLF ++ s2b "f: <sip:a@h>;tag=1" ++ CRLF ++ s2b "c: text/plain" ++ CRLF ++ s2b "l: 3" ++ CRLF ++ CRLF ++ s2b "abc".
Example C61_case : let e := exNet (Some 65535) in parser msg parseMsg /\ len memText <= 7200 /\ roomFor e 8 /\ len memText = 109 /\
  (exists m s', parseMsg e (mkst memText 8) = Ok m s' /\ used s' = 203 /\ map bData (mBodies m) = [s2b "abc"]) /\
  parseMsg e (mkst (s2b "SIP/2.0 200 OK" ++ CRLF ++ s2b "v: SIP/2.0/UDP h;branch=1" ++ CRLF ++ s2b "f") 8) = Fail (mkst [] 65) /\
  takes _ (parseHeader KVia) 15 /\ (exists v, parseHeader KVia e (mkst (s2b "v:SIP/2.0/UDP h") 8) = Ok v (mkst [] 16)).
Proof.
  cbv zeta. split; [constructor|]. split; [vm_compute; discriminate|]. split; [vm_compute; discriminate|]. split; [reflexivity|].
  split; [eexists; eexists; split; [vm_compute; reflexivity|split; reflexivity]|]. split; [vm_compute; reflexivity|]. split; [constructor|]. eexists. vm_compute. reflexivity.
Qed.
