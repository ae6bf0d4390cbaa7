(** Properties C36, C37, C38, C42 and C43: whole messages and their bodies. *)
From Verif Require Import Base Charset CharsetSpec CharsetProofs BaseLemmas Num NumSpec NumProofs Lws LwsSpec LwsProofs Str StrSpec StrProofs Monad Good Rt Seq GoodAuto Inv
  IndexTree IndexProofs MethodTree HeaderTree Lookup NameSpec NameProofs Room Host HostSpec HostProofs Uri UriSpec UriGood UriProofs Tel TelSpec TelProofs GenParam GenParamSpec GenParamProofs Addr AddrSpec AddrProofs
  StartLine StartLineSpec StartLineProofs Headers HeadersSpec HeadersProofs RawHeaders RawSpec RawProofs Msg Thrift MsgSpec MsgProofs MsgRt MsgEnc MsgWhole MsgSound P05_Uri P09_StartLine P10_Headers P11_RawHeaders.

(** ** C36: the Content-Length that is written *)
(** [headerText pre head digits tail body]: a text that starts with [pre], then the start line and whole header lines [head], then a Content-Length line with the number [digits]
    (right-aligned with blanks), then whole header lines [tail], the empty line and [body]. *)
Definition headerText (pre head digits tail body : bytes) : bytes := pre ++ head ++ s2b "Content-Length: " ++ digits ++ CRLF ++ tail ++ CRLF ++ body.
Lemma ends_lf (x : bytes) : exists q, x ++ CRLF = q ++ [10]. Proof. exists (x ++ [13]). now rewrite <- app_assoc. Qed.
Lemma encHdrs_around e h : List.length (hsCommon h) = 19%nat -> exists A B, (A = [] \/ exists q, A = q ++ [10]) /\ (B = [] \/ exists q, B = q ++ [10]) /\ forall n, encHdrs OMsg e (withLength n h) = A ++ s2b "Content-Length: " ++ encContentLength n ++ CRLF ++ B.
Proof.
  intros L. destruct h as [cs rs]. cbn [hsCommon] in L. do 19 (destruct cs as [|? cs]; [discriminate L|]). destruct cs; [|discriminate L].
  exists (flat_map (encSlot e) [(SIP_HDR_VIA, l0); (SIP_HDR_ROUTE, l1); (SIP_HDR_CONTACT, l2); (SIP_HDR_FROM, l3); (SIP_HDR_TO, l4); (SIP_HDR_CALL_ID, l5)]).
  exists (flat_map (encSlot e) [(SIP_HDR_CSEQ, l7); (SIP_HDR_RECORD_ROUTE, l8); (SIP_HDR_CONTENT_TYPE, l9); (SIP_HDR_MAX_FORWARDS, l10); (SIP_HDR_CONTENT_DISPOSITION, l11); (SIP_HDR_EXPIRES, l12); (SIP_HDR_PATH, l13);
    (SIP_HDR_SERVICE_ROUTE, l14); (SIP_HDR_RSEQ, l15); (SIP_HDR_RACK, l16); (SIP_HDR_P_ASSERTED_IDENTITY, l17)] ++ encRawHeaders rs).
  assert (Ends : forall {A} (f : A -> bytes) xs, (forall x, f x = [] \/ exists q, f x = q ++ [10]) -> flat_map f xs = [] \/ exists q, flat_map f xs = q ++ [10]).
  { intros A f xs H. induction xs as [|x xs IH]; cbn [flat_map]; [left; reflexivity|]. destruct IH as [->|(q & ->)]; [rewrite app_nil_r; apply H|right]. exists (f x ++ q). now rewrite app_assoc. }
  assert (ES : forall iv, encSlot e iv = [] \/ exists q, encSlot e iv = q ++ [10]).
  { intros [i [|v vs]]; unfold encSlot; cbn [snd]; [left; reflexivity|right]. rewrite !app_assoc. apply ends_lf. }
  assert (ER : forall x, encRaw x = [] \/ exists q, encRaw x = q ++ [10]) by (intros x; unfold encRaw; right; rewrite !app_assoc; apply ends_lf).
  split; [apply Ends, ES|]. split.
  - destruct (Ends _ encRaw rs ER) as [R|(q & R)]; unfold encRawHeaders; rewrite R; [rewrite app_nil_r; apply Ends, ES|]. right. eexists. apply app_assoc.
  - intros n. unfold encHdrs, withLength. cbn [hsCommon hsRaw setNth slotIndexes combine tl flat_map]. rewrite <- !app_assoc. do 6 f_equal. unfold encSlot at 1. cbn [fst snd].
    change (hiName (slotInfo SIP_HDR_CONTENT_LENGTH)) with (s2b "Content-Length"). change (hiMulti (slotInfo SIP_HDR_CONTENT_LENGTH)) with false. cbv iota. change (encSlotValue e SIP_HDR_CONTENT_LENGTH (VNum n)) with (encContentLength n). rewrite <- !app_assoc. reflexivity.
Qed.
Lemma start_lf e l : exists q, encStartLine e l = q ++ [10].
Proof. apply ends_lf. Qed.
(** The body that is written: the data of a single body; the parts between delimiters if there are several. *)
Definition bodyWritten (e : env) (bs : list body) (t : bytes) : Prop := (exists b, bs = [b] /\ t = bData b) \/ ((2 <= List.length bs)%nat /\ exists boundary, t = encMultipart e boundary bs).
Lemma blanks_digits n : n < two32 -> exists k ds, encContentLength n = repeat 32%N k ++ ds /\ canonical ds /\ decVal ds = n.
Proof. intros H. assert (B32 : two32 < two64) by reflexivity. rewrite encContentLength_eq by lia. destruct (encUInt_canonical n ltac:(lia)) as [C V]. eauto. Qed.
(** In every encoding of a message with a body, in whatever state the message is (at most one Content-Length, a 32-bit number): if the number in its Content-Length
    header has no more digits than the length of the body, the Content-Length line states the number of bytes that follow the empty line. *)
Theorem C36_content_length : forall e pre m s text m' s', lengthSlot (mHdrs m) -> mBodies m <> [] -> encMsg pre m e s = Ok (text, m') s' ->
  exists body, bodyWritten e (mBodies m) body /\
    (len body < 4294967296 -> noLonger (statedLength (mHdrs m)) (len body) ->
      exists head k ds tail, text = headerText pre (head ++ [10]) (repeat 32%N k ++ ds) tail body /\ (tail = [] \/ exists q, tail = q ++ [10]) /\ canonical ds /\ decVal ds = len body).
Proof.
  intros e pre m s text m' s' Hl Hne E. destruct (encMsg_text e pre m s text m' s' Hl E) as (b & _ & _ & L19 & _ & _ & Ht). cbv zeta in Ht. specialize (Ht Hne). exists (bodyText e b (mBodies m)). split.
  - destruct (mBodies m) as [|x [|y bs]] eqn:Eb; [congruence|left; exists x; auto|right]. split; [cbn; lia|]. exists b. reflexivity.
  - intros H1 H2. specialize (Ht H1 H2). destruct (encHdrs_around e (mHdrs m') L19) as (A & B & HA & HB & HAB). destruct (blanks_digits _ H1) as (k & ds & Ek & Cd & Vd). destruct (start_lf e (mStart m)) as [q Eq].
    assert (Hh : exists head, encStartLine e (mStart m) ++ A = head ++ [10]) by (destruct HA as [->|(q' & ->)]; [exists q; now rewrite app_nil_r|exists (encStartLine e (mStart m) ++ q'); now rewrite app_assoc]). destruct Hh as [head Hh].
    exists head, k, ds, (B ++ mimeText m (mHdrs m')). split; [|split; [|auto]].
    + rewrite Ht, HAB, Ek. unfold headerText. rewrite <- Hh, <- !app_assoc. reflexivity.
    + unfold mimeText. destruct (hasMulti m); [|rewrite app_nil_r; exact HB]. destruct (getHeaderByIndex _ _); [rewrite app_nil_r; exact HB|]. right. rewrite app_assoc. apply ends_lf.
Qed.
Print Assumptions C36_content_length.
(** A message that was read has at most one Content-Length, a 32-bit number: the theorem applies to it, also after its bodies were replaced. *)
Theorem C36_parsed : forall e s m s', parseMsg e s = Ok m s' -> lengthSlot (mHdrs m).
Proof. intros e s m s' E. apply msg_sound in E as [E _]. now apply entries_length. Qed.
Print Assumptions C36_parsed.
(** In particular when the header was absent, or stated no more than the length of the body. *)
Theorem C36_smaller : forall n0 n, n0 <= n -> noLonger n0 n.
Proof.
  intros n0 n H. destruct (N.lt_ge_cases n0 10) as [L|L]; [left; exact L|right]. assert (D : forall x, 1 <= x -> exists k, x < 10 ^ k /\ 10 ^ k <= 10 * x).
  { clear. intros x. induction x as [x IH] using (well_founded_induction N.lt_wf_0). intros Hx. destruct (N.lt_ge_cases x 10) as [L|L]; [exists 1; cbn; lia|]. pose proof (N.div_mod x 10 ltac:(lia)) as Dm. pose proof (N.mod_lt x 10 ltac:(lia)).
    destruct (IH (x / 10)) as (k & K1 & K2); [lia|lia|]. exists (k + 1). rewrite N.pow_add_r, N.pow_1_r. lia. }
  destruct (D n0 ltac:(lia)) as (k & K1 & K2). exists k. lia.
Qed.
Print Assumptions C36_smaller.
(** Without a body the number in the header stays as it is. *)
Theorem C36_no_body : forall e pre m s text m' s', lengthSlot (mHdrs m) -> mBodies m = [] -> encMsg pre m e s = Ok (text, m') s' ->
  exists head k ds tail, text = headerText pre (head ++ [10]) (repeat 32%N k ++ ds) tail [] /\ canonical ds /\ decVal ds = statedLength (mHdrs m).
Proof.
  intros e pre m s text m' s' Hl Hne E. destruct (encMsg_text e pre m s text m' s' Hl E) as (b & _ & S7 & L19 & _ & Ht & _). specialize (Ht Hne). pose proof (stated_lt _ Hl) as Hs. set (n0 := statedLength (mHdrs m)) in *.
  destruct (encHdrs_around e (mHdrs m') L19) as (A & B & HA & HB & HAB). destruct (blanks_digits _ Hs) as (k & ds & Ek & Cd & Vd). destruct (start_lf e (mStart m)) as [q Eq].
  assert (Hh : exists head, encStartLine e (mStart m) ++ A = head ++ [10]) by (destruct HA as [->|(q' & ->)]; [exists q; now rewrite app_nil_r|exists (encStartLine e (mStart m) ++ q'); now rewrite app_assoc]). destruct Hh as [head Hh].
  exists head, k, ds, (B ++ mimeText m (mHdrs m')). split; [|auto]. rewrite Ht. rewrite <- (withLength_id _ _ S7) at 1. rewrite HAB, Ek. unfold headerText. rewrite <- Hh, <- !app_assoc. reflexivity.
Qed.
Print Assumptions C36_no_body.
(** The domain is met: a message with no Content-Length, and a body of 12 bytes. *)
Definition hdrs0 : hset := emptyHdrs OMsg.
Definition putHdr (i : N) (vs : list hval) (h : hset) : hset := mkhset (setNth (hsCommon h) (slotOf OMsg i) vs) (hsRaw h).
Definition exPlain : hval := VType (s2b "text") (s2b "plain") None [].
Definition exHdrs : hset := mkhset (hsCommon (putHdr SIP_HDR_FROM [exFrom] (putHdr SIP_HDR_VIA [exVia; exVia] (putHdr SIP_HDR_CONTENT_TYPE [exPlain] hdrs0)))) exRaw.
Definition exBody (t : string) : body := mkbody (emptyHdrs OBody) (s2b t).
Definition exMsg : msg := mkmsg exReq exHdrs [exBody "hello world!"].
Example C36_case : lengthSlot exHdrs /\ statedLength exHdrs = 0 /\ noLonger 0 12 /\ exists text m' s', encMsg [] exMsg (exNet (Some 4000)) (mkst [] 8) = Ok (text, m') s' /\
  exists p q, text = p ++ s2b "Content-Length:         12" ++ CRLF ++ q ++ CRLF ++ CRLF ++ s2b "hello world!".
Proof.
  split; [split; [reflexivity|left; reflexivity]|]. split; [reflexivity|]. split; [left; reflexivity|]. eexists. eexists. eexists. split; [vm_compute; reflexivity|].
  match goal with |- exists p q, ?t = _ => let n := eval vm_compute in (match splitAt (s2b "Content-Length:         12" ++ CRLF) t with Some (a, _) => List.length a | None => 0%nat end) in
    exists (firstn n t), (firstn (List.length t - n - 28 - 16) (skipn (n + 28) t)) end. vm_compute. reflexivity.
Qed.
(** Without the condition on the number of digits it is not: reading a message cut off after 5 of 1000 bytes and writing it back states 1005. *)
Theorem C36_longer_refuted : exists e s m s1 text m' s2, parseMsg e s = Ok m s1 /\ encMsg [] m e s1 = Ok (text, m') s2 /\
  text = s2b "INVITE sip:h SIP/2.0" ++ CRLF ++ s2b "Content-Length:       1005" ++ CRLF ++ s2b "Content-Type: text/plain" ++ CRLF ++ CRLF ++ s2b "hello".
Proof.
  exists (exNet (Some 4000)), (mkst (s2b "INVITE sip:h SIP/2.0" ++ CRLF ++ s2b "Content-Length: 1000" ++ CRLF ++ s2b "Content-Type: text/plain" ++ CRLF ++ CRLF ++ s2b "hello") 8).
  eexists. eexists. eexists. eexists. eexists. split; [vm_compute; reflexivity|]. split; vm_compute; reflexivity.
Qed.
Print Assumptions C36_longer_refuted.
(** And removing the body of a message leaves the old number. *)
Theorem C36_removed_refuted : exists e m text m' s2, mBodies m = [] /\ encMsg [] m e (mkst [] 8) = Ok (text, m') s2 /\
  text = s2b "SIP/2.0 200 OK" ++ CRLF ++ s2b "Content-Length:          5" ++ CRLF ++ CRLF.
Proof. exists (exNet (Some 4000)), (mkmsg (SStatus V20 200 (s2b "OK")) (withLength 5 hdrs0) []). eexists. eexists. eexists. split; [reflexivity|]. split; vm_compute; reflexivity. Qed.
Print Assumptions C36_removed_refuted.

(** ** C37: the body that is read *)
(** [atBody r0 r]: the position [r] is the end of the input, or it is just after an empty line. *)
Definition atBody (r0 r : bytes) : Prop := r = [] \/ exists p, r0 = p ++ [10] ++ CRLF ++ r.
(** An accepted message whose Content-Type is not multipart has as its only body the bytes after the empty line, as many as Content-Length states or as there are;
    none if that is 0 or if there is no Content-Length or no Content-Type. The position stays in front of the body. *)
Theorem C37_single_body : forall e s m s', parseMsg e s = Ok m s' -> singleType (mHdrs m) ->
  atBody (rest s) (rest s') /\ let n := N.min (statedLength (mHdrs m)) (len (rest s')) in
  mBodies m = if n =? 0 then [] else [mkbody (emptyHdrs OBody) (firstn (N.to_nat n) (rest s'))].
Proof.
  intros e s m s' E (ma & st & t & ps & Et & Hm). apply msg_sound in E as (He & s1 & Eb & Hp). unfold parseMsgBody, contentTypeOf in Eb. rewrite Et in Eb. cbn [hd_error] in Eb. rewrite not_multi in Eb by exact Hm.
  assert (Q : rest s' = rest s1 /\ mBodies m = if N.min (statedLength (mHdrs m)) (len (rest s1)) =? 0 then [] else [mkbody (emptyHdrs OBody) (firstn (N.to_nat (N.min (statedLength (mHdrs m)) (len (rest s1)))) (rest s1))]).
  { unfold parseSingleBody, onRest in Eb. unfold contentLengthOf, statedLength in *. destruct (entries_length _ He) as [_ [E7|(n & E7 & _)]]; rewrite E7 in *; cbn [hd_error] in Eb.
    - injection Eb as <- <-. split; [reflexivity|]. rewrite N.min_0_l. reflexivity.
    - destruct (N.min n (len (rest s1)) =? 0); [injection Eb as <- <-; auto|]. apply bind_inv in Eb as (? & s2 & E2 & Eb). apply alloc_inv in E2 as [E2 _]. apply bind_inv in Eb as (d & s3 & E3 & Eb). injection Eb as <- <-. unfold allocCString in E3. destruct (leMem _ _); [|discriminate]. injection E3 as <- <-. cbn [rest].
      split; [exact E2|reflexivity]. }
  destruct Q as [Q1 Q2]. rewrite Q1. split; [|exact Q2]. destruct Hp as [Hp|(q & Hp)]; [left; exact Hp|right]. exists q. exact Hp.
Qed.
Print Assumptions C37_single_body.
Theorem C37_no_type : forall e s m s', parseMsg e s = Ok m s' -> noType (mHdrs m) -> mBodies m = [] /\ atBody (rest s) (rest s').
Proof.
  intros e s m s' E Hn. apply msg_sound in E as (He & s1 & Eb & Hp). unfold parseMsgBody, contentTypeOf in Eb. rewrite Hn in Eb. cbn [hd_error] in Eb. injection Eb as <- <-. split; [reflexivity|]. destruct Hp as [Hp|(q & Hp)]; [left; exact Hp|right]. exists q. exact Hp.
Qed.
Print Assumptions C37_no_type.
(** One of the three cases applies to every accepted message. *)
Theorem C37_cases : forall e s m s', parseMsg e s = Ok m s' -> noType (mHdrs m) \/ singleType (mHdrs m) \/ exists ma st t ps, nth 10 (hsCommon (mHdrs m)) [] = [VType ma st t ps] /\ sameNoCase ma (s2b "multipart").
Proof.
  intros e s m s' E. apply msg_sound in E as [E _]. apply entries_type in E as [E|(ma & st & t & ps & E)]; [left; exact E|right]. pose proof (CStringEqualNoCase_total ma (s2b "multipart") ltac:(discriminate)) as T.
  destruct (CStringEqualNoCase ma (s2b "multipart")) as [[]|] eqn:C; [| |congruence].
  - right. apply CStringEqualNoCase_spec in C; [|discriminate]. eauto 7.
  - left. exists ma, st, t, ps. split; [exact E|]. intros H. apply CStringEqualNoCase_spec in H; [|discriminate]. congruence.
Qed.
Print Assumptions C37_cases.
Example C37_case : exists m s', parseMsg (exNet (Some 4000)) (mkst (s2b "SIP/2.0 200 OK" ++ CRLF ++ s2b "l: 3" ++ CRLF ++ s2b "c: a/b" ++ CRLF ++ CRLF ++ s2b "hello") 8) = Ok m s' /\ mBodies m = [exBody "hel"] /\ rest s' = s2b "hello" /\
  singleType (mHdrs m) /\ statedLength (mHdrs m) = 3.
Proof. eexists. eexists. split; [vm_compute; reflexivity|]. split; [reflexivity|]. split; [reflexivity|]. split; [|reflexivity]. eexists _, _, _, _. split; [reflexivity|]. unfold sameNoCase. vm_compute. discriminate. Qed.
(** A message without Content-Type loses its body. *)
Theorem C37_no_type_refuted : exists e s m s', parseMsg e s = Ok m s' /\ statedLength (mHdrs m) = 3 /\ mBodies m = [] /\ rest s' = s2b "hello".
Proof. exists (exNet (Some 4000)), (mkst (s2b "SIP/2.0 200 OK" ++ CRLF ++ s2b "l: 3" ++ CRLF ++ CRLF ++ s2b "hello") 8). eexists. eexists. split; [vm_compute; reflexivity|]. repeat split. Qed.
Print Assumptions C37_no_type_refuted.

(** ** C42: what is written for the structured headers *)
(** Each structured header is one line: its registered name, its values separated by commas (each written as the type of that header), a line end; headers without
    values are not written, and the other headers follow. *)
Definition headerLineText (e : env) (i : N) (k : hkind) (vs : list hval) (text : bytes) : Prop :=
  match vs with
  | [] => text = []
  | v :: vs' => exists name, In (name, i) headerNames /\ text = name ++ s2b ": " ++ encHVal e k v ++ flat_map (fun w => s2b ", " ++ encHVal e k w) vs' ++ CRLF
  end.
Lemma structured_names : forallb (fun q => match infoOf (fst q) with Some x => existsb (fun n => beq (fst n) (hiName x) && (snd n =? fst q)) headerNames | None => false end) structured = true.
Proof. vm_compute. reflexivity. Qed.
Lemma slot_text o e i k several vs : readAs o e i k several -> (several = false -> (List.length vs <= 1)%nat) -> headerLineText e i k vs (encSlot e (i, vs)).
Proof.
  intros R L. pose proof structured_names as F. rewrite forallb_forall in F. pose proof (proj1 R) as Hs. apply F in Hs. cbn [fst] in Hs. apply readAs_need in R. unfold needParse in R.
  destruct (if fHeaderAsRaw e then _ else _); [|discriminate]. unfold headerLineText, encSlot. destruct vs as [|v vs]; [reflexivity|]. cbn [fst snd]. unfold slotInfo at 1 2.
  destruct (infoOf i) as [x|] eqn:Ex; [|discriminate]. destruct (hiKind x) as [k'|] eqn:Ek; [|discriminate]. injection R as -> Em. exists (hiName x). split.
  - apply existsb_exists in Hs as ([n j] & I & E). cbn [fst snd] in E. apply andb_prop in E as [E1 E2]. apply beq_eq in E1. apply N.eqb_eq in E2. now subst.
  - assert (V : forall w, encSlotValue e i w = encHVal e k w) by (intros w; unfold encSlotValue, slotInfo; now rewrite Ex, Ek). rewrite V. do 3 f_equal. rewrite Em. destruct several.
    + f_equal. unfold encMore. apply flat_map_ext. intros w. now rewrite V.
    + specialize (L eq_refl). cbn [List.length] in L. destruct vs; [reflexivity|cbn [List.length] in L; lia].
Qed.
Theorem C42_header_lines : forall o e h, wfHdrs o e h -> exists lines, encHdrs o e h = List.concat lines ++ flat_map encRaw (hsRaw h) /\
  Forall2 (fun iv text => snd iv = [] /\ text = [] \/ exists k several, readAs o e (fst iv) k several /\ headerLineText e (fst iv) k (snd iv) text) (tl (combine (slotIndexes o) (hsCommon h))) lines.
Proof.
  intros o e h (L & H0 & Ws & _). exists (map (encSlot e) (tl (combine (slotIndexes o) (hsCommon h)))). split; [unfold encHdrs, encRawHeaders; now rewrite flat_map_concat_map|].
  apply Forall_tl in Ws. induction Ws as [|[i vs] sl W Ws IH]; cbn [map]; constructor; [|exact IH]. destruct W as [W|(k & m & R & _ & Hm)]; cbn [fst snd] in *; [left; subst; split; reflexivity|].
  right. exists k, m. split; [exact R|]. apply (slot_text o e i k m vs R). intros E. specialize (Hm E). lia.
Qed.
Print Assumptions C42_header_lines.

(** ** C42: a message with at most one body comes back *)
Lemma statedLength_slot h : lengthSlot h -> forall n, nth 7 (hsCommon (withLength n h)) [] = [VNum n].
Proof. intros [L _] n. unfold withLength. cbn [hsCommon]. apply setNth_nth. lia. Qed.
Lemma withLength_type n h : nth 10 (hsCommon (withLength n h)) [] = nth 10 (hsCommon h) [].
Proof. unfold withLength. cbn [hsCommon]. now apply setNth_nth_ne. Qed.
Lemma withLength_twice n k h : withLength n (withLength k h) = withLength n h.
Proof. unfold withLength. cbn [hsCommon hsRaw]. now rewrite setNth_twice. Qed.
(** What comes back has the same start line; the headers as written, with the Content-Length that Encode adds. *)
Theorem C42_no_body : forall e m s text m' s' t u, eUriNoEscape e = false -> wfMsg e m -> mBodies m = [] -> noType (mHdrs m) \/ singleType (mHdrs m) /\ (statedLength (mHdrs m) = 0 \/ t = []) ->
  encMsg [] m e s = Ok (text, m') s' ->
  readsAs e (text ++ t) (mkmsg (mStart m) (hdrsAsWritten e (withLength (statedLength (mHdrs m)) (mHdrs m))) []) t u.
Proof.
  intros e m s text m' s' t u He [Wl Wh] Hb Ht E. pose proof (lengthSlot_wf e _ Wh) as Hs. destruct (encMsg_text e [] m s text m' s' Hs E) as (b & _ & S7 & L19 & Hh & Et & _). specialize (Et Hb).
  unfold hasMulti in Hh. rewrite Hb in Hh. rewrite Hh in *. set (h := withLength (statedLength (mHdrs m)) (mHdrs m)) in *. unfold mimeText, hasMulti in Et. rewrite Hb in Et. cbn [app] in Et. apply reads.
  assert (Wh' : wfHdrs OMsg e h) by (apply wf_withLength; [exact Wh|now apply stated_lt]).
  replace (text ++ t) with (encStartLine (withMem None e) (mStart m) ++ encHdrs OMsg (withMem None e) h ++ CRLF ++ t) by (rewrite Et, encStartLine_mem, encHdrs_mem, <- !app_assoc; reflexivity).
  rewrite <- (hdrs_mem None). apply rt_whole; auto; [reflexivity|]. intros u1. destruct Ht as [Hn|[Hn Ht]].
  - exists u1. apply body_none. unfold noType, h. now rewrite withLength_type.
  - destruct (body_single (withMem None e) h (statedLength (mHdrs m)) t u1 eq_refl) as [u2 E2]; [|exact S7|].
    + destruct Hn as (a & c & ty & ps & Hn). exists a, c, ty, ps. unfold h. now rewrite withLength_type.
    + exists u2. rewrite E2. destruct Ht as [->| ->]; [rewrite N.min_0_l|rewrite N.min_0_r]; reflexivity.
Qed.
Print Assumptions C42_no_body.
(** With one body: the bytes of the body come back (under a part without headers of its own), and the position stays in front of them. *)
Theorem C42_one_body : forall e m b s text m' s' t u, eUriNoEscape e = false -> wfMsg e m -> mBodies m = [b] -> bData b <> [] -> len (bData b) < 4294967296 ->
  singleType (mHdrs m) -> noLonger (statedLength (mHdrs m)) (len (bData b)) ->
  encMsg [] m e s = Ok (text, m') s' ->
  readsAs e (text ++ t) (mkmsg (mStart m) (hdrsAsWritten e (withLength (len (bData b)) (mHdrs m))) [mkbody (emptyHdrs OBody) (bData b)]) (bData b ++ t) u.
Proof.
  intros e m b s text m' s' t u He [Wl Wh] Hb Hne Hlt Ht Hd E. pose proof (lengthSlot_wf e _ Wh) as Hs. destruct (encMsg_text e [] m s text m' s' Hs E) as (b' & _ & S7 & L19 & Hh & _ & Et). cbv zeta in Et.
  rewrite Hb in Et. cbn [bodyText] in Et. specialize (Et ltac:(discriminate) Hlt Hd). unfold hasMulti in Hh. rewrite Hb in Hh. rewrite Hh in *. unfold mimeText, hasMulti in Et. rewrite Hb, withLength_twice in Et. cbn [app] in Et. apply reads.
  set (h := withLength (len (bData b)) (mHdrs m)) in *. assert (Wh' : wfHdrs OMsg e h) by (now apply wf_withLength).
  replace (text ++ t) with (encStartLine (withMem None e) (mStart m) ++ encHdrs OMsg (withMem None e) h ++ CRLF ++ bData b ++ t) by (rewrite Et, encStartLine_mem, encHdrs_mem, <- !app_assoc; reflexivity).
  rewrite <- (hdrs_mem None). apply rt_whole; auto; [reflexivity|]. intros u1.
  destruct (body_single (withMem None e) h (len (bData b)) (bData b ++ t) u1 eq_refl) as [u2 E2]; [|now apply statedLength_slot|].
  - destruct Ht as (a & c & ty & ps & Hn). exists a, c, ty, ps. unfold h. now rewrite withLength_type.
  - exists u2. rewrite E2. rewrite N.min_l by (rewrite len_app; lia). destruct (N.eqb_spec (len (bData b)) 0) as [Z|_]; [exfalso; unfold len in Z; destruct (bData b); [congruence|cbn in Z; lia]|].
    unfold len. rewrite Nnat.Nat2N.id, firstn_app, firstn_all, Nat.sub_diag. cbn [firstn]. now rewrite app_nil_r.
Qed.
Print Assumptions C42_one_body.

(** ** C38: several bodies *)
Lemma setNth_comm {A} (l : list A) : forall i j x y, i <> j -> setNth (setNth l i x) j y = setNth (setNth l j y) i x.
Proof. induction l as [|a l IH]; intros [|i] [|j] x y H; cbn [setNth]; try reflexivity; try congruence. f_equal. apply IH. congruence. Qed.
Lemma withLength_boundary n k h : withLength n (withBoundary (withLength k h)) = withLength n (withBoundary h).
Proof.
  unfold withBoundary. rewrite withLength_type. destruct (nth 10 (hsCommon h) []) as [|[] [|? ?]]; try apply withLength_twice.
  2: match goal with |- context [match ?o with Some _ => _ | None => _ end] => destruct o; [apply withLength_twice|] end.
  all: try (match goal with |- context [match ?o with Some _ => _ | None => _ end] => destruct o end; apply withLength_twice).
  all: unfold withLength; cbn [hsCommon hsRaw]; f_equal; rewrite (setNth_comm (hsCommon h) 7 10) by discriminate; apply setNth_twice.
Qed.
Lemma boundaryOf_length k h : boundaryOf (withLength k h) = boundaryOf h.
Proof. unfold boundaryOf. now rewrite withLength_type. Qed.
Lemma data_le e b x bs : In x bs -> len (bData x) <= len (encMultipart e b bs).
Proof.
  intros Hi. unfold encMultipart. induction bs as [|y bs IH]; [destruct Hi|]. cbn [flat_map]. rewrite <- !app_assoc, !len_app. destruct Hi as [->|Hi]; [|specialize (IH Hi); rewrite !len_app in IH; lia].
  unfold encBody. rewrite !len_app. assert (bData (fixLength x) = bData x) as -> by (unfold fixLength; destruct (nth 1 _ _); reflexivity). lia.
Qed.
(** A message with at least two bodies comes back with the same bodies in the same order: each part has the headers as written (its Content-Length, if it has one, states
    the length of its data) and exactly its data; the position is after the closing delimiter. The message has the boundary in its Content-Type and a MIME-Version. *)
Theorem C38_multipart_round_trip : forall e m s text m' s' t u, let b := boundaryOf (mHdrs m) in let body := encMultipart e b (mBodies m) in
  eUriNoEscape e = false -> fContentTypeKnown e = true -> wfMsg e m -> (2 <= List.length (mBodies m))%nat -> manyType (mHdrs m) -> ~ In 13 b -> Forall (wfPart e b) (mBodies m) ->
  len body < 4294967296 -> noLonger (statedLength (mHdrs m)) (len body) ->
  encMsg [] m e s = Ok (text, m') s' ->
  readsAs e (text ++ t) (mkmsg (mStart m) (hdrsAsWritten e (withMime (withLength (len body) (withBoundary (mHdrs m))))) (map (fun x => partAsWritten e (partWithLength x)) (mBodies m))) t u.
Proof.
  intros e m s text m' s' t u b body He Hk [Wl Wh] H2 Hty Hb Wp Hlt Hd E. pose proof (lengthSlot_wf e _ Wh) as Hs. destruct (encMsg_text e [] m s text m' s' Hs E) as (b' & _ & S7 & L19 & Hh & _ & Et). cbv zeta in Et.
  assert (Hm : hasMulti m = true) by (unfold hasMulti; destruct (mBodies m) as [|? [|? ?]]; cbn in H2; [lia|lia|reflexivity]). rewrite Hm in Hh. destruct Hh as (s1 & s2 & Hh). set (n0 := statedLength (mHdrs m)) in *.
  assert (W0 : wfHdrs OMsg e (withLength n0 (mHdrs m))) by (apply wf_withLength; [exact Wh|now apply stated_lt]).
  assert (Ty : noType (withLength n0 (mHdrs m)) \/ exists ma st ty ps, nth 10 (hsCommon (withLength n0 (mHdrs m))) [] = [VType ma st ty ps] /\ sameNoCase ma (s2b "multipart")) by (unfold noType; rewrite withLength_type; exact Hty).
  destruct (boundary_exact e _ _ _ _ _ W0 Hk Hh) as [Eh Eb]. destruct (boundary_ok e _ _ _ _ _ W0 Hk Ty Hh) as [Wm' Tm']. rewrite boundaryOf_length in Eb. fold b in Eb. subst b'.
  assert (Ebt : bodyText e b (mBodies m) = body) by (unfold bodyText, body; destruct (mBodies m) as [|? [|? ?]]; cbn in H2; [lia|lia|reflexivity]). rewrite Ebt in Et. specialize (Et ltac:(destruct (mBodies m); [cbn in H2; lia|discriminate]) Hlt Hd). cbn [app] in Et.
  assert (Em : mimeText m (mHdrs m') = mimeText m (withLength (len body) (mHdrs m'))) by (unfold mimeText; destruct (hasMulti m); [|reflexivity]; unfold getHeaderByIndex; now rewrite !mime_notslot). rewrite Em in Et.
  assert (Eh2 : withLength (len body) (mHdrs m') = withLength (len body) (withBoundary (mHdrs m))) by (rewrite Eh; apply withLength_boundary).
  assert (Wf : wfHdrs OMsg e (withMime (withLength (len body) (mHdrs m')))) by (apply wf_withMime, wf_withLength; [exact Wm'|exact Hlt]). rewrite <- Eh2. set (h := withLength (len body) (mHdrs m')) in *. apply reads.
  replace (text ++ t) with (encStartLine (withMem None e) (mStart m) ++ encHdrs OMsg (withMem None e) (withMime h) ++ CRLF ++ encMultipart (withMem None e) b (mBodies m) ++ t).
  2:{ rewrite Et, encStartLine_mem, encHdrs_mem, encMultipart_mem. rewrite <- (mime_text e m h Hm). rewrite <- !app_assoc. reflexivity. }
  rewrite <- (hdrs_mem None). apply rt_whole; auto; [reflexivity|]. intros u1. destruct (body_multi (withMem None e) (withMime h) b (mBodies m) t u1 eq_refl He) as [u2 E2].
  - destruct Tm' as (ma & st & ty & ps & p & v & T1 & T2). exists ma, st, ty, ps, p, v. split; [|exact T2]. unfold withMime. cbn [hsCommon]. unfold h. rewrite withLength_type. exact T1.
  - exact Hb.
  - eapply Forall_impl; [|exact Wp]. intros x [Wx Dx]. split; [now apply wfHdrs_mem|exact Dx].
  - rewrite Forall_forall. intros x Hx. pose proof (data_le e b x _ Hx) as Dx. fold body in Dx. unfold two32. lia.
  - exists u2. exact E2.
Qed.
Print Assumptions C38_multipart_round_trip.

(** ** The hypotheses are met *)
Lemma splitAt_none p r : splitAt p r = None -> ~ occurs p r.
Proof.
  intros H (a & b & E). revert r E H. induction a as [|x a IH]; intros r E; cbn [app] in E.
  - assert (X : stripPrefix p r = Some b) by (now apply stripPrefix_app). destruct r; cbn [splitAt]; rewrite X; discriminate.
  - subst r. cbn [splitAt]. destruct (stripPrefix p (x :: a ++ p ++ b)); [discriminate|]. specialize (IH _ eq_refl). destruct (splitAt p (a ++ p ++ b)) as [[? ?]|]; [discriminate|]. intros _. now apply IH.
Qed.
Lemma wfSlot_one o m i v x k : infoOf i = Some x -> hiKind x = Some k -> needParse o (exNet m) i <> None -> wfHVal (exNet m) k v -> delimited (exNet m) v -> wfSlot o (exNet m) (i, [v]).
Proof. intros H1 H2 H3 H4 H5. apply slot_cases. right. exists x, k. cbn [fst snd]. repeat split; auto. Qed.
Lemma exRaw_msg m : Forall (fun x => wfRaw x /\ forall k several, ~ readAs OMsg (exNet m) (rId x) k several) exRaw.
Proof. pose proof exRaw_wf as H. rewrite Forall_forall in *. intros x Hx. split; [now apply H|]. apply not_read. cbn in Hx. repeat (destruct Hx as [<-|Hx]; [reflexivity|]). destruct Hx. Qed.
Lemma exPlain_wf m : wfHVal (exNet m) KContentType exPlain.
Proof. cbn [wfHVal exPlain]. repeat split; try discriminate; try reflexivity; [intros _ p n []|constructor]. Qed.
Lemma exHdrs_wf m : wfHdrs OMsg (exNet m) exHdrs.
Proof.
  split; [reflexivity|]. split; [reflexivity|]. split; [|apply exRaw_msg].
  assert (V : wfSlot OMsg (exNet m) (SIP_HDR_VIA, [exVia; exVia])) by (right; exists KVia, true; cbn [fst snd]; split; [split; [vm_compute; tauto|right; reflexivity]|]; split; [|discriminate]; constructor; [split; [apply exVia_wf|exact I]|constructor; [split; [apply exVia_wf|exact I]|constructor]]).
  assert (F : wfSlot OMsg (exNet m) (SIP_HDR_FROM, [exFrom])) by (apply (wfSlot_one OMsg m _ _ (mkinfo (s2b "From") false (Some KFrom)) KFrom); try reflexivity; try discriminate; [apply exFrom_wf|left; reflexivity]).
  assert (C : wfSlot OMsg (exNet m) (SIP_HDR_CONTENT_TYPE, [exPlain])) by (apply (wfSlot_one OMsg m _ _ (mkinfo (s2b "Content-Type") false (Some KContentType)) KContentType); try reflexivity; try discriminate; apply exPlain_wf).
  repeat (constructor; [first [left; reflexivity|exact V|exact F|exact C]|]). constructor.
Qed.
Lemma exReq_wf m : wfStartLine (exNet m) exReq. Proof. pose proof C30_case as H. cbv zeta in H. destruct H as (H & _). exact H. Qed.
Example C42_header_lines_case : wfHdrs OMsg (exNet None) exHdrs /\ exists a b, encHdrs OMsg (exNet None) exHdrs = s2b "Via: " ++ a ++ s2b ", " ++ a ++ CRLF ++ s2b "From: " ++ b.
Proof. split; [apply exHdrs_wf|]. exists (encHVal (exNet None) KVia exVia). eexists. vm_compute. reflexivity. Qed.
Example C42_case : let e := exNet (Some 4000) in wfMsg e exMsg /\ singleType (mHdrs exMsg) /\ noLonger (statedLength (mHdrs exMsg)) 12 /\ wfMsg e (mkmsg exReq exHdrs []) /\
  exists text m' s', encMsg [] exMsg e (mkst [] 8) = Ok (text, m') s' /\
    exists s2, parseMsg e (mkst (text ++ s2b "NEXT") 8) = Ok (mkmsg exReq (withLength 12 exHdrs) [exBody "hello world!"]) s2 /\ rest s2 = s2b "hello world!NEXT".
Proof.
  cbv zeta. assert (W : forall bs, wfMsg (exNet (Some 4000)) (mkmsg exReq exHdrs bs)) by (intros bs; split; [apply exReq_wf|apply exHdrs_wf]). split; [apply W|]. split; [|split; [left; reflexivity|split; [apply W|]]].
  - eexists _, _, _, _. split; [reflexivity|]. unfold sameNoCase. vm_compute. discriminate.
  - eexists. eexists. eexists. split; [vm_compute; reflexivity|]. eexists. split; [vm_compute; reflexivity|reflexivity].
Qed.

(** Two bodies, the second with headers of its own. *)
Definition exPart : body := mkbody (mkhset [[]; [VNum 0]; [VDisp (s2b "render") None []]] [mkraw SIP_HDR_CONTENT_TYPE None (s2b "text/plain")]) (s2b "--b=1" ++ CRLF ++ s2b "x").
Definition exMany : msg := mkmsg exReq (mkhset (hsCommon (putHdr SIP_HDR_CONTENT_TYPE [exType] exHdrs)) exRaw) [exBody "hello"; exPart].
Definition exPart' : body := mkbody (mkhset [[]; [VNum 8]; [VDisp (s2b "render") None []]] [mkraw SIP_HDR_CONTENT_TYPE None (s2b "text/plain")]) (s2b "--b=1" ++ CRLF ++ s2b "x").
Lemma exType_wf m : wfHVal (exNet m) KContentType exType.
Proof.
  split; [split; [discriminate|reflexivity]|]. split; [split; [discriminate|reflexivity]|]. split; [|constructor]. split; [intros _ p n []|]. split; [reflexivity|]. split; [discriminate|]. constructor; [|constructor]. split; [reflexivity|]. split; [split; [discriminate|reflexivity]|].
  cbn [gpValue wfGenValue]. unfold quotable. repeat (constructor; [reflexivity|]). constructor.
Qed.
Lemma exMany_hdrs m : wfHdrs OMsg (exNet m) (mHdrs exMany).
Proof.
  apply (wf_setSlot OMsg (exNet m) exHdrs 10 SIP_HDR_CONTENT_TYPE exType (mkinfo (s2b "Content-Type") false (Some KContentType)) KContentType); try reflexivity; [apply exHdrs_wf|lia|discriminate|apply exType_wf].
Qed.
Lemma exPart_wf m : wfPart (exNet m) (s2b "b=1") exPart.
Proof.
  split; [|apply splitAt_none; reflexivity]. split; [reflexivity|]. split; [reflexivity|]. split.
  - constructor; [left; reflexivity|]. constructor; [|constructor; [|constructor]].
    + apply (wfSlot_one OBody m _ _ (mkinfo (s2b "Content-Length") false (Some KContentLength)) KContentLength); try reflexivity; discriminate.
    + apply (wfSlot_one OBody m _ _ (mkinfo (s2b "Content-Disposition") false (Some KContentDisposition)) KContentDisposition); try reflexivity; try discriminate.
      cbn [wfHVal]. repeat split; try discriminate; try reflexivity; try (intros _ p n []); constructor.
  - constructor; [|constructor]. split; [|apply not_read; reflexivity]. split; [|vm_compute; tauto]. split; [discriminate|]. split; [|split].
    + intros a b E. exfalso. assert (H : In 10 (s2b "text/plain")) by (cbn [rValue] in E; rewrite E; apply in_or_app; right; left; reflexivity). vm_compute in H. intuition discriminate.
    + intros (x & t & E & Hw). vm_compute in E. injection E as <- _. destruct Hw; discriminate.
    + intros (t & E). vm_compute in E. discriminate.
Qed.
Example C38_case : let e := exNet (Some 4000) in wfMsg e exMany /\ manyType (mHdrs exMany) /\ boundaryOf (mHdrs exMany) = s2b "b=1" /\ Forall (wfPart e (s2b "b=1")) (mBodies exMany) /\
  noLonger (statedLength (mHdrs exMany)) (len (encMultipart e (s2b "b=1") (mBodies exMany))) /\
  encMultipart e (s2b "b=1") (mBodies exMany) = s2b "--b=1" ++ CRLF ++ CRLF ++ s2b "hello" ++ CRLF ++ s2b "--b=1" ++ CRLF ++ s2b "Content-Length:          8" ++ CRLF ++ s2b "Content-Disposition: render" ++ CRLF ++
    s2b "Content-Type: text/plain" ++ CRLF ++ CRLF ++ s2b "--b=1" ++ CRLF ++ s2b "x" ++ CRLF ++ s2b "--b=1--" /\
  exists text m' s', encMsg [] exMany e (mkst [] 8) = Ok (text, m') s' /\ exists h s2, parseMsg e (mkst (text ++ s2b "NEXT") 8) = Ok (mkmsg exReq h [exBody "hello"; exPart']) s2 /\ rest s2 = s2b "NEXT".
Proof.
  cbv zeta. split; [split; [apply exReq_wf|apply exMany_hdrs]|]. split; [right; eexists _, _, _, _; split; reflexivity|]. split; [reflexivity|]. split.
  - constructor; [|constructor; [apply exPart_wf|constructor]]. split; [|apply splitAt_none; reflexivity]. split; [reflexivity|]. split; [reflexivity|]. split; [|constructor]. repeat (constructor; [left; reflexivity|]). constructor.
  - split; [left; reflexivity|]. split; [vm_compute; reflexivity|]. eexists. eexists. eexists. split; [vm_compute; reflexivity|]. eexists. eexists. split; [vm_compute; reflexivity|]. reflexivity.
Qed.

(** ** Outside the domain *)
Definition multi1 (body : bytes) : bytes := s2b "SIP/2.0 200 OK" ++ CRLF ++ s2b "c: multipart/mixed;boundary=b" ++ CRLF ++ CRLF ++ body.
(** One part under a multipart type is read as one body, written without its delimiters, and what is written is not accepted. *)
Theorem C38_one_part_refuted : exists e m s1 text m' s2 s3, parseMsg e (mkst (multi1 (s2b "--b" ++ CRLF ++ CRLF ++ s2b "hello" ++ CRLF ++ s2b "--b--")) 8) = Ok m s1 /\ mBodies m = [exBody "hello"] /\
  encMsg [] m e s1 = Ok (text, m') s2 /\ (exists p, text = p ++ s2b "boundary=b" ++ CRLF ++ CRLF ++ s2b "hello") /\ parseMsg e (mkst text 8) = Fail s3.
Proof.
  exists (exNet (Some 4000)). eexists. eexists. eexists. eexists. eexists. eexists. split; [vm_compute; reflexivity|]. split; [reflexivity|]. split; [vm_compute; reflexivity|]. split.
  - match goal with |- exists p, ?t = _ => exists (firstn (List.length t - 19) t) end. vm_compute. reflexivity.
  - vm_compute. reflexivity.
Qed.
Print Assumptions C38_one_part_refuted.
(** Two bodies under a type that is not multipart are written as a multipart body that is read as one. *)
Theorem C38_plain_type_refuted : exists e m text m' s2 m2 s3, mBodies m = [exBody "a"; exBody "b"] /\ wfMsg e m /\ encMsg [] m e (mkst [] 8) = Ok (text, m') s2 /\ parseMsg e (mkst text 8) = Ok m2 s3 /\ List.length (mBodies m2) = 1%nat.
Proof.
  exists (exNet (Some 4000)), (mkmsg exReq exHdrs [exBody "a"; exBody "b"]). eexists. eexists. eexists. eexists. eexists. split; [reflexivity|]. split; [split; [apply exReq_wf|apply exHdrs_wf]|]. split; [vm_compute; reflexivity|]. split; [vm_compute; reflexivity|reflexivity].
Qed.
Print Assumptions C38_plain_type_refuted.
(** A delimiter of which only the second byte after it is a dash ends the body: the parts after it are lost. *)
Theorem C38_dash_refuted : exists e m s1, parseMsg e (mkst (multi1 (s2b "--b" ++ CRLF ++ CRLF ++ s2b "A" ++ CRLF ++ s2b "--b -" ++ CRLF ++ CRLF ++ s2b "B" ++ CRLF ++ s2b "--b--")) 8) = Ok m s1 /\ mBodies m = [exBody "A"].
Proof. exists (exNet (Some 4000)). eexists. eexists. split; [vm_compute; reflexivity|reflexivity]. Qed.
Print Assumptions C38_dash_refuted.
(** A preamble (RFC 2046 5.1.1) is not accepted. *)
Theorem C38_preamble_refuted : exists e s1, parseMsg e (mkst (multi1 (s2b "preamble" ++ CRLF ++ s2b "--b" ++ CRLF ++ CRLF ++ s2b "A" ++ CRLF ++ s2b "--b--")) 8) = Fail s1.
Proof. exists (exNet (Some 4000)). eexists. vm_compute. reflexivity. Qed.
Print Assumptions C38_preamble_refuted.
(** With ParseSipHeaderAsRaw the Content-Type of a body part is read and not written. *)
Definition rawEnv : env := mkenv (Some 4000) false false false false false false true false true false true false false (fun _ => true) (fun _ => None) (fun _ => []).
Theorem C38_part_type_refuted : exists m s1 text m' s2, parseMsg rawEnv (mkst (multi1 (s2b "--b" ++ CRLF ++ s2b "Content-Type: a/b" ++ CRLF ++ CRLF ++ s2b "A" ++ CRLF ++ s2b "--b" ++ CRLF ++ CRLF ++ s2b "B" ++ CRLF ++ s2b "--b--")) 8) = Ok m s1 /\
  map (fun b => hsCommon (bHdrs b)) (mBodies m) = [[[VType (s2b "a") (s2b "b") None []]; []; []]; [[]; []; []]] /\ encMsg [] m rawEnv s1 = Ok (text, m') s2 /\
  exists p, text = p ++ CRLF ++ CRLF ++ s2b "--b" ++ CRLF ++ CRLF ++ s2b "A" ++ CRLF ++ s2b "--b" ++ CRLF ++ CRLF ++ s2b "B" ++ CRLF ++ s2b "--b--".
Proof.
  eexists. eexists. eexists. eexists. eexists. split; [vm_compute; reflexivity|]. split; [reflexivity|]. split; [vm_compute; reflexivity|]. match goal with |- exists p, ?t = _ => exists (firstn (List.length t - 29) t) end. vm_compute. reflexivity.
Qed.
Print Assumptions C38_part_type_refuted.

(** ** C43: encoding again *)
Lemma fixLength_twice b : fixLength (fixLength b) = fixLength b.
Proof.
  unfold fixLength at 2 3. destruct (nth 1 (hsCommon (bHdrs b)) []) as [|v vs] eqn:E; unfold fixLength; [now rewrite E|]. cbn [bHdrs bData hsCommon hsRaw].
  assert (L : (1 < List.length (hsCommon (bHdrs b)))%nat) by (destruct (Nat.le_gt_cases (List.length (hsCommon (bHdrs b))) 1) as [L|L]; [rewrite nth_overflow in E by exact L; discriminate|exact L]). rewrite setNth_nth by exact L. now rewrite setNth_twice.
Qed.
Lemma encMultipart_fix e b bs : encMultipart e b (map fixLength bs) = encMultipart e b bs.
Proof. unfold encMultipart. f_equal. induction bs as [|x bs IH]; cbn [flat_map map]; [reflexivity|]. now rewrite IH, fixLength_twice. Qed.
Lemma boundary_again e h s h2 b s2 : (10 < List.length (hsCommon h))%nat -> findOrCreateBoundary h e s = Ok (h2, b) s2 -> forall e3 s3, findOrCreateBoundary h2 e3 s3 = Ok (h2, b) s3.
Proof.
  intros L E e3 s3. unfold findOrCreateBoundary in E. apply bind_inv in E as (v & s1 & Ev & E). apply bind_inv in E as (vb & s4 & Eb & E). unfold ret in E. assert (Q := f_equal (fun r => match r with Ok (x, y) _ => (x, y) | _ => (h2, b) end) E). cbv beta iota in Q. apply pair_equal_spec in Q as [<- <-].
  unfold findOrCreateBoundary, contentTypeOf. cbn [hsCommon hsRaw]. rewrite setNth_nth by exact L. cbn [hd_error].
  assert (G : exists p, boundaryParam (fst vb) = Some p /\ gvalueText (gpValue p) = Some (snd vb)).
  { destruct (boundaryParam v) as [p|] eqn:Ep.
    - destruct (gvalueText (gpValue p)) as [t|] eqn:Et; [|discriminate]. injection Eb as <- _. cbn [fst snd]. exists p. auto.
    - unfold setBoundary in Eb. destruct v; try discriminate. apply bind_inv in Eb as (? & ? & _ & Eb). apply bind_inv in Eb as (? & ? & _ & Eb). apply bind_inv in Eb as (nm & ? & _ & Eb). apply bind_inv in Eb as (bb & ? & _ & Eb). unfold ret in Eb.
      assert (Q := f_equal (fun r => match r with Ok x _ => x | _ => vb end) Eb). cbv beta iota in Q. subst vb. cbn [fst snd boundaryParam nth gpValue gvalueText]. eexists. split; reflexivity. }
  destruct G as (p & G1 & G2). unfold bind at 1, ret at 1. rewrite G1, G2. unfold bind, ret. cbn [fst snd]. now rewrite setNth_twice.
Qed.
(** Encoding the message that an encoding left behind gives the same text, changes nothing and needs no memory. *)
Theorem C43_encode_again : forall e pre m s text m' s', List.length (hsCommon (mHdrs m)) = 19%nat -> encMsg pre m e s = Ok (text, m') s' ->
  forall n u, encMsg pre m' (withMem n e) u = Ok (text, m') u.
Proof.
  intros e pre m s text m' s' L E n u. unfold encMsg, withEnv in E. apply bind_inv in E as (h1 & s1 & E1 & E). apply bind_inv in E as ((h & b) & s2 & Eh & E).
  assert (L1 : List.length (hsCommon h1) = 19%nat /\ contentLengthOf h1 <> None).
  { unfold ensureLength in E1. destruct (contentLengthOf (mHdrs m)) eqn:C; [injection E1 as <- _; split; [exact L|congruence]|]. apply bind_inv in E1 as (? & ? & _ & E1). injection E1 as <- _. cbn [hsCommon]. rewrite setNth_len. split; [exact L|]. unfold contentLengthOf. cbn [hsCommon]. rewrite setNth_nth by (rewrite L; lia). discriminate. }
  destruct L1 as [L1 C1]. assert (Hm' : mHdrs m' = h /\ mStart m' = mStart m /\ mBodies m' = (if hasMulti m then map fixLength (mBodies m) else mBodies m)).
  { cbn [fst snd] in E. destruct (mBodies m) as [|x bs] eqn:Eb; unfold ret in E; assert (Q := f_equal (fun r => match r with Ok (_, y) _ => y | _ => m' end) E); cbv beta iota in Q; rewrite <- Q; cbn [mHdrs mStart mBodies]; (split; [reflexivity|split; [reflexivity|]]); [destruct (hasMulti m)|]; reflexivity. }
  destruct Hm' as (Hh & Hst & Hbs).
  assert (Hmul : hasMulti m' = hasMulti m) by (unfold hasMulti in *; rewrite Hbs; destruct (mBodies m) as [|? [|? ?]]; reflexivity).
  assert (Hh2 : contentLengthOf h <> None /\ (if hasMulti m then forall e3 s3, findOrCreateBoundary h e3 s3 = Ok (h, b) s3 else b = [])).
  { destruct (hasMulti m); [|injection Eh as <- <- _; auto]. split; [|apply (boundary_again e h1 s1 h b s2); [lia|exact Eh]]. unfold contentLengthOf. destruct (boundary_slots _ _ _ _ _ _ Eh) as [_ Sl]. rewrite Sl by discriminate. exact C1. }
  destruct Hh2 as [C2 B2]. unfold encMsg, withEnv. rewrite Hh, Hst, Hmul. unfold bind at 1. unfold ensureLength. destruct (contentLengthOf h) as [cl|] eqn:Ecl; [|congruence]. unfold ret at 1.
  assert (LE : forall p, lengthEnd (withMem n e) p h = lengthEnd e p h).
  { intros p. unfold lengthEnd. rewrite Ecl. f_equal. f_equal. f_equal; [apply flat_map_ext; intros; apply encSlot_mem|]. f_equal. f_equal. unfold encSlotValue. destruct (hiKind _); [apply encHVal_mem|reflexivity]. }
  unfold bind. cbn [fst snd] in E. destruct (hasMulti m) eqn:Hm.
  - rewrite B2. cbn [fst snd]. rewrite encStartLine_mem, encHdrs_mem, LE, Hbs. destruct (mBodies m) as [|x bs] eqn:Ebs; [unfold hasMulti in Hm; rewrite Ebs in Hm; discriminate|]. cbn [map]. change (fixLength x :: map fixLength bs) with (map fixLength (x :: bs)). rewrite encMultipart_mem, encMultipart_fix.
    rewrite map_map. erewrite (map_ext _ fixLength) by (intros; apply fixLength_twice). rewrite ?fixLength_twice. unfold ret in *. assert (Q := f_equal (fun r => match r with Ok (y, z) _ => (y, z) | _ => (text, m') end) E); cbv beta iota in Q; apply pair_equal_spec in Q as [Q1 Q2]; rewrite <- Q1, <- Q2; reflexivity.
  - subst b. unfold ret at 1. cbn [fst snd]. rewrite encStartLine_mem, encHdrs_mem, LE, Hbs. destruct (mBodies m) as [|x bs] eqn:Ebs; unfold ret in *; assert (Q := f_equal (fun r => match r with Ok (y, z) _ => (y, z) | _ => (text, m') end) E); cbv beta iota in Q; apply pair_equal_spec in Q as [Q1 Q2]; rewrite <- Q1, <- Q2; reflexivity.
Qed.
Print Assumptions C43_encode_again.
Example C43_case : exists text m' s', encMsg [] exMany (exNet (Some 4000)) (mkst [] 8) = Ok (text, m') s' /\ m' <> exMany.
Proof. eexists. eexists. eexists. split; [vm_compute; reflexivity|]. intros H. apply (f_equal (fun m => contentLengthOf (mHdrs m))) in H. vm_compute in H. discriminate. Qed.
