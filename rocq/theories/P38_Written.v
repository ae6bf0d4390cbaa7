(** C70: how a message that was read is written: which lines, under which names, in which order. *)
From Verif Require Import Base BaseLemmas Charset CharsetSpec Num NumSpec Lws LwsSpec Str StrSpec StrProofs QuotedSpec MethodTree HeaderTree NameSpec Monad Good Room Rt Seq Inv
  Host HostSpec Uri UriSpec Tel TelSpec GenParam GenParamSpec Addr AddrSpec StartLine StartLineSpec Headers HeadersSpec RawHeaders RawSpec RawProofs Msg MsgSpec MsgProofs MsgRt MsgEnc MsgWhole
  GrammarSpec Exact GrammarMsg ExactMsg ExactHead GrammarWhole ExactName ExactWhole P12_Messages P18_Memory.
From Coq Require Import String.
Open Scope N_scope.

(** ** Specification *)
(** The headers that are read into values, in the order in which they are written: name, number, type. *)
Definition writtenOrder : list (bytes * (N * hkind)) := [
  (s2b "Via", (SIP_HDR_VIA, KVia)); (s2b "Route", (SIP_HDR_ROUTE, KRoute)); (s2b "Contact", (SIP_HDR_CONTACT, KContact)); (s2b "From", (SIP_HDR_FROM, KFrom)); (s2b "To", (SIP_HDR_TO, KTo));
  (s2b "Call-ID", (SIP_HDR_CALL_ID, KCallID)); (s2b "Content-Length", (SIP_HDR_CONTENT_LENGTH, KContentLength)); (s2b "CSeq", (SIP_HDR_CSEQ, KCSeq));
  (s2b "Record-Route", (SIP_HDR_RECORD_ROUTE, KRecordRoute)); (s2b "Content-Type", (SIP_HDR_CONTENT_TYPE, KContentType)); (s2b "Max-Forwards", (SIP_HDR_MAX_FORWARDS, KMaxForwards));
  (s2b "Content-Disposition", (SIP_HDR_CONTENT_DISPOSITION, KContentDisposition)); (s2b "Expires", (SIP_HDR_EXPIRES, KExpires)); (s2b "Path", (SIP_HDR_PATH, KPath));
  (s2b "Service-Route", (SIP_HDR_SERVICE_ROUTE, KServiceRoute)); (s2b "RSeq", (SIP_HDR_RSEQ, KRSeq)); (s2b "RAck", (SIP_HDR_RACK, KRAck));
  (s2b "P-Asserted-Identity", (SIP_HDR_P_ASSERTED_IDENTITY, KPai))].
(** One line for all the values of a header; no line if there are none. *)
Definition valuesLine (e : env) (name : bytes) (k : hkind) (vs : list hval) : bytes :=
  match vs with [] => [] | v :: vs' => name ++ s2b ": " ++ encHVal e k v ++ flat_map (fun w => s2b ", " ++ encHVal e k w) vs' ++ CRLF end.
(** A field kept as it is written: under its own name, or under the registered spelling of a name known by a number. For some numbers the library has no name (C35_name_lost_refuted). *)
Definition registeredName (i : N) : bytes :=
  if existsb (N.eqb i) writtenHeaders then match find (fun q => snd q =? i) headerNames with Some q => fst q | None => [] end else [].
Definition rawLine (h : raw) : bytes := (match rName h with Some n => n | None => registeredName (rId h) end) ++ s2b ": " ++ rValue h ++ CRLF.
Definition rawFields (fs : list field) : list raw := flat_map (fun f => match f with FRaw h => [h] | FValues _ _ => [] end) fs.
(** The header lines of a message whose fields are [fs]; [n] is the number in the Content-Length, which is always written. *)
Definition headerLines (e : env) (n : N) (fs : list field) : bytes :=
  flat_map (fun q => valuesLine e (fst q) (snd (snd q)) (if fst (snd q) =? SIP_HDR_CONTENT_LENGTH then [VNum n] else slotValues fs (fst (snd q)))) writtenOrder ++ flat_map rawLine (rawFields fs).
(** A part: the length of its data if it had a Content-Length, the Content-Disposition, the other fields; an empty line; the data. *)
Definition partText (e : env) (fs : list field) (data : bytes) : bytes :=
  valuesLine e (s2b "Content-Length") KContentLength (match slotValues fs SIP_HDR_CONTENT_LENGTH with [] => [] | _ => [VNum (len data)] end) ++
  valuesLine e (s2b "Content-Disposition") KContentDisposition (slotValues fs SIP_HDR_CONTENT_DISPOSITION) ++ flat_map rawLine (rawFields fs) ++ CRLF ++ data.
(** The parts, each with its fields, between the delimiters. *)
Definition partsText (e : env) (b : bytes) (ps : list (list field * bytes)) : bytes :=
  flat_map (fun p => s2b "--" ++ b ++ CRLF ++ partText e (fst p) (snd p) ++ CRLF) ps ++ s2b "--" ++ b ++ s2b "--".
(** The text behind the empty line of a message that was read. *)
Inductive BodyText (e : env) (m : msg) : bytes -> Prop :=
| BTnone : mBodies m = [] -> BodyText e m []
| BTone x : mBodies m = [x] -> BodyText e m (bData x)
| BTmany b ps : (2 <= List.length ps)%nat -> boundaryIs (mHdrs m) b -> mBodies m = map (fun p => mkbody (collect OBody (fst p)) (snd p)) ps -> BodyText e m (partsText e b ps).
Definition mimeLine (m : msg) (fs : list field) : bytes :=
  match mBodies m with
  | _ :: _ :: _ => if existsb (fun h => rId h =? SIP_HDR_MIME_VERSION) (rawFields fs) then [] else s2b "MIME-Version: 1.0" ++ CRLF
  | _ => []
  end.

(** ** Proof *)
Lemma registered_info : forallb (fun q => negb (snd q =? SIP_HDR_UNKNOWN) && beq (match infoOf (snd q) with Some x => hiName x | None => [] end) (registeredName (snd q))) lookedUp = true.
Proof. vm_compute. reflexivity. Qed.
Lemma field_rawLine e o t h k : FieldRead e o t (FRaw h) k -> encRaw h = rawLine h.
Proof.
  intros H. inversion H as [| |tn n i t0 v k0 (p & c & _ & Hn & _) _ _]; subst. cbn [fst snd] in Hn. unfold encRaw, rawLine, rawName. cbn [rId rName rValue]. f_equal.
  destruct Hn as [p name i I _|p _ _]; [|reflexivity]. pose proof registered_info as F. rewrite forallb_forall in F. apply F in I. cbn [snd] in I. apply andb_prop in I as [I1 I2].
  apply negb_true_iff in I1. rewrite I1. apply beq_eq in I2. rewrite <- I2. now destruct (infoOf i).
Qed.
Lemma fields_rawLines e o t fs k : FieldsRead e o t fs k -> encRawHeaders (rawFields fs) = flat_map rawLine (rawFields fs).
Proof.
  intros H. induction H as [|k|t f ts fs k Hf Hs IH]; [reflexivity..|]. unfold rawFields in *. cbn [flat_map]. unfold encRawHeaders. rewrite !flat_map_app. f_equal; [|exact IH].
  destruct f as [i vs|h]; [reflexivity|]. cbn [flat_map]. rewrite !app_nil_r. now apply field_rawLine in Hf.
Qed.
Lemma slot_one o fs i : Forall (fieldOk o) fs -> maySeveral i = false -> (List.length (slotValues fs i) <= 1)%nat.
Proof.
  intros F M. unfold slotValues. rewrite M. assert (K : Forall (fun vs : list hval => (List.length vs <= 1)%nat) (valuesOf i fs)).
  { unfold valuesOf. induction F as [|f fs Hf F IH]; cbn [flat_map]; [constructor|]. apply Forall_app. split; [|exact IH]. destruct f as [j vs|]; [|constructor]. destruct (N.eqb_spec j i) as [->|]; [|constructor].
    constructor; [|constructor]. destruct Hf as (_ & _ & Hv). destruct (Hv M) as [v ->]. cbn. lia. }
  destruct (valuesOf i fs) as [|x l] using rev_ind; [cbn; lia|]. rewrite last_last. apply Forall_app in K as [_ K]. now inversion K.
Qed.
Lemma slot_line e i vs n k several : slotInfo i = mkinfo n several (Some k) -> (several = false -> (List.length vs <= 1)%nat) -> encSlot e (i, vs) = valuesLine e n k vs.
Proof.
  intros Hi L. unfold encSlot, valuesLine, encMore, encSlotValue. cbn [fst snd]. destruct vs as [|v vs]; [reflexivity|]. rewrite Hi. cbn [hiName hiKind hiMulti]. destruct several; [reflexivity|].
  specialize (L eq_refl). destruct vs; [reflexivity|cbn in L; lia].
Qed.
Lemma msg_lines e t fs k n : FieldsRead e OMsg t fs k -> forall e2, encHdrs OMsg e2 (withLength n (collect OMsg fs)) = headerLines e2 n fs.
Proof.
  intros H e2. pose proof (fields_ok _ _ _ _ _ H) as F. unfold encHdrs, headerLines. cbn [hsCommon hsRaw withLength collect]. f_equal; [|exact (fields_rawLines _ _ _ _ _ H)].
  assert (S1 : forall i, maySeveral i = false -> (List.length (slotValues fs i) <= 1)%nat) by (intros i; exact (slot_one _ _ _ F)).
  set (vals := fun i => if i =? SIP_HDR_CONTENT_LENGTH then [VNum n] else slotValues fs i).
  assert (Eq : tl (combine (slotIndexes OMsg) (setNth (map (slotValues fs) (slotIndexes OMsg)) 7 [VNum n])) = map (fun q => (fst (snd q), vals (fst (snd q)))) writtenOrder) by reflexivity.
  rewrite Eq, flat_map_concat_map, map_map, <- flat_map_concat_map. change (flat_map (fun q => encSlot e2 (fst (snd q), vals (fst (snd q)))) writtenOrder = flat_map (fun q => valuesLine e2 (fst q) (snd (snd q)) (vals (fst (snd q)))) writtenOrder).
  assert (X : Forall (fun q => slotInfo (fst (snd q)) = mkinfo (fst q) (maySeveral (fst (snd q))) (Some (snd (snd q)))) writtenOrder) by (repeat (constructor; [reflexivity|]); constructor).
  clear Eq. induction X as [|q l Hq X IH]; [reflexivity|]. cbn [flat_map]. rewrite IH. assert (Y : encSlot e2 (fst (snd q), vals (fst (snd q))) = valuesLine e2 (fst q) (snd (snd q)) (vals (fst (snd q)))); [|now rewrite Y].
  eapply slot_line; [exact Hq|]. intros M. unfold vals. destruct (N.eqb_spec (fst (snd q)) SIP_HDR_CONTENT_LENGTH); [cbn; lia|auto].
Qed.
Lemma part_lines e t fs k data : FieldsRead e OBody t fs k -> len data < two32 -> forall e2, encBody e2 (fixLength (mkbody (collect OBody fs) data)) = partText e2 fs data.
Proof.
  intros H L e2. rewrite fixLength_part by exact L. pose proof (fields_ok _ _ _ _ _ H) as F. unfold encBody, partText, partWithLength, encHdrs. cbn [bHdrs bData].
  assert (S1 : forall i, maySeveral i = false -> (List.length (slotValues fs i) <= 1)%nat) by (intros i; exact (slot_one _ _ _ F)).
  change (nth 1 (hsCommon (collect OBody fs)) []) with (slotValues fs SIP_HDR_CONTENT_LENGTH). specialize (S1 SIP_HDR_CONTENT_DISPOSITION eq_refl).
  assert (Y1 : encSlot e2 (SIP_HDR_CONTENT_LENGTH, [VNum (len data)]) = valuesLine e2 (s2b "Content-Length") KContentLength [VNum (len data)]) by (apply (slot_line e2 _ _ _ _ false); [reflexivity|intros _; apply le_n]).
  assert (Y2 : encSlot e2 (SIP_HDR_CONTENT_DISPOSITION, slotValues fs SIP_HDR_CONTENT_DISPOSITION) = valuesLine e2 (s2b "Content-Disposition") KContentDisposition (slotValues fs SIP_HDR_CONTENT_DISPOSITION)) by (apply (slot_line e2 _ _ _ _ false); [reflexivity|intros _; exact S1]).
  pose proof (fields_rawLines _ _ _ _ _ H) as Y3. unfold rawFields in *. revert Y1 Y2 Y3. generalize (flat_map rawLine (flat_map (fun f => match f with FValues _ _ => [] | FRaw h => [h] end) fs)).
  generalize (valuesLine e2 (s2b "Content-Disposition") KContentDisposition (slotValues fs SIP_HDR_CONTENT_DISPOSITION)). intros t1 t2 Y1 Y2 Y3.
  destruct (slotValues fs SIP_HDR_CONTENT_LENGTH) as [|v vs] eqn:Ev; cbn [bHdrs bData hsCommon hsRaw collect slotIndexes map setNth combine tl flat_map]; rewrite ?Ev, ?Y1, Y2; rewrite app_nil_r.
  - change (encSlot e2 (SIP_HDR_CONTENT_LENGTH, [])) with (@nil N). cbn [app valuesLine]. rewrite <- app_assoc. apply (f_equal (app t1)). apply (f_equal (fun x => x ++ CRLF ++ data)). exact Y3.
  - rewrite <- !app_assoc. apply (f_equal (app (valuesLine e2 (s2b "Content-Length") KContentLength [VNum (len data)]))). apply (f_equal (app t1)). apply (f_equal (fun x => x ++ CRLF ++ data)). exact Y3.
Qed.
Lemma parts_fields e b t bs k : PartsRead e b t bs k -> exists ps, bs = map (fun p => mkbody (collect OBody (fst p)) (snd p)) ps /\ Forall (fun p => exists t k, FieldsRead e OBody t (fst p) k) ps.
Proof.
  intros H. induction H as [x y k Hx|line tf fs d data ts bs k H1 H2 H3 Hf H5 H6 H7 (ps & -> & F)]; [exists []; split; [reflexivity|constructor]|].
  exists ((fs, data) :: ps). split; [reflexivity|]. constructor; [|exact F]. cbn [fst]. eauto.
Qed.
Lemma parts_text e b ps : Forall (fun p => exists e0 t k, FieldsRead e0 OBody t (fst p) k) ps -> len (encMultipart e b (map (fun p => mkbody (collect OBody (fst p)) (snd p)) ps)) < two32 ->
  encMultipart e b (map (fun p => mkbody (collect OBody (fst p)) (snd p)) ps) = partsText e b ps.
Proof.
  unfold encMultipart, partsText. intros F. generalize (s2b "--" ++ b ++ s2b "--"). intros tail L. f_equal. induction F as [|[fs data] ps (e0 & t & k & H) F IH]; [reflexivity|]. cbn [map flat_map fst snd] in *.
  assert (L2 : len data < two32).
  { eapply N.le_lt_trans; [|exact L]. unfold encBody. assert (D : bData (fixLength (mkbody (collect OBody fs) data)) = data) by (unfold fixLength; destruct (nth 1 _ _); reflexivity). rewrite D, !len_app. lia. }
  rewrite (part_lines _ _ _ _ _ H L2). f_equal. apply IH. eapply N.le_lt_trans; [|exact L]. rewrite !len_app. lia.
Qed.
Lemma findKnown_exists hs i : findKnownRaw hs i = None <-> existsb (fun h => rId h =? i) hs = false.
Proof. induction hs as [|h hs IH]; cbn [findKnownRaw existsb]; [tauto|]. destruct (rId h =? i); [split; discriminate|exact IH]. Qed.
Lemma mime_line m fs h : hsRaw h = rawFields fs -> mimeText m h = mimeLine m fs.
Proof.
  intros E. unfold mimeText, mimeLine, hasMulti. destruct (mBodies m) as [|x [|y l]]; try reflexivity. unfold getHeaderByIndex. rewrite mime_notslot, E. pose proof (findKnown_exists (rawFields fs) SIP_HDR_MIME_VERSION) as [A B].
  destruct (findKnownRaw _ _); destruct (existsb _ _); try reflexivity; [specialize (B eq_refl)|specialize (A eq_refl)]; discriminate.
Qed.

(** A message that was read by SipMsg.Parse and is written by SipMsg.Encode (into a buffer that holds [pre], perhaps with other settings): the start line, the header lines in
    the order above whatever the order they came in, the unread fields in theirs, an empty line, the bodies. The number in the Content-Length is the one that was read (0 if there was none) if there is
    no body, else the length of what follows the empty line, provided the old number has no more digits (C36). *)
Theorem C70_message : forall e0 s m s1 e pre s2 text m' s3, parseMsg e0 s = Ok m s1 -> encMsg pre m e s2 = Ok (text, m') s3 ->
  exists tl tf tb fs body, rest s = tl ++ tf ++ tb ++ rest s1 /\ StartLineRead e0 tl (mStart m) (tf ++ tb ++ rest s1) /\ FieldsRead e0 OMsg tf fs (tb ++ rest s1) /\
    (len body < 4294967296 -> (mBodies m <> [] -> noLonger (statedLength (mHdrs m)) (len body)) -> BodyText e m body /\
     text = pre ++ encStartLine e (mStart m) ++ headerLines e (match mBodies m with [] => statedLength (mHdrs m) | _ => len body end) fs ++ mimeLine m fs ++ CRLF ++ body).
Proof.
  intros e0 s m s1 e pre s2 text m' s3 P E. pose proof (C36_parsed _ _ _ _ P) as LS. apply (ex_sound _ _ _ (exact_msg e0)) in P as (t & Et & H).
  remember (rest s1) as k0 eqn:Ek. destruct H as [tl l tf fs tb bs k Hl Hne Hf Hb]. destruct (encMsg_text _ _ _ _ _ _ _ LS E) as (b & _ & E7 & L19 & Hb2 & T). cbv zeta in T. destruct T as [T0 T1]. cbn [mStart mHdrs mBodies] in *.
  set (m := mkmsg l (collect OMsg fs) bs) in *. exists tl, tf, tb, fs, (bodyText e b bs). rewrite Et, <- !app_assoc. split; [reflexivity|]. split; [exact Hl|]. split; [exact Hf|]. intros L32 NL.
  (* the headers are those that were read *)
  assert (Q : hsRaw (mHdrs m') = rawFields fs /\ (bs = [] -> mHdrs m' = withLength (statedLength (collect OMsg fs)) (collect OMsg fs)) /\
    withLength (len (bodyText e b bs)) (mHdrs m') = withLength (len (bodyText e b bs)) (collect OMsg fs) /\ BodyText e m (bodyText e b bs)).
  { assert (Tw : forall n n', withLength n (withLength n' (collect OMsg fs)) = withLength n (collect OMsg fs)) by reflexivity.
    destruct bs as [|x [|y bs]].
    - cbn [hasMulti mBodies] in Hb2. rewrite Hb2. split; [reflexivity|]. split; [auto|]. split; [apply Tw|now apply BTnone].
    - cbn [hasMulti mBodies] in Hb2. rewrite Hb2. split; [reflexivity|]. split; [discriminate|]. split; [apply Tw|now apply BTone].
    - change (hasMulti m) with true in Hb2. cbv iota in Hb2. inversion Hb as [| | |b0 t0 bs0 k1 Hbd Hp]; subst. clear Hb. destruct Hbd as (mt & st & tbl & p & ps & C1 & C2 & C3 & C4).
      destruct Hb2 as (sa & sb & Hfb). unfold findOrCreateBoundary in Hfb.
      assert (Ct : contentTypeOf (withLength (statedLength (collect OMsg fs)) (collect OMsg fs)) = Some (VType mt st (Some tbl) ps)) by (unfold contentTypeOf; change (nth 10 (hsCommon (withLength (statedLength (collect OMsg fs)) (collect OMsg fs))) []) with (nth 10 (hsCommon (collect OMsg fs)) []); now rewrite C1).
      rewrite Ct in Hfb. unfold bind at 1, ret at 1 in Hfb. cbn [boundaryParam] in Hfb. rewrite C3 in Hfb. destruct (gvalueText (gpValue p)) as [b1|] eqn:Eg; [|discriminate]. unfold bind, ret in Hfb. cbn [fst snd] in Hfb.
      assert (Eh : setNth (hsCommon (withLength (statedLength (collect OMsg fs)) (collect OMsg fs))) 10 [VType mt st (Some tbl) ps] = hsCommon (withLength (statedLength (collect OMsg fs)) (collect OMsg fs))).
      { rewrite <- C1. change (nth 10 (hsCommon (collect OMsg fs)) []) with (nth 10 (hsCommon (withLength (statedLength (collect OMsg fs)) (collect OMsg fs))) []). apply setNth_same. }
      rewrite Eh in Hfb. injection Hfb as Hh <- _. rewrite <- Hh. split; [reflexivity|]. split; [discriminate|]. split; [reflexivity|].
      assert (Eb : b1 = b0) by (destruct (gpValue p) as [[]|]; cbn [gvalueText] in Eg; try discriminate; injection Eg as <-; now subst). subst b1.
      destruct (parts_fields _ _ _ _ _ Hp) as (qs & Eq & Fq). unfold bodyText in *. rewrite Eq in L32 |- *. destruct qs as [|q1 [|q2 qs]]; try discriminate. cbn [map] in L32 |- *.
      pose proof (parts_text e b0 (q1 :: q2 :: qs)) as PT. cbn [map] in PT. rewrite PT; [|eapply Forall_impl; [|exact Fq]; intros q (t1 & k2 & Hq); eauto|exact L32].
      apply (BTmany e m b0 (q1 :: q2 :: qs)).
      + cbn [List.length]. apply le_n_S, le_n_S, Nat.le_0_l.
      + change (boundaryIs (collect OMsg fs) b0). exists mt, st, tbl, p, ps. repeat split; assumption.
      + exact Eq. }
  destruct Q as (Qr & Q0 & Q1 & QB). split; [exact QB|]. rewrite (mime_line m fs _ Qr) in T0, T1. destruct bs as [|x bs].
  - rewrite (T0 eq_refl), (Q0 eq_refl). rewrite (msg_lines _ _ _ _ _ Hf). cbn [bodyText]. now rewrite app_nil_r.
  - rewrite T1; [|discriminate|exact L32|apply NL; discriminate]. rewrite Q1, (msg_lines _ _ _ _ _ Hf). reflexivity.
Qed.

(** A request with its headers in another order, one of them in two fields, one twice, one unknown: what is written. *)
Definition l70 (t : string) : bytes := s2b t ++ CRLF.
Definition read70 : bytes := l70 "INFO sip:a@h SIP/2.0" ++ l70 "X-Y: 1" ++ l70 "l: 2" ++ l70 "t: <sip:b@h>" ++ l70 "CSeq: 7 INFO" ++ l70 "v: SIP/2.0/UDP h;branch=z1" ++ l70 "f: <sip:c@h>;tag=1" ++ l70 "Expires: 5" ++
  l70 "Via: SIP/2.0/TCP g, SIP/2.0/UDP k" ++ l70 "c: text/plain" ++ l70 "Expires: 6" ++ l70 "" ++ s2b "hi".
Definition written70 : bytes := l70 "INFO sip:a@h SIP/2.0" ++ l70 "Via: SIP/2.0/UDP h;branch=z1, SIP/2.0/TCP g, SIP/2.0/UDP k" ++ l70 "From: <sip:c@h>;tag=1" ++ l70 "To: <sip:b@h>" ++ l70 "Content-Length:          2" ++
  l70 "CSeq: 7 INFO" ++ l70 "Content-Type: text/plain" ++ l70 "Expires: 6" ++ l70 "X-Y: 1" ++ l70 "" ++ s2b "hi".
Definition rewritten70 : option bytes := match parseMsg (defaultEnv None) (mkst read70 8) with Ok m s1 => match encMsg [] m (defaultEnv None) s1 with Ok (t, _) _ => Some t | _ => None end | _ => None end.
Example C70_message_case : rewritten70 = Some written70.
Proof. vm_compute. reflexivity. Qed.
(** Two parts; the type of a part is an unread field, so it comes behind the length. *)
Definition readParts70 : bytes := l70 "SIP/2.0 200 OK" ++ l70 "Content-Type: multipart/mixed;boundary=q" ++ l70 "" ++ l70 "--q" ++ l70 "c: a/b" ++ l70 "" ++ l70 "one" ++ l70 "--q" ++ l70 "c: x/y" ++ l70 "l: 99" ++ l70 "" ++ l70 "two" ++ s2b "--q--".
Definition writtenParts70 : bytes := l70 "SIP/2.0 200 OK" ++ l70 "Content-Length:         95" ++ l70 "Content-Type: multipart/mixed;boundary=q" ++ l70 "MIME-Version: 1.0" ++ l70 "" ++ l70 "--q" ++ l70 "Content-Type: a/b" ++ l70 "" ++ l70 "one" ++ l70 "--q" ++
  l70 "Content-Length:          3" ++ l70 "Content-Type: x/y" ++ l70 "" ++ l70 "two" ++ s2b "--q--".
Definition rewrittenParts70 : option bytes := match parseMsg (defaultEnv None) (mkst readParts70 8) with Ok m s1 => match encMsg [] m (defaultEnv None) s1 with Ok (t, _) _ => Some t | _ => None end | _ => None end.
Example C70_parts_case : rewrittenParts70 = Some writtenParts70.
Proof. vm_compute. reflexivity. Qed.
