(** C63: which settings of a context matter where, and raw mode (ParseSipHeaderAsRaw). *)
From Verif Require Import Base Charset BaseLemmas Num Lws LwsSpec LwsProofs Str Monad Good Seq Inv MethodTree HeaderTree Lookup Host Uri Tel GenParam Addr StartLine Headers HeadersSpec RawHeaders RawSpec RawProofs Msg MsgSpec MsgProofs MsgRt
  Room Shift Tidy LessParsing Nine NineParse Config ConfigProofs Blind P05_Uri P12_Messages P13_Discipline P24_Config.
From Coq Require Import String.
Local Open Scope N_scope.

(** ** Specification *)
(** The settings a parser may look at: the size of the arena, which parameters get a field of their own, and net.ParseIP. Not among them: those for Encode (the short header names, the URI as
    name-addr, no escapes in URIs and reason phrases, net.IP.String) and those that choose the headers to be parsed. *)
Record sameReading (e e' : env) : Prop := {
  sr_mem : memend e' = memend e;
  sr_sip : fSipUriKnown e' = fSipUriKnown e;
  sr_tel : fTelUriKnown e' = fTelUriKnown e;
  sr_from : fFromKnown e' = fFromKnown e;
  sr_to : fToKnown e' = fToKnown e;
  sr_via : fViaKnown e' = fViaKnown e;
  sr_contact : fContactKnown e' = fContactKnown e;
  sr_type : fContentTypeKnown e' = fContentTypeKnown e;
  sr_disposition : fContentDispositionKnown e' = fContentDispositionKnown e;
  sr_ip : ipParse e' = ipParse e }.
(** The settings that choose the headers to be parsed. *)
Record sameChoice (e e' : env) : Prop := { sc_raw : fHeaderAsRaw e' = fHeaderAsRaw e; sc_need : forall i, eNeed e' i = eNeed e i }.
(** The settings an encoder may look at. *)
Record sameWriting (e e' : env) : Prop := {
  sw_ns : eNameSpace e' = eNameSpace e;
  sw_uri : eUriNoEscape e' = eUriNoEscape e;
  sw_ip : forall a, ipString e' a = ipString e a }.
(** The parsers that read a block of headers (of a message or of a part). *)
Inductive readsBlock : forall A, P A -> Prop :=
| BHeaders o : readsBlock _ (parseHeaders o)
| BMultipart b : readsBlock _ (parseMultiBody b)
| BBody h : readsBlock _ (parseMsgBody h)
| BMsg : readsBlock _ parseMsg.
(** What is written by the Encode methods, apart from those of start lines and of messages. *)
Inductive encoder : (env -> bytes) -> Prop :=
| WHost h : encoder (fun e => encHost e h)
| WHostPort h : encoder (fun e => encHostPort e h)
| WSipUri u : encoder (fun e => encSipUri e u)
| WTelUri t : encoder (fun e => encTelUri e t)
| WAddr a : encoder (fun e => encAddr e a)
| WAddrSpec a : encoder (fun e => encAddrSpec e a)
| WValue k v : encoder (fun e => encHVal e k v)
| WHeader k v : encoder (fun e => encHeader e k v)
| WHeaders o h : encoder (fun e => encHdrs o e h)
| WBody b : encoder (fun e => encBody e b)
| WMultipart b bs : encoder (fun e => encMultipart e b bs).
(** The same settings, with and without ParseSipHeaderAsRaw. *)
Definition withRaw (b : bool) (e : env) : env :=
  mkenv (memend e) (fSipUriKnown e) (fTelUriKnown e) (fFromKnown e) (fToKnown e) (fViaKnown e) (fContactKnown e) (fContentTypeKnown e) (fContentDispositionKnown e)
    b (eShortName e) (eNameSpace e) (eUriNoEscape e) (eReasonNoEscape e) (eNeed e) (ipParse e) (ipString e).

(** ** Parsers *)
Lemma sameReading_of e e' : sameReading e e' -> readingSame e e'. Proof. intros []. unfold readingSame. repeat split; assumption. Qed.
Lemma same_need e e' : sameChoice e e' -> forall o i, needParse o e' i = needParse o e i.
Proof. intros [H1 H2] o i. unfold needParse. now rewrite H1, H2. Qed.
Lemma parser_blind A (p : P A) ow : parser A p -> (readsBlock A p -> ow OMsg = true /\ ow OBody = true) -> blind ow p.
Proof.
  intros H. destruct H; intros Hb; first [apply bl_host|apply bl_hostPort|apply bl_sipUri|apply bl_uriAfter|apply bl_uriAfterNo|apply bl_telUri|apply bl_telAfter|apply bl_telAfterNo|apply bl_addr|apply bl_nameAddr|apply bl_addrSpec
    |apply bl_params|apply bl_method|apply bl_version|apply bl_startLine|apply bl_hval|apply bl_sipX|apply bl_header|apply bl_headerName|apply bl_rawHeaders|apply bl_rawScan|idtac].
  - destruct (Hb (BHeaders o)) as [H1 H2]. apply bl_headers. destruct o; assumption.
  - destruct (Hb (BMultipart b)) as [H1 H2]. now apply bl_multiBody.
  - destruct (Hb (BBody h)) as [H1 H2]. now apply bl_msgBody.
  - destruct (Hb BMsg) as [H1 H2]. now apply bl_msg.
Qed.
(** Parsing does not depend on the settings for Encode: with any other ones it gives the same result, the same position and takes the same memory. *)
Theorem C63_parse : forall A (p : P A) e e' s, parser A p -> sameReading e e' -> sameChoice e e' -> p e' s = p e s.
Proof.
  intros A p e e' s H R C. apply (parser_blind A p (fun _ => true) H); [auto|now apply sameReading_of|]. intros o _ i. now apply same_need.
Qed.
Print Assumptions C63_parse.
(** The choice of headers matters to blocks of headers (of messages and parts) only. *)
Theorem C63_parse_part : forall A (p : P A) e e' s, parser A p -> ~ readsBlock A p -> sameReading e e' -> p e' s = p e s.
Proof.
  intros A p e e' s H B R. apply (parser_blind A p (fun _ => false) H); [contradiction|now apply sameReading_of|]. discriminate.
Qed.
Print Assumptions C63_parse_part.

(** ** Encoders *)
Lemma flat_map_same {A} (f g : A -> bytes) l : (forall x, f x = g x) -> flat_map f l = flat_map g l.
Proof. intros H. induction l as [|x l IH]; [reflexivity|]. cbn [flat_map]. now rewrite H, IH. Qed.
Section W.
  Variables e e' : env.
  Hypothesis W : sameWriting e e'.
  Lemma w_esc cs b : escUri e' cs b = escUri e cs b. Proof. unfold escUri. now rewrite (sw_uri _ _ W). Qed.
  Lemma w_uriValue cv v : encUriValue e' cv v = encUriValue e cv v. Proof. destruct v; [cbn [encUriValue]; now rewrite w_esc|reflexivity]. Qed.
  Lemma w_uriParam cn cv p : encUriParam e' cn cv p = encUriParam e cn cv p. Proof. unfold encUriParam. now rewrite w_esc, w_uriValue. Qed.
  Lemma w_uriHeaders hs : encUriHeaders e' hs = encUriHeaders e hs.
  Proof. induction hs as [|h hs IH]; [reflexivity|]. cbn [encUriHeaders]. rewrite w_uriParam, IH. reflexivity. Qed.
  Lemma w_uriKnown cv names t : encUriKnown e' cv names t = encUriKnown e cv names t.
  Proof. unfold encUriKnown, encKnown. destruct t as [t|]; [|reflexivity]. apply flat_map_same. intros [n [p|]]; cbn; now rewrite ?w_uriValue. Qed.
  Lemma w_uriParams cn cv ps : encUriParams e' cn cv ps = encUriParams e cn cv ps.
  Proof. apply flat_map_same. intros p. now rewrite w_uriParam. Qed.
  Lemma w_host h : encHost e' h = encHost e h. Proof. destruct h; try reflexivity. cbn [encHost]. now rewrite (sw_ip _ _ W). Qed.
  Lemma w_hostPort h : encHostPort e' h = encHostPort e h. Proof. unfold encHostPort. now rewrite w_host. Qed.
  Lemma w_sipUri u : encSipUri e' u = encSipUri e u.
  Proof. unfold encSipUri. rewrite w_hostPort, w_uriKnown, w_uriParams. replace (match uHeaders u with [] => [] | hs => 63 :: encUriHeaders e' hs end) with (match uHeaders u with [] => [] | hs => 63 :: encUriHeaders e hs end) by (destruct (uHeaders u); [reflexivity|now rewrite w_uriHeaders]). destruct (uUser u); [|reflexivity]. rewrite w_esc. destruct (uPass u); [|reflexivity]. now rewrite w_esc. Qed.
  Lemma w_telUri t : encTelUri e' t = encTelUri e t.
  Proof. unfold encTelUri. rewrite w_uriKnown, w_uriParams. destruct (tGlobal t); [reflexivity|]. destruct (tContext t); [|reflexivity]. now rewrite w_uriValue. Qed.
  Lemma w_addr a : encAddr e' a = encAddr e a.
  Proof. unfold encAddr, encAUri. rewrite (sw_ns _ _ W). destruct (aUri a); now rewrite ?w_sipUri, ?w_telUri. Qed.
  Lemma w_addrSpec a : encAddrSpec e' a = encAddrSpec e a.
  Proof. unfold encAddrSpec. destruct (aUri a); now rewrite ?w_sipUri. Qed.
  Lemma w_hval k v : encHVal e' k v = encHVal e k v.
  Proof. destruct v; cbn [encHVal]; rewrite ?w_addr, ?w_hostPort; reflexivity. Qed.
  Lemma w_slotValue i v : encSlotValue e' i v = encSlotValue e i v. Proof. unfold encSlotValue. destruct (hiKind _); [apply w_hval|reflexivity]. Qed.
  Lemma w_slot iv : encSlot e' iv = encSlot e iv.
  Proof. unfold encSlot. destruct (snd iv) as [|v vs]; [reflexivity|]. rewrite w_slotValue. unfold encMore. rewrite (flat_map_same (fun v => s2b ", " ++ encSlotValue e' (fst iv) v) (fun v => s2b ", " ++ encSlotValue e (fst iv) v)); [reflexivity|]. intros x. now rewrite w_slotValue. Qed.
  Lemma w_hdrs o h : encHdrs o e' h = encHdrs o e h. Proof. unfold encHdrs. f_equal. apply flat_map_same. apply w_slot. Qed.
  Lemma w_body b : encBody e' b = encBody e b. Proof. unfold encBody. now rewrite w_hdrs. Qed.
  Lemma w_multipart b bs : encMultipart e' b bs = encMultipart e b bs.
  Proof. unfold encMultipart. f_equal. apply flat_map_same. intros x. now rewrite w_body. Qed.
  Lemma w_lengthEnd pre h : lengthEnd e' pre h = lengthEnd e pre h.
  Proof. unfold lengthEnd. destruct (contentLengthOf h); rewrite ?w_slotValue, (flat_map_same (encSlot e') (encSlot e)) by apply w_slot; reflexivity. Qed.
  Lemma w_startLine l : eReasonNoEscape e' = eReasonNoEscape e -> encStartLine e' l = encStartLine e l.
  Proof. intros H. unfold encStartLine. destruct l; rewrite ?w_addrSpec, ?H; reflexivity. Qed.
End W.
(** Encoding depends on EncodeUriAsNameSpace, EncodeUriNoEscape and net.IP.String only: neither on the settings for parsing nor on EncodeHeaderShorName. *)
Theorem C63_encode : forall w e e', encoder w -> sameWriting e e' -> w e' = w e.
Proof.
  intros w e e' H W. destruct H; cbv beta; first [now apply w_host|now apply w_hostPort|now apply w_sipUri|now apply w_telUri|now apply w_addr|now apply w_addrSpec|now apply w_hval|unfold encHeader; now rewrite (w_hval e e' W)|now apply w_hdrs|now apply w_body|now apply w_multipart].
Qed.
Print Assumptions C63_encode.
(** EncodeReasonPhraseNoEscape matters to status lines only. *)
Theorem C63_encode_start : forall l e e', sameWriting e e' -> ((exists v c t, l = SStatus v c t) -> eReasonNoEscape e' = eReasonNoEscape e) -> encStartLine e' l = encStartLine e l.
Proof.
  intros l e e' W H. destruct l as [m a v|v c t]; [unfold encStartLine; now rewrite (w_addrSpec e e' W)|]. apply w_startLine; [exact W|]. apply H. eauto.
Qed.
Print Assumptions C63_encode_start.
(** The same for messages; these may create headers, which needs memory. *)
Theorem C63_encode_msg : forall e e' pre m s, sameWriting e e' -> eReasonNoEscape e' = eReasonNoEscape e -> memend e' = memend e -> encMsg pre m e' s = encMsg pre m e s.
Proof.
  intros e e' pre m s W Hr M. unfold encMsg, withEnv, bind.
  assert (AL : forall n u, allocStruct n e' u = allocStruct n e u) by (intros; unfold allocStruct; now blPrim M).
  assert (AC : forall t u, allocCString t e' u = allocCString t e u) by (intros; unfold allocCString; now blPrim M).
  assert (E1 : forall u, ensureLength (mHdrs m) e' u = ensureLength (mHdrs m) e u) by (intros u; unfold ensureLength, bind; destruct (contentLengthOf (mHdrs m)); [reflexivity|now rewrite AL]).
  rewrite E1. destruct (ensureLength (mHdrs m) e s) as [h1 s1| | |]; [|reflexivity..].
  assert (E2 : findOrCreateBoundary h1 e' s1 = findOrCreateBoundary h1 e s1).
  { assert (R : forall v u, setBoundary v e' u = setBoundary v e u).
    { intros v u. unfold setBoundary. destruct v as [ad t1 ps| |pr tr hp t1 ps|n mt|rr c0 mt|n|mn sb t1 ps|d t1 ps|w0 w2]; try reflexivity. unfold bind. destruct t1; unfold ret; repeat (rewrite ?AL, ?AC; match goal with |- context [match allocStruct ?n e ?u with _ => _ end] => destruct (allocStruct n e u) | |- context [match allocCString ?n e ?u with _ => _ end] => destruct (allocCString n e u) end; try reflexivity). }
    unfold findOrCreateBoundary, bind. destruct (contentTypeOf h1) as [v|].
    - change (ret v e' s1) with (Ok v s1). change (ret v e s1) with (Ok v s1). cbv iota. destruct (boundaryParam v) as [p|]; [destruct (gvalueText (gpValue p)); reflexivity|now rewrite R].
    - repeat (rewrite ?AL, ?AC; match goal with |- context [match allocStruct ?n e ?u with _ => _ end] => destruct (allocStruct n e u) | |- context [match allocCString ?n e ?u with _ => _ end] => destruct (allocCString n e u) end; try reflexivity).
      cbv beta iota delta [ret boundaryParam]. now rewrite R. }
  replace ((if hasMulti m then findOrCreateBoundary h1 else ret (h1, [])) e' s1) with ((if hasMulti m then findOrCreateBoundary h1 else ret (h1, [])) e s1) by (destruct (hasMulti m); [now rewrite E2|reflexivity]).
  destruct ((if hasMulti m then findOrCreateBoundary h1 else ret (h1, [])) e s1) as [[h b] s2| | |]; [|reflexivity..]. cbn [fst snd].
  rewrite (w_startLine e e' W _ Hr), (w_hdrs e e' W), (w_lengthEnd e e' W). destruct (mBodies m) as [|b0 bs0]; [reflexivity|]. now rewrite (w_multipart e e' W).
Qed.
Print Assumptions C63_encode_msg.

(** ** Raw mode *)
Lemma raw_msg_need e i : needParse OMsg (withRaw true e) i = needParse OMsg (withNeed (fun _ => false) (withRaw false e)) i.
Proof.
  unfold needParse. change (fHeaderAsRaw (withRaw true e)) with true. change (fHeaderAsRaw (withNeed (fun _ => false) (withRaw false e))) with false. change (eNeed (withNeed (fun _ => false) (withRaw false e)) i) with false. cbv iota.
  rewrite orb_false_r. destruct (contentHdr i) eqn:C; [|now rewrite andb_false_r].
  unfold contentHdr in C. rewrite !orb_true_iff, !N.eqb_eq in C. destruct C as [[-> | ->] | ->]; reflexivity.
Qed.
Lemma raw_body_need e e' i : i <> SIP_HDR_CONTENT_TYPE -> fHeaderAsRaw e' = false -> needParse OBody (withRaw true e) i = needParse OBody e' i.
Proof.
  intros Hi He. unfold needParse. change (fHeaderAsRaw (withRaw true e)) with true. rewrite He. cbv iota.
  destruct (contentHdr i) eqn:C.
  - unfold contentHdr in C. rewrite !orb_true_iff, !N.eqb_eq in C. destruct C as [[C | ->] | ->]; [contradiction|reflexivity..].
  - cbn [orb]. replace (negb (Nat.eqb (slotOf OBody i) 0)) with false; [reflexivity|]. unfold contentHdr in C. rewrite !orb_false_iff in C. destruct C as [[C1 C2] C3].
    unfold slotOf, slotTable, lookupSlot. now rewrite C1, C2, C3.
Qed.
Lemma reading_raw e b f : readingSame e (withNeed f (withRaw b e)). Proof. repeat split. Qed.
Lemma readingSame_raw e b b' f : readingSame (withRaw b e) (withNeed f (withRaw b' e)). Proof. repeat split. Qed.
(** The headers of a message are read in raw mode as if NeedParse of all of them were cleared. *)
Theorem C63_raw_block : forall e s, parseHeaders OMsg (withRaw true e) s = parseHeaders OMsg (withNeed (fun _ => false) (withRaw false e)) s.
Proof.
  intros e s. symmetry. apply (bl_headers (fun o => match o with OMsg => true | OBody => false end) OMsg eq_refl); [apply readingSame_raw|].
  intros [|] Ho i; [|discriminate]. symmetry. apply raw_msg_need.
Qed.
Print Assumptions C63_raw_block.

(** *** Parts *)
Lemma iter_switch {A B} (body : A -> P (A + B)) e e' (I : A -> Prop) (J : A -> Prop) (K : B -> Prop) :
  (forall a s a' s', I a -> body a e s = Ok (inl a') s' -> I a' /\ (J a' -> J a /\ body a e' s = Ok (inl a') s')) ->
  (forall a s b s', I a -> body a e s = Ok (inr b) s' -> K b -> J a /\ body a e' s = Ok (inr b) s') ->
  forall n a s b s', I a -> iterP n body a e s = Ok b s' -> K b -> J a /\ iterP n body a e' s = Ok b s'.
Proof.
  intros H1 H2. induction n as [|n IH]; intros a s b s' Ia; cbn [iterP]; [discriminate|]. intros E Kb. apply bind_inv in E as (r & s1 & E & F). destruct r as [a'|b'].
  - destruct (H1 a s a' s1 Ia E) as (Ia' & G). destruct (IH a' s1 b s' Ia' F Kb) as (Ja' & F'). destruct (G Ja') as (Ja & E'). split; [exact Ja|]. unfold bind. now rewrite E'.
  - unfold ret in F. injection F as -> ->. destruct (H2 a s b s' Ia E Kb) as (Ja & E'). split; [exact Ja|]. unfold bind. now rewrite E'.
Qed.
Lemma loop_switch {A B} (body : A -> P (A + B)) e e' (I : A -> Prop) (J : A -> Prop) (K : B -> Prop) :
  (forall a s a' s', I a -> body a e s = Ok (inl a') s' -> I a' /\ (J a' -> J a /\ body a e' s = Ok (inl a') s')) ->
  (forall a s b s', I a -> body a e s = Ok (inr b) s' -> K b -> J a /\ body a e' s = Ok (inr b) s') ->
  forall a s b s', I a -> loopP body a e s = Ok b s' -> K b -> loopP body a e' s = Ok b s'.
Proof. intros H1 H2 a s b s' Ia E Kb. unfold loopP in *. exact (proj2 (iter_switch body e e' I J K H1 H2 _ a s b s' Ia E Kb)). Qed.
Definition none (_ : owner) : bool := false.
Lemma need_body e i x : needParse OBody e i = Some x -> exists k, x = (k, false) /\ (i = SIP_HDR_CONTENT_TYPE -> fHeaderAsRaw e = true).
Proof.
  unfold needParse. destruct (fHeaderAsRaw e) eqn:F.
  - destruct (contentHdr i) eqn:C; [|discriminate]. unfold contentHdr in C. rewrite !orb_true_iff, !N.eqb_eq in C. destruct C as [[-> | ->] | ->]; cbn; intros [= <-]; eexists; split; reflexivity.
  - unfold slotOf, slotTable, lookupSlot. destruct (N.eqb_spec i SIP_HDR_CONTENT_TYPE) as [->|N1]; [discriminate|]. destruct (N.eqb_spec i SIP_HDR_CONTENT_LENGTH) as [->|N2]; [cbn; intros [= <-]; eexists; split; [reflexivity|discriminate]|].
    destruct (N.eqb_spec i SIP_HDR_CONTENT_DISPOSITION) as [->|N3]; [cbn; intros [= <-]; eexists; split; [reflexivity|discriminate]|]. discriminate.
Qed.
Lemma one_body a n i e s a' s' : oneHeader OBody a n i e s = Ok a' s' ->
  (exists k v, needParse OBody e i = Some (k, false) /\ a' = setCommon OBody i false a v) \/ (exists h, needParse OBody e i = None /\ a' = addRaw a h /\ rId h = i).
Proof.
  unfold oneHeader, withEnv. destruct (needParse OBody e i) as [[k mu]|] eqn:Nd.
  - destruct (need_body _ _ _ Nd) as (k' & Ek & _). injection Ek as -> ->. intros E. apply bind_inv in E as (v & s1 & _ & E). apply bind_inv in E as (t & s2 & _ & E). unfold ret in E. injection E as <- _. left. eauto.
  - intros E. apply bind_inv in E as (h & s1 & E1 & E). unfold ret in E. injection E as <- _. right. exists h. split; [reflexivity|]. split; [reflexivity|].
    unfold rawHeader in E1. apply bind_inv in E1 as (t & s2 & _ & E1). apply bind_inv in E1 as (v & s3 & _ & E1). unfold ret in E1. now injection E1 as <- _.
Qed.
Lemma one_same a n i e e' s : readingSame e e' -> needParse OBody e' i = needParse OBody e i -> oneHeader OBody a n i e' s = oneHeader OBody a n i e s.
Proof.
  intros R Hn. unfold oneHeader, withEnv. rewrite Hn. destruct (needParse OBody e i) as [[k mu]|].
  - apply (bl_oneParsed none); [exact R|discriminate].
  - apply (bl_oneRaw none); [exact R|discriminate].
Qed.

Section Switch.
  Variables e e' : env.
  Variables I J : hset -> Prop.
  Hypothesis R : readingSame e e'.
  Hypothesis I0 : I (emptyHdrs OBody).
  Hypothesis J0 : J (emptyHdrs OBody).
  Hypothesis step : forall a n i s a' s', I a -> oneHeader OBody a n i e s = Ok a' s' -> I a' /\ (J a' -> J a /\ needParse OBody e' i = needParse OBody e i).
  Lemma sw_block s h s' : parseHeaders OBody e s = Ok h s' -> J h -> parseHeaders OBody e' s = Ok h s'.
  Proof.
    unfold parseHeaders. apply (loop_switch (headersBody (oneHeader OBody)) e e' I J J); [| |exact I0].
    - intros a s0 a' s1 Ia. unfold headersBody, onRest. destruct (rest s0) as [|x r1] eqn:Er; [discriminate|]. destruct (IsCRLF (x :: r1)); [unfold bind, goto, ret; discriminate|]. intros E. apply bind_inv in E as (ni & s2 & E1 & E). apply bind_inv in E as (a2 & s3 & E2 & E). unfold ret in E. injection E as -> ->.
      destruct (step _ _ _ _ _ _ Ia E2) as (Ia' & G). split; [exact Ia'|]. intros Ja'. destruct (G Ja') as (Ja & Hn). split; [exact Ja|]. unfold bind at 1. rewrite (bl_headerName none e e' s0 R ltac:(discriminate)), E1. unfold bind. now rewrite (one_same _ _ _ e e' _ R Hn), E2.
    - intros a s0 b s1 Ia. unfold headersBody, onRest. destruct (rest s0) as [|x r1] eqn:Er; [unfold ret; intros [= <- <-]; auto|]. destruct (IsCRLF (x :: r1)); [unfold bind, goto, ret; intros [= <- <-]; auto|]. intros E. apply bind_inv in E as (ni & s2 & E1 & E). apply bind_inv in E as (a2 & s3 & E2 & E). unfold ret in E. discriminate.
  Qed.
  Lemma sw_alloc n s : allocStruct n e' s = allocStruct n e s. Proof. exact (bl_alloc none n e e' s R ltac:(discriminate)). Qed.
  Lemma sw_string t s : attempt (allocCString t) e' s = attempt (allocCString t) e s. Proof. exact (bl_attempt none _ (bl_allocCString none t) e e' s R ltac:(discriminate)). Qed.
  Lemma sw_multi b s bs s' : parseMultiBody b e s = Ok bs s' -> Forall (fun x => J (bHdrs x)) bs -> parseMultiBody b e' s = Ok bs s'.
  Proof.
    unfold parseMultiBody, onRest. destruct (stripPrefix (45 :: 45 :: b) (rest s)) as [r1|]; [|discriminate]. unfold bind, goto. cbv beta iota.
    apply (loop_switch (multipartBody _) e e' (fun _ => True) (Forall (fun x => J (bHdrs x))) (Forall (fun x => J (bHdrs x)))); [| |exact Logic.I].
    - intros a s0 a' s1 _. unfold multipartBody, onRest. destruct (rest s0) as [|x [|y r2]] eqn:Er; [discriminate..|]. destruct ((x =? 45) || (y =? 45)); [unfold bind, goto, ret; discriminate|].
      destruct (FindCrlf (x :: y :: r2)) as [[w r3]|]; [|unfold bind, goto, pfail; discriminate]. intros E. apply bind_inv in E as (t9 & s9 & E9 & E). unfold goto in E9. injection E9 as <- <-. unfold bind at 1. unfold goto at 1. cbv beta iota. apply bind_inv in E as (t0 & s2 & E1 & E). apply bind_inv in E as (h & s3 & E2 & E). cbv beta in E.
      destruct (splitAt _ (rest s3)) as [[d r4]|] eqn:Es; [|discriminate]. apply bind_inv in E as (o & s4 & E3 & E). unfold bind, goto, ret in E. injection E as <- <-. split; [exact Logic.I|]. intros F. apply Forall_app in F as [Fa Fb]. split; [exact Fa|].
      unfold bind at 1. rewrite sw_alloc, E1. unfold bind at 1. inversion Fb as [|z l Jz _]. subst z l. rewrite (sw_block _ _ _ E2 Jz). rewrite Es. unfold bind at 1. rewrite sw_string, E3. reflexivity.
    - intros a s0 b0 s1 _. unfold multipartBody, onRest. destruct (rest s0) as [|x [|y r2]] eqn:Er; [discriminate..|]. destruct ((x =? 45) || (y =? 45)); [unfold bind, goto, ret; intros [= <- <-]; auto|].
      destruct (FindCrlf (x :: y :: r2)) as [[w r3]|]; [|unfold bind, goto, pfail; discriminate]. intros E. apply bind_inv in E as (t9 & s9 & E9 & E). apply bind_inv in E as (t0 & s2 & E1 & E). apply bind_inv in E as (h & s3 & E2 & E). cbv beta in E.
      destruct (splitAt _ (rest s3)) as [[d r4]|] eqn:Es; [|discriminate]. apply bind_inv in E as (o & s4 & E3 & E). unfold bind, goto, ret in E. discriminate.
  Qed.
  Lemma sw_body h s bs s' : parseMsgBody h e s = Ok bs s' -> Forall (fun x => J (bHdrs x)) bs -> parseMsgBody h e' s = Ok bs s'.
  Proof.
    unfold parseMsgBody. destruct (contentTypeOf h) as [v|]; [|intros [= <- <-]; reflexivity]. destruct v as [ad t1 ps| |pr tr hp t1 ps|n mt|rr c0 mt|n|mn sb t1 ps|d t1 ps|w0 w2]; try (intros [= <- <-]; reflexivity).
    destruct (CStringEqualNoCase mn (s2b "multipart")) as [[|]|]; [|rewrite (bl_single none h e e' s R ltac:(discriminate)); auto|discriminate]. destruct (boundaryParam _) as [p|]; [|discriminate]. apply sw_multi.
  Qed.
  Hypothesis M : forall i, needParse OMsg e' i = needParse OMsg e i.
  Lemma sw_msg s m s' : parseMsg e s = Ok m s' -> Forall (fun x => J (bHdrs x)) (mBodies m) -> parseMsg e' s = Ok m s'.
  Proof.
    unfold parseMsg. intros E F. apply bind_inv in E as (l & s1 & E1 & E). unfold bind at 1. rewrite (bl_startLine none e e' s R ltac:(discriminate)), E1. unfold onRest in *. destruct (rest s1) as [|x r1]; [discriminate|].
    apply bind_inv in E as (h & s2 & E2 & E). apply bind_inv in E as (bs & s3 & E3 & E). unfold ret in E. injection E as <- <-. cbn [mBodies] in F.
    unfold bind at 1. rewrite (bl_headers (fun o => match o with OMsg => true | OBody => false end) OMsg eq_refl e e' s1 R), E2; [|intros [|] Ho i; [apply M|discriminate]]. unfold bind. now rewrite (sw_body _ _ _ _ E3 F).
  Qed.
End Switch.

Lemma none_need e i : needParse OMsg (withNeed (fun _ => false) (withRaw false e)) i = needParse OMsg (withRaw true e) i. Proof. symmetry. apply raw_msg_need. Qed.
Lemma type_slot : slotOf OBody SIP_HDR_CONTENT_TYPE = 0%nat. Proof. reflexivity. Qed.
(** A message accepted with NeedParse cleared is read in raw mode in the same way if no part has a Content-Type. *)
Theorem C63_raw_message : forall e s m s', parseMsg (withNeed (fun _ => false) (withRaw false e)) s = Ok m s' ->
  (forall b h, In b (mBodies m) -> In h (hsRaw (bHdrs b)) -> rId h <> SIP_HDR_CONTENT_TYPE) ->
  parseMsg (withRaw true e) s = Ok m s'.
Proof.
  intros e s m s' E F. apply (sw_msg (withNeed (fun _ => false) (withRaw false e)) (withRaw true e) (fun _ => True) (fun a => forall h, In h (hsRaw a) -> rId h <> SIP_HDR_CONTENT_TYPE)) with (5 := E).
  - repeat split.
  - exact Logic.I.
  - intros a n i s0 a' s1 _ H. split; [exact Logic.I|]. intros Ja. destruct (one_body _ _ _ _ _ _ _ H) as [(k & v & Nd & ->)|(h & Nd & -> & Ei)].
    + split; [exact Ja|]. apply raw_body_need; [|reflexivity]. intros ->. discriminate.
    + split; [intros x Hx; apply Ja; cbn [addRaw hsRaw]; apply in_or_app; now left|]. apply raw_body_need; [|reflexivity]. rewrite <- Ei. apply Ja. cbn [addRaw hsRaw]. apply in_or_app. right. now left.
  - intros i. apply raw_msg_need.
  - apply Forall_forall. intros b Hb h Hh. exact (F b h Hb Hh).
Qed.
Print Assumptions C63_raw_message.
(** A message accepted in raw mode is read with NeedParse cleared in the same way if no part has a Content-Type. *)
Theorem C63_raw_message_back : forall e s m s', parseMsg (withRaw true e) s = Ok m s' ->
  (forall b, In b (mBodies m) -> nth 0 (hsCommon (bHdrs b)) [] = []) ->
  parseMsg (withNeed (fun _ => false) (withRaw false e)) s = Ok m s'.
Proof.
  intros e s m s' E F. apply (sw_msg (withRaw true e) (withNeed (fun _ => false) (withRaw false e)) (fun a => List.length (hsCommon a) = 3%nat) (fun a => nth 0 (hsCommon a) [] = [])) with (5 := E).
  - repeat split.
  - reflexivity.
  - intros a n i s0 a' s1 La H. destruct (one_body _ _ _ _ _ _ _ H) as [(k & v & Nd & ->)|(h & Nd & -> & Ei)].
    + unfold setCommon. cbn [hsCommon]. rewrite Seq.setNth_length. split; [exact La|]. intros Ja. destruct (N.eq_dec i SIP_HDR_CONTENT_TYPE) as [->|Ni].
      * rewrite type_slot, setNth_nth in Ja by lia. discriminate.
      * assert (Hs : slotOf OBody i <> 0%nat).
        { assert (G := raw_body_need e (withNeed (fun _ => false) (withRaw false e)) i Ni eq_refl). rewrite Nd in G. symmetry in G. unfold needParse in G. change (fHeaderAsRaw (withNeed (fun _ => false) (withRaw false e))) with false in G. cbv iota in G. intros Z. rewrite Z in G. discriminate. }
        rewrite setNth_nth_ne in Ja by exact Hs. split; [exact Ja|]. symmetry. now apply raw_body_need.
    + split; [exact La|]. intros Ja. split; [exact Ja|]. symmetry. apply raw_body_need; [|reflexivity]. intros ->. discriminate.
  - intros i. apply none_need.
  - apply Forall_forall. exact F.
Qed.
Print Assumptions C63_raw_message_back.
(** Raw mode accepts the messages that are accepted without it, if no part has a Content-Type: with the same start line, the same bodies and the same position at the end. The three content
    headers have the same values, no other header has values, and the headers that were kept as written are still there, in the same order, among those that are no longer parsed. *)
Theorem C63_raw_accepts : forall e r u m s' head body, fHeaderAsRaw e = false ->
  roomFor e (u + 57 + 9 * len r) -> r = head ++ CRLF ++ CRLF ++ body -> lines head ->
  parseMsg e (mkst r u) = Ok m s' ->
  (forall b h, In b (mBodies m) -> In h (hsRaw (bHdrs b)) -> rId h <> SIP_HDR_CONTENT_TYPE) ->
  exists m' w, parseMsg (withRaw true e) (mkst r u) = Ok m' (mkst (rest s') w) /\ mStart m' = mStart m /\ mBodies m' = mBodies m /\
    (forall j i, j <> O -> nth_error (slotIndexes OMsg) j = Some i ->
       (In i [SIP_HDR_CONTENT_TYPE; SIP_HDR_CONTENT_LENGTH; SIP_HDR_CONTENT_DISPOSITION] -> nth j (hsCommon (mHdrs m')) [] = nth j (hsCommon (mHdrs m)) []) /\
       (~ In i [SIP_HDR_CONTENT_TYPE; SIP_HDR_CONTENT_LENGTH; SIP_HDR_CONTENT_DISPOSITION] -> nth j (hsCommon (mHdrs m')) [] = [] /\
          (isRead OMsg e i -> (nth j (hsCommon (mHdrs m)) [] <> [] <-> exists h, In h (hsRaw (mHdrs m')) /\ rId h = i)))) /\
    (forall parsed, (forall i, parsed i = true <-> exists k several, readAs OMsg e i k several) -> hsRaw (mHdrs m) = filter (fun h => negb (parsed (rId h))) (hsRaw (mHdrs m'))).
Proof.
  intros e r u m s' head body Hr Ro Er Hl E F.
  assert (Ee : withRaw false e = e) by (destruct e; cbn in Hr; subst; reflexivity).
  destruct (C56_less_parsing e (fun _ => false) r u m s' head body ltac:(discriminate) Ro Er Hl E) as (m' & w & E' & Es & Eb & Hs & Hf).
  exists m', w. split; [|split; [exact Es|split; [exact Eb|split; [|exact Hf]]]].
  - apply C63_raw_message; [rewrite Ee; exact E'|]. rewrite Eb. exact F.
  - intros j i Hj Hi. destruct (Hs j i Hj Hi) as [H1 H2]. unfold isRead in H1, H2 at 1. change (fHeaderAsRaw (withNeed (fun _ => false) e)) with (fHeaderAsRaw e) in *. rewrite Hr in H1, H2. cbv iota in H1, H2. split.
    + intros Hin. apply H1. now left.
    + intros Hn. destruct H2 as [H2 H3].
      * intros [Hc|Hd]; [contradiction|discriminate].
      * split; assumption.
Qed.
Print Assumptions C63_raw_accepts.

(** ** Cases *)
(** Settings for Encode that differ in everything. *)
Definition oneWay : env := mkenv (Some 300000) false false false false false false true false false false true false false (fun _ => true) (fun _ => Some [1]) (fun _ => s2b "::1").
Definition otherWay : env := mkenv (Some 300000) false false false false false false true false false true false true true (fun _ => true) (fun _ => Some [1]) (fun _ => s2b "::2").
Example C63_parse_case : sameReading oneWay otherWay /\ sameChoice oneWay otherWay /\ exists m s', parseMsg otherWay (mkst (exHead ++ CRLF ++ CRLF ++ s2b "abc") 8) = Ok m s'.
Proof. split; [now split|]. split; [now split|]. eexists. eexists. vm_compute. reflexivity. Qed.
(** Other settings for parsing and the short names. *)
Definition otherReading (e : env) : env := mkenv None true true true true true true false true true true (eNameSpace e) (eUriNoEscape e) (eReasonNoEscape e) (fun _ => false) (fun _ => None) (ipString e).
Example C63_encode_case : sameWriting oneWay (otherReading oneWay) /\ exists u s', parseSipUri oneWay (mkst (s2b "sip:a@[::1];x=%20") 8) = Ok u s' /\ encSipUri (otherReading oneWay) u = s2b "sip:a@[::1];x=%20".
Proof. split; [now split|]. eexists. eexists. split; vm_compute; reflexivity. Qed.
(** Each of the settings in [sameWriting], and EncodeReasonPhraseNoEscape for a status line, changes what is written. *)
Theorem C63_encode_needed :
  (exists a, encAddr (mkenv None false false false false false false false false false false true false false (fun _ => true) (fun _ => None) (fun _ => [])) a <>
             encAddr (mkenv None false false false false false false false false false false false false false (fun _ => true) (fun _ => None) (fun _ => [])) a) /\
  (exists u, encSipUri (mkenv None false false false false false false false false false false false true false (fun _ => true) (fun _ => None) (fun _ => [])) u <>
             encSipUri (mkenv None false false false false false false false false false false false false false (fun _ => true) (fun _ => None) (fun _ => [])) u) /\
  (exists h, encHost (mkenv None false false false false false false false false false false false false false (fun _ => true) (fun _ => None) (fun _ => [])) h <>
             encHost (mkenv None false false false false false false false false false false false false false (fun _ => true) (fun _ => None) (fun _ => [1])) h) /\
  (exists l, encStartLine (mkenv None false false false false false false false false false false false false true (fun _ => true) (fun _ => None) (fun _ => [])) l <>
             encStartLine (mkenv None false false false false false false false false false false false false false (fun _ => true) (fun _ => None) (fun _ => [])) l).
Proof.
  split; [exists (mkaddr false None (ASip (mkuri false None None (mkhp (HName (s2b "h")) None) None [] []))); vm_compute; discriminate|].
  split; [exists (mkuri false (Some (s2b " ")) None (mkhp (HName (s2b "h")) None) None [] []); vm_compute; discriminate|].
  split; [exists (HIpv6 [1]); vm_compute; discriminate|].
  exists (SStatus V20 200 [10]). vm_compute. discriminate.
Qed.
Print Assumptions C63_encode_needed.
(** Headers that are malformed are accepted in raw mode. *)
Example C63_raw_more_case : exists s1 m s2, parseMsg (exNet (Some 300000)) (statusOK (s2b "From: <" ++ CRLF ++ CRLF)) = Fail s1 /\ parseMsg (withRaw true (exNet (Some 300000))) (statusOK (s2b "From: <" ++ CRLF ++ CRLF)) = Ok m s2 /\ map rValue (hsRaw (mHdrs m)) = [s2b "<"].
Proof. eexists. eexists. eexists. split; [vm_compute; reflexivity|]. split; vm_compute; reflexivity. Qed.
(** A multipart body with no Content-Type in its parts. *)
Definition exTwo : bytes := s2b "SIP/2.0 200 OK" ++ CRLF ++ s2b "f: <sip:a>" ++ CRLF ++ s2b "c: multipart/mixed;boundary=b".
Definition exTwoBody : bytes := s2b "--b" ++ CRLF ++ s2b "X: 1" ++ CRLF ++ s2b "Content-Length: 7" ++ CRLF ++ CRLF ++ s2b "A" ++ CRLF ++ s2b "--b" ++ CRLF ++ CRLF ++ s2b "B" ++ CRLF ++ s2b "--b--".
Example C63_raw_accepts_case : let r := exTwo ++ CRLF ++ CRLF ++ exTwoBody in let e := exNet (Some 300000) in
  fHeaderAsRaw e = false /\ roomFor e (8 + 57 + 9 * len r) /\ lines exTwo /\
  exists m s', parseMsg e (mkst r 8) = Ok m s' /\ List.length (mBodies m) = 2%nat /\ (forall b h, In b (mBodies m) -> In h (hsRaw (bHdrs b)) -> rId h <> SIP_HDR_CONTENT_TYPE).
Proof.
  cbv zeta. split; [reflexivity|]. split; [vm_compute; discriminate|]. split; [apply linesTest_lines; vm_compute; reflexivity|].
  eexists. eexists. split; [vm_compute; reflexivity|]. split; [reflexivity|]. intros b h [<-|[<-|[]]] Hh; [destruct Hh as [<-|[]]; discriminate|destruct Hh].
Qed.
(** The Content-Type of a part is read in raw mode only: if it is malformed the message is accepted without raw mode (also with NeedParse cleared), and not with it. If it is well-formed it
    becomes a value, and Encode leaves it out (C38_part_type_refuted). *)
Definition badPart : bytes := s2b "--b" ++ CRLF ++ s2b "Content-Type: a" ++ CRLF ++ CRLF ++ s2b "A" ++ CRLF ++ s2b "--b--".
Theorem C63_raw_part_refuted : exists m s1 m2 s2 s3, let s := mkst (exTwo ++ CRLF ++ CRLF ++ badPart) 8 in let e := exNet (Some 300000) in
  parseMsg e s = Ok m s1 /\ parseMsg (withNeed (fun _ => false) e) s = Ok m2 s2 /\ parseMsg (withRaw true e) s = Fail s3.
Proof. do 5 eexists. cbv zeta. split; [vm_compute; reflexivity|]. split; vm_compute; reflexivity. Qed.
Print Assumptions C63_raw_part_refuted.
