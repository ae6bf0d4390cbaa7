(** C48: the parsers run on the arena's bytes. Objects parsed into the arena are what the value layer says, they stay so
    while later parses run in the same arena, and Encode reads them back. *)
From Verif Require Import Base Charset BaseLemmas Num Lws Str Monad Host Uri Arena ArenaProofs Layout Mem MemSim MemTac MemUri MemRep MemEnc MemHostProofs MemUriProofs MemSipUriProofs MemEncProofs MemHistory Tel MemTel MemTelProofs GenParam Addr MemGen MemGenProofs MemAddr MemAddrProofs MethodTree Lookup StartLine Headers MemSteps MemStart MemStartProofs MemHdr MemHdrProofs MemLine Extension.

(** ** Specification *)
(** A context whose arena (less than 64 KB) is in a legal state; net.ParseIP answers with 16 bytes. *)
Definition legal (e : env) (a : arena) : Prop :=
  memend e = Some (cap a) /\ cap a < 65536 /\ 8 <= aused a /\ aused a <= cap a /\ forall t ip, ipParse e t = Some ip -> List.length ip = 16%nat.
(** The struct of [size] bytes at [p] has been allocated. *)
Definition allocated (a : arena) (p size : N) : Prop := 8 <= p /\ p + size <= aused a.
(** From [a] to [a'] no allocated byte outside [p, p + size) changes, and nothing is released. *)
Definition touchesOnly (p size : N) (a a' : arena) : Prop :=
  cap a' = cap a /\ aused a <= aused a' /\ aused a' <= cap a /\ forall i, 8 <= i < aused a -> ~ (p <= i < p + size) -> mem a' i = mem a i.

Lemma legal_wfA e a : legal e a -> wfA e a /\ netLen e.
Proof. intros (H1 & H2 & H3 & H4 & H5). split; [repeat split; auto|exact H5]. Qed.

(** The fields of a struct type with their offsets. *)
Definition offs (t : ty) : list (string * N) := map (fun f => (fst (fst f), snd (fst f))) (fields t).
(** The offsets and sizes used by the memory-level code are those of the Go structs. *)
Theorem C48_offsets :
  offs tSipUri =
    [("isSecure", 0); ("user", 2); ("password", 4); ("hostport", 6); ("params", 12); ("headers", 14); ("knownParams", 16)]%string /\ sizeOf tSipUri = 18 /\
  offs tHostPort = [("id", 0); ("hasPort", 1); ("port", 2); ("data", 4)]%string /\ sizeOf tHostPort = 6 /\
  offs tUriParam = [("name", 0); ("value", 2); ("next", 4)]%string /\ sizeOf tUriParam = 6 /\
  offs tUriHeader = [("name", 0); ("value", 2); ("next", 4)]%string /\ sizeOf tUriHeader = 6 /\
  sizeOf tUriKnown = 2 * N.of_nat (List.length sipUriKnownNames) /\
  offs tTelUri = [("IsGlobalNumber", 0); ("ContextIsDomain", 1); ("number", 2); ("context", 4); ("params", 6); ("knownParams", 8)]%string /\ sizeOf tTelUri = 10 /\
  sizeOf tTelKnown = 2 * N.of_nat (List.length telKnownNames) /\
  offs tGenParam = [("name", 0); ("value", 2); ("next", 4); ("valueType", 6)]%string /\ sizeOf tGenParam = 8 /\
  offs tAddr = [("addrType", 0); ("uriType", 1); ("displayNameIsQuotedString", 2); ("scheme", 4); ("displayName", 6); ("addr", 8)]%string /\ sizeOf tAddr = 10 /\
  offs tStartLine = [("isRequest", 0); ("statusCode", 2); ("method", 4); ("version", 6); ("addr", 8); ("reasonPhrase", 18)]%string /\ sizeOf tStartLine = 20 /\
  Forall (fun t => offs t = [("addr", 0); ("params", 10); ("knownParams", 12)]%string /\ sizeOf t = 14) [tFrom; tTo] /\
  Forall (fun t => offs t = [("addr", 0); ("params", 10); ("knownParams", 12); ("next", 14)]%string /\ sizeOf t = 16) [tRoute; tRecordRoute; tPath; tServiceRoute] /\
  offs tVia = [("sentProtocol", 0); ("transport", 2); ("sentBy", 4); ("params", 10); ("knownParams", 12); ("next", 14)]%string /\ sizeOf tVia = 16 /\
  offs tSentProtocol = [("name", 0); ("version", 2)]%string /\ sizeOf tSentProtocol = 4 /\
  offs tContact = [("isStar", 0); ("addr", 2); ("params", 12); ("knownParams", 14); ("next", 16)]%string /\ sizeOf tContact = 18 /\
  offs tPai = [("addr", 0); ("next", 10)]%string /\ sizeOf tPai = 12 /\
  offs tCSeq = [("id", 0); ("method", 4)]%string /\ sizeOf tCSeq = 8 /\
  offs tRAck = [("rseq", 0); ("cseq", 4); ("method", 8)]%string /\ sizeOf tRAck = 12 /\
  sizeOf tRSeq = 4 /\ sizeOf tExpires = 4 /\ sizeOf tMaxForwards = 1 /\ offs tContentLength = [("size", 0); ("encodeEnd", 4)]%string /\ sizeOf tContentLength = 8 /\
  offs tContentType = [("mainType", 0); ("subType", 2); ("params", 4); ("knownParams", 6)]%string /\ sizeOf tContentType = 8 /\
  offs tContentDisposition = [("dispType", 0); ("params", 2); ("knownParams", 4)]%string /\ sizeOf tContentDisposition = 6 /\
  offs tCallID = [("id1", 0); ("id2", 2)]%string /\ sizeOf tCallID = 4.
Proof. repeat split; repeat constructor. Qed.
Print Assumptions C48_offsets.

(** SipUri.Parse on a struct in the arena, whatever it contained: same answer and same position and same arena usage as the value layer; on
    success the bytes of the arena represent the value; no other allocated byte changes. *)
Theorem C48_sipuri_parse : forall e a r this, legal e a -> allocated a this 18 ->
  match parseSipUri e (mkst r (aused a)) with
  | Ok u s => exists a', mSipUriParse this e a r = MOk tt a' (rest s) /\ aused a' = used s /\ touchesOnly this 18 a a' /\ repSipUri (mem a') this (aused a) (aused a') u
  | Fail s => exists a', mSipUriParse this e a r = MFail a' (rest s) /\ aused a' = used s /\ touchesOnly this 18 a a'
  | Panic => bigTables e = false -> mSipUriParse this e a r = MPanic
  | Loop => mSipUriParse this e a r = MLoop
  end.
Proof.
  intros e a r this Hl (H8 & Ha). apply legal_wfA in Hl as (Hw & Hn). num Hw.
  assert (G : sim e (inR this 18) (mSipUriParse this) parseSipUri (sipUriQ this (aused a)) a r).
  { apply sim_init; [exact Hw|slia|]. intros a1 Hw1 K1 U1 V1. num K1. rewrite <- U1. eapply sim_sub; [apply sim_sipUri; auto; try lia|slia]. }
  unfold sim in G. destruct (parseSipUri e _) as [u s|s| |]; auto.
  destruct G as (x & a' & G1 & G2 & G3 & G4). destruct x. exists a'. auto.
Qed.
Print Assumptions C48_sipuri_parse.

(** A parsed URI is unaffected by anything that leaves its struct and its data alone: in particular by every later parse
    into another object of the same arena. *)
Theorem C48_sipuri_kept : forall e a r this p hi u other, legal e a -> allocated a this 18 -> allocated a p 18 -> p + 18 <= this \/ this + 18 <= p ->
  repSipUri (mem a) p other hi u -> 8 <= other -> hi <= aused a -> hi <= this \/ this + 18 <= other ->
  forall a' r', (mSipUriParse this e a r = MOk tt a' r' \/ mSipUriParse this e a r = MFail a' r') -> parseSipUri e (mkst r (aused a)) <> Panic -> repSipUri (mem a') p other hi u.
Proof.
  intros e a r this p hi u other Hl Ht (P8 & Pa) Hd Hr H8 Hh Hd2 a' r' Ho Hnp. pose proof (C48_sipuri_parse e a r this Hl Ht) as G.
  assert (K : touchesOnly this 18 a a').
  { destruct (parseSipUri e _) as [v s|s| |]; try congruence.
    - destruct G as (a1 & G1 & G2 & G3 & G4). destruct Ho as [Ho|Ho]; rewrite G1 in Ho; [|discriminate]. injection Ho as <- _. exact G3.
    - destruct G as (a1 & G1 & G2 & G3). destruct Ho as [Ho|Ho]; rewrite G1 in Ho; [discriminate|]. injection Ho as <- _. exact G3.
    - destruct Ho as [Ho|Ho]; rewrite G in Ho; discriminate. }
  destruct K as (_ & _ & _ & K). eapply repSipUri_frame; [| |exact Hr]; intros i Hi; apply K; lia.
Qed.
Print Assumptions C48_sipuri_kept.

(** Encode on a represented URI writes the value's encoding (the arena not being full to the last byte). *)
Theorem C48_sipuri_encode : forall e a this lo hi u, legal e a -> 8 <= lo -> hi <= aused a -> hi < cap a -> repSipUri (mem a) this lo hi u ->
  mEncSipUri this e a = WOk (encSipUri e u).
Proof. intros e a this lo hi u Hl H8 H1 H2 H. apply legal_wfA in Hl as (Hw & _). eapply enc_sipUri; eauto. Qed.
Print Assumptions C48_sipuri_encode.

(** ** Start lines and headers *)
(** SipStartLine.Parse, as for SIP URIs. *)
Theorem C48_startline_parse : forall e a r this, legal e a -> allocated a this 20 ->
  match parseStartLine e (mkst r (aused a)) with
  | Ok l s => exists a', mStartLineParse this e a r = MOk tt a' (rest s) /\ aused a' = used s /\ touchesOnly this 20 a a' /\ repStartLine (mem a') this (aused a) (aused a') l
  | Fail s => exists a', mStartLineParse this e a r = MFail a' (rest s) /\ aused a' = used s /\ touchesOnly this 20 a a'
  | Panic => bigTables e = false -> mStartLineParse this e a r = MPanic
  | Loop => mStartLineParse this e a r = MLoop
  end.
Proof.
  intros e a r this Hl (H8 & Ha). apply legal_wfA in Hl as (Hw & Hn). num Hw.
  assert (G : sim e (inR this 20) (mStartLineParse this) parseStartLine (startQ this (aused a)) a r).
  { apply sim_init; [exact Hw|slia|]. intros a1 Hw1 K1 U1 V1. num K1. rewrite <- U1. eapply sim_sub; [apply sim_startLine; auto; try lia; eapply zeros16; [exact V1|lia|lia]|slia]. }
  unfold sim in G. destruct (parseStartLine e _) as [u s|s| |]; auto.
  destruct G as (x & a' & G1 & G2 & G3 & G4). destruct x. exists a'. auto.
Qed.
Print Assumptions C48_startline_parse.
(** Parse of each of the 18 structured headers. *)
Theorem C48_header_parse : forall k e a r this, legal e a -> allocated a this (hvalSize k) ->
  match parseHeader k e (mkst r (aused a)) with
  | Ok v s => exists a', mHeaderParse k this e a r = MOk tt a' (rest s) /\ aused a' = used s /\ touchesOnly this (hvalSize k) a a' /\ repHVal k (mem a') this (aused a) (aused a') v
  | Fail s => exists a', mHeaderParse k this e a r = MFail a' (rest s) /\ aused a' = used s /\ touchesOnly this (hvalSize k) a a'
  | Panic => bigTables e = false -> mHeaderParse k this e a r = MPanic
  | Loop => mHeaderParse k this e a r = MLoop
  end.
Proof.
  intros k e a r this Hl (H8 & Ha). apply legal_wfA in Hl as (Hw & Hn). pose proof (sim_header k e this a r Hn Hw H8 Ha) as G.
  unfold sim in G. destruct (parseHeader k e _) as [u s|s| |]; auto.
  destruct G as (x & a' & G1 & G2 & G3 & G4). destruct x. exists a'. auto.
Qed.
Print Assumptions C48_header_parse.

(** ** Histories *)
(** What can be parsed into the arena. *)
(** [KAddr params]: SipAddr.Parse with that argument; [KHdr k]: Parse of a structured header. *)
Inductive kind := KSipUri | KTelUri | KAddr (params : bool) | KStartLine | KHdr (k : hkind).
Inductive obj := OSipUri (u : sipuri) | OTelUri (t : teluri) | OAddr (a : addr) | OStartLine (l : startline) | OHdr (v : hval).
Definition objSize (k : kind) : N := match k with KSipUri => 18 | KTelUri => 10 | KAddr _ => 10 | KStartLine => 20 | KHdr k => hvalSize k end.
Definition objParse (k : kind) : N -> M unit :=
  match k with KSipUri => mSipUriParse | KTelUri => mTelUriParse | KAddr b => mAddrParse b | KStartLine => mStartLineParse | KHdr k => mHeaderParse k end.
Definition objValue (k : kind) : P obj :=
  match k with
  | KSipUri => u <- parseSipUri ;; ret (OSipUri u)
  | KTelUri => t <- parseTelUri ;; ret (OTelUri t)
  | KAddr b => x <- parseAddr b ;; ret (OAddr x)
  | KStartLine => l <- parseStartLine ;; ret (OStartLine l)
  | KHdr k => v <- parseHeader k ;; ret (OHdr v)
  end.
Definition objEncode (k : kind) : N -> Enc :=
  match k with KSipUri => mEncSipUri | KTelUri => mEncTelUri | KAddr _ => mEncAddr | KStartLine => mEncStartLine | KHdr k => mEncHeader k end.
Definition objEncoding (e : env) (k : kind) (o : obj) : bytes :=
  match o with
  | OSipUri u => encSipUri e u
  | OTelUri t => encTelUri e t
  | OAddr x => encAddr e x
  | OStartLine l => encStartLine e l
  | OHdr v => match k with KHdr k => encHeader e k v | _ => [] end
  end.
(** The values with an unregistered method, a version other than 2.0 or a protocol other than SIP/2.0. Their word is either a pointer or a number, told apart by the
    top bit: Encode needs the arena's pointers to stay below 32768. *)
Definition extObj (o : obj) : bool := match o with OStartLine l => extLine l | OHdr v => extHVal v | _ => false end.
(** The object of this kind at [p] is encoded as the value [o] is. *)
Definition encodesAs (e : env) (a : arena) (k : kind) (p : option N) (o : option obj) : Prop :=
  match p, o with
  | Some p, Some o => (extObj o = true -> aused a < 32768) -> objEncode k p e a = WOk (objEncoding e k o)
  | None, None => True
  | _, _ => False
  end.

Definition objRep (k : kind) (m : N -> N) (this lo hi : N) (o : obj) : Prop :=
  match k, o with
  | KSipUri, OSipUri u => repSipUri m this lo hi u
  | KTelUri, OTelUri t => repTelUri m this lo hi t
  | KAddr _, OAddr x => repAddr m this lo hi x
  | KStartLine, OStartLine l => repLine m this lo hi l
  | KHdr k, OHdr v => repHVal k m this lo hi v
  | _, _ => False
  end.
Lemma objParse_sim k e a r this : wfA e a -> netLen e -> 8 <= this -> this + objSize k <= aused a ->
  sim e (inR this (objSize k)) (objParse k this) (objValue k) (fun a' _ v => objRep k (mem a') this (aused a) (aused a') v) a r.
Proof.
  intros Hw Hg H8 Hl. num Hw. destruct k; cbn [objSize objParse objValue objRep] in *; (eapply sim_mapR; [|intros a' x v _ H; first [apply repStartLine_line; exact H|exact H]]); cbv beta.
  - apply sim_init; [exact Hw|slia|]. intros a1 Hw1 K1 U1 V1. num K1. rewrite <- U1. eapply sim_sub; [apply sim_sipUri; auto; try lia|slia].
  - apply sim_init; [exact Hw|slia|]. intros a1 Hw1 K1 U1 V1. num K1. rewrite <- U1. eapply sim_sub; [apply (sim_telUri e this H8 a1 r); auto; try lia|slia].
  - apply sim_init; [exact Hw|slia|]. intros a1 Hw1 K1 U1 V1. num K1. rewrite <- U1. eapply sim_sub; [apply (sim_addr e Hg this H8 params a1 r); [exact Hw1|lia|apply V1; slia|eapply zeros16; [exact V1|lia|lia]]|slia].
  - apply sim_init; [exact Hw|slia|]. intros a1 Hw1 K1 U1 V1. num K1. rewrite <- U1. eapply sim_sub; [apply sim_startLine; auto; try lia; eapply zeros16; [exact V1|lia|lia]|slia].
  - apply sim_header; auto.
Qed.
Lemma objRep_frame k m m' this lo hi v : agreeR m m' this (this + objSize k) -> agreeR m m' lo hi -> objRep k m this lo hi v -> objRep k m' this lo hi v.
Proof. destruct k, v; cbn [objSize objRep]; auto; first [apply repSipUri_frame|apply repTelUri_frame|apply repAddr_frame|apply repLine_frame|apply repHVal_frame]. Qed.

(** New + Parse of any number of objects, each from its own text, in one arena: as long as the value layer does not crash, the run goes as it says, and at
    the end every successfully parsed object is still encoded as its value is. *)
Theorem C48_history : forall e ts a vs, legal e a -> valAll kind obj objSize objValue e (aused a) ts = Some vs ->
  exists ps a', runAll kind objSize objParse e a ts = Some (ps, a') /\ aused a <= aused a' /\ aused a' <= cap a /\
    (aused a' < cap a -> List.length ps = List.length ts /\ forall i k t, nth_error ts i = Some (k, t) -> encodesAs e a' k (nth i ps None) (nth i vs None)).
Proof.
  intros e ts a vs Hl Hv. pose proof Hl as Hl0. apply legal_wfA in Hl as (Hw & Hn).
  destruct (history kind obj objSize objParse objValue objRep netLen) with (e := e) (ts := ts) (a := a) (vs := vs) as (ps & a' & R & Hw' & K & HA); auto.
  { intros [| | | |k]; try (cbn; lia). pose proof (hInit_le k). assert (hvalSize k < 1000) by (destruct k; vm_compute; reflexivity). cbn [objSize]. lia. } { intros; now apply objParse_sim. } { apply objRep_frame. }
  exists ps, a'. num K. split; [exact R|]. split; [assumption|]. split; [assumption|]. intros Hc. clear R Hv.
  induction HA as [|kt p v ts ps vs H HA IH]; [split; [reflexivity|intros [] k t E; discriminate]|]. destruct IH as [L IH]. split; [cbn; now rewrite L|].
  intros [|i] k t; cbn [nth_error nth]; [|apply IH]. intros E. injection E as ->. unfold held in H. unfold encodesAs. cbn [fst] in H.
  destruct p as [p|], v as [v|]; auto. intros H15. destruct H as (lo & hi & H8 & H1 & H2 & H3 & H4). destruct k, v; cbn [objRep objEncode objEncoding] in *; try contradiction.
  - eapply enc_sipUri; [exact Hw'|exact H3|lia|exact H2|exact H4].
  - eapply enc_telUri; [exact Hw'|exact H3|lia|exact H2|exact H4].
  - eapply enc_addr; [exact Hw'|exact H3|lia|exact H2|exact H4].
  - eapply enc_line; [exact Hw'|exact H3|lia|intros Ex; specialize (H15 Ex); lia|exact H2|exact H4].
  - eapply enc_header; [exact Hw'|exact H3|lia| |exact H2|exact H4]. intros T. specialize (H15 T). lia.
Qed.
Print Assumptions C48_history.

(** Texts of all sorts, the second not a URI: the objects are read back from the final arena. *)
Definition exArena : arena := mkA (fun _ => 7) 4096 8 0 0 0 0 0.
Definition exEnv : env := defaultEnv (Some 4096).
Example C48_history_ex :
  let ts := [(KSipUri, s2b "sip:al%69ce:pw@10.0.0.1:5070;transport=udp;x;lr?a=b&c=d"); (KSipUri, s2b "tel:1"); (KTelUri, s2b "tel:12;ext=%31;phone-context=+1-2;z"); (KAddr false, s2b "Bob B <sips:b@h>");
             (KStartLine, s2b "INFO sip:b@h SIP/2.0" ++ [13; 10]); (KHdr KVia, s2b "v: SIP/2.0/UDP h:5060;ttl=1;z;branch=q"); (KHdr KVia, s2b "Via: X / 1 / TCP 10.0.0.1"); (KHdr KContact, s2b "m: *");
             (KHdr KCSeq, s2b "CSeq: 7  FOO"); (KHdr KCallID, s2b "i: a@b"); (KHdr KContentType, s2b "c:a/b;boundary=x")] in
  legal exEnv exArena /\
  match valAll kind obj objSize objValue exEnv 8 ts, runAll kind objSize objParse exEnv exArena ts with
  | Some [Some u1; None; Some u3; Some u4; Some u5; Some u6; Some u7; Some u8; Some u9; Some u10; Some u11],
    Some ([Some p1; None; Some p3; Some p4; Some p5; Some p6; Some p7; Some p8; Some p9; Some p10; Some p11], a') =>
      p1 = 8 /\ mEncSipUri p1 exEnv a' = WOk (s2b "sip:alice:pw@10.0.0.1:5070;transport=udp;x;lr?a=b&c=d") /\ mEncTelUri p3 exEnv a' = WOk (s2b "tel:12;phone-context=+12;ext=1;z") /\ mEncAddr p4 exEnv a' = WOk (s2b "Bob B <sips:b@h>") /\
      mEncStartLine p5 exEnv a' = WOk (s2b "INFO sip:b@h SIP/2.0" ++ [13; 10]) /\ mEncHeader KVia p6 exEnv a' = WOk (s2b "Via: SIP/2.0/UDP h:5060;ttl=1;z;branch=q") /\ mEncHeader KVia p7 exEnv a' = WOk (s2b "Via: X/1/TCP 10.0.0.1") /\
      mEncHeader KContact p8 exEnv a' = WOk (s2b "Contact: *") /\ mEncHeader KCSeq p9 exEnv a' = WOk (s2b "CSeq: 7 FOO") /\ mEncHeader KCallID p10 exEnv a' = WOk (s2b "Call-ID: a@b") /\
      mEncHeader KContentType p11 exEnv a' = WOk (s2b "Content-Type: a/b;boundary=x") /\ aused a' < 4096
  | _, _ => False
  end.
Proof. split; [repeat split; try (intros; discriminate); cbn; lia|]. vm_compute. repeat split. Qed.

(** The condition on tagged words is needed: above 32 KB an unregistered method that was parsed without complaint is taken for a number and Encode indexes
    outside the table of method names. *)
Theorem C48_tags_refuted : exists e a a' r', legal e a /\ aused a = 40000 /\ newParse kind objSize objParse (KHdr KCSeq) e a (s2b "CSeq: 7 FOO") = MOk 40000 a' r' /\
  aused a' < cap a' /\ mEncHeader KCSeq 40000 e a' = WPanic.
Proof.
  exists (defaultEnv (Some 50000)), (mkA (fun _ => 7) 50000 40000 0 0 0 0 0). eexists _, _.
  split; [repeat split; try (intros; discriminate); cbn; lia|]. split; [reflexivity|]. split; [cbv; reflexivity|]. split; [vm_compute; reflexivity|]. vm_compute. reflexivity.
Qed.
Print Assumptions C48_tags_refuted.
