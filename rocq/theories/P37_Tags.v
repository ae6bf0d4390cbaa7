(** C69: a start line and a Via, CSeq or RAck header anywhere in the arena. The words for a method, a version and a protocol are an address or a number; an address
    of 32768 or more looks like a number. What Encode then writes, exactly. *)
From Verif Require Import Base Charset BaseLemmas Num Lws Str Monad MethodTree HeaderTree Lookup NameSpec NameProofs Host Uri Tel GenParam Addr StartLine Headers Arena ArenaProofs ArenaOpsProofs StrProofs ArenaTop Layout Mem MemSim MemTac MemUri MemRep MemList Inv MemHostProofs MemParamProofs MemUriProofs MemSipUriProofs MemEnc MemEncProofs MemTel MemTelProofs MemGen MemGenProofs MemAddr MemAddrProofs MemSteps MemStart MemStartProofs MemHdr MemHdrProofs Extension MemTag MemHistory RawHeaders Msg MemBlocks MemMsg MemMsgEnc P18_Memory MemWorld GrammarSpec GrammarMsg Exact ExactMsg.

(** ** Specification *)
(** The registered methods in the order of their numbers. *)
Definition registered : list bytes :=
  [s2b "UKNOWN"; s2b "INVITE"; s2b "PRACK"; s2b "UPDATE"; s2b "INFO"; s2b "ACK"; s2b "BYE"; s2b "REGISTER"; s2b "SUBSCRIBE"; s2b "NOTIFY"; s2b "REFER"; s2b "OPTIONS"; s2b "MESSAGE"; s2b "PUBLISH"].
(** What is written for a method whose name, if it is not registered, is stored at address [q]; [None]: Encode crashes. *)
Definition methodText (q : N) (m : method) : option bytes :=
  match m with
  | MKnown _ => Some (encMethod m)
  | MOther name => if q <? 32768 then Some name else nth_error registered (N.to_nat (q - 32768))
  end.
Definition versionText (q : N) (v : version) : bytes :=
  match v with V20 => s2b "SIP/2.0" | VOther t => if q <? 32768 then s2b "SIP/" ++ t else s2b "SIP/2.0" end.
Definition protocolText (q : N) (p : sentproto) : bytes :=
  match p with Proto20 => s2b "SIP/2.0/" | ProtoOther n v => if q <? 32768 then n ++ [47] ++ v ++ [47] else s2b "SIP/2.0/" end.
(** [lo]: where the memory behind the struct begins; [hi]: its end after Parse. A string is stored with its length in front. *)
Definition lineText (e : env) (lo hi : N) (l : startline) : option bytes :=
  match l with
  | SRequest m ad v =>
      match methodText (lo + 2) m with
      | Some name => Some (name ++ [32] ++ encAddrSpec e ad ++ [32] ++ versionText (match v with V20 => 0 | VOther t => hi - len t end) v ++ CRLF)
      | None => None
      end
  | SStatus v code reason => Some (versionText (lo + 2) v ++ [32] ++ encUInt code ++ [32] ++ (if eReasonNoEscape e then reason else escape SIP_REASON_PHRASE reason) ++ CRLF)
  end.
Definition headerText (e : env) (lo : N) (k : hkind) (v : hval) : option bytes :=
  match v with
  | VCSeq n m => match methodText (lo + 2) m with Some name => Some (s2b "CSeq: " ++ encUInt n ++ [32] ++ name) | None => None end
  | VRAck r n m => match methodText (lo + 2) m with Some name => Some (s2b "RAck: " ++ encUInt r ++ [32] ++ encUInt n ++ [32] ++ name) | None => None end
  | VVia p tr h t ps => Some (s2b "Via: " ++ protocolText lo p ++ tr ++ [32] ++ encHostPort e h ++ encGenParams 59 (knownNames KVia) t ps)
  | _ => None
  end.
(** Create the object from the text [t], then encode it behind [pre]: what the caller sees. *)
Definition created (e : env) (a : arena) (k : kind) (t pre left : bytes) (u : N) (text : option bytes) : Prop :=
  memRun e a [] [ONew (WKObj k) t] = Some [(EvNew true left, u)] /\
  memRun e a [] [ONew (WKObj k) t; OEncode 0 pre] =
    match text with Some b => Some [(EvNew true left, u); (EvText (Some (pre ++ b)), u)] | None => None end.

(** ** Proofs *)
(** One object of its own. *)
Lemma run_object e a k t pre o s (Q : arena -> unit -> obj -> Prop) (text : option bytes) :
  legal e a -> aused a + objSize k <= cap a -> objValue k e (mkst t (aused a + objSize k)) = Ok o s -> k <> KHdr KContentLength ->
  (forall a1, wfA e a1 -> aused a1 = aused a + objSize k -> sim e (inR (aused a) (objSize k)) (objParse k (aused a)) (objValue k) Q a1 t) ->
  (forall a', wfA e a' -> aused a' = used s -> Q a' tt o -> objEncode k (aused a) e a' = wopt text) ->
  created e a k t pre (rest s) (used s) text.
Proof.
  intros Hl Hr E Hk HP HE. apply legal_wfA in Hl as (Hw & Hn). pose proof (objSize_range k) as (Z1 & Z2). num Hw.
  pose proof (sim_new e (objSize k) a t Hw Z1 Z2) as S0. unfold sim, allocStruct, leMem in S0. cbn [used rest] in S0. rewrite (proj1 Hw), (proj2 (N.leb_le _ _)) in S0 by lia.
  destruct S0 as (p & a1 & R1 & U1 & K1 & (-> & U1' & _)). cbn [rest used] in R1, U1. pose proof (keeps_wf _ _ _ _ Hw K1) as Hw1.
  specialize (HP a1 Hw1 U1). unfold sim in HP. rewrite U1, E in HP. destruct HP as ([] & a2 & R2 & U2 & K2 & HQ). pose proof (keeps_wf _ _ _ _ Hw1 K2) as Hw2.
  specialize (HE a2 Hw2 U2 HQ).
  assert (G : wNew (WKObj k) e a t = MOk (aused a) a2 (rest s)) by (cbn [wNew]; unfold newParse, mbind; rewrite R1; unfold mbind; rewrite R2; reflexivity).
  split.
  - cbn [memRun]. rewrite G. cbn [option_map]. now rewrite U2.
  - cbn [memRun]. rewrite G. cbn [app nth_error]. rewrite U2.
    assert (F : wEncode (WKObj k) (aused a) e a2 pre = match text with Some b => EOk tt a2 (pre ++ b) | None => EPanic end).
    { transitivity (ePut (objEncode k (aused a)) e a2 pre); [destruct k as [| | | |[]]; first [reflexivity|now elim Hk]|]. unfold ePut. rewrite HE. destruct text; reflexivity. }
    rewrite F. destruct text as [b|]; cbn [option_map]; rewrite ?U2; reflexivity.
Qed.
Section Enc.
  Variable e : env.
  Variable a : arena.
  Hypothesis Hw : wfA e a.
  Hypothesis Hcap : aused a < cap a.
  Local Notation hi := (aused a).
  Let Hhi : hi <= aused a := N.le_refl _.
  Lemma encw_startLine this lo l : 8 <= lo -> repStartLine (mem a) this lo hi l -> wlineQ this (lo) a tt l -> mEncStartLine this e a = wopt (lineText e lo hi l).
  Proof using Hw Hcap Hhi.
    intros H8 H HQ. unfold mEncStartLine, eMem. destruct l as [mt ad v|v c t]; cbn [wlineQ lineText] in *.
    - destruct H as (-> & H2 & H3 & H4). destruct HQ as (Q1 & Q2). cbn [negb N.eqb].
      assert (Ev : mEncVersion (this + 6) e a = wopt (Some (versionAt (match v with V20 => 0 | VOther t => hi - len t end) v))).
      { destruct v as [|t]; [apply (encw_version e a hi Hw Hhi Hcap (this + 6) lo 0 V20); [exact H4|exact H4]|]. apply (encw_version e a hi Hw Hhi Hcap (this + 6) lo _ (VOther t)); [exact H4|apply Q2; reflexivity]. }
      pose proof (encw_method e a hi Hw Hhi Hcap (this + 4) lo _ mt H2 Q1) as Em.
      assert (Ea : mEncAddrSpec (this + 8) e a = wopt (Some (encAddrSpec e ad))) by (apply encw_of; eapply enc_addrSpec; eauto).
      etransitivity; [eapply encw_app; [eapply encw_app; [exact Em|eapply encw_app; [apply (encw_of e a (eOut [32]) [32]); reflexivity|eapply encw_app; [exact Ea|eapply encw_app; [apply (encw_of e a (eOut [32]) [32]); reflexivity|exact Ev]]]]|apply (encw_of e a (eOut CRLF) CRLF); reflexivity]|].
      change methodText with methodAt; change versionText with versionAt. destruct (methodAt _ mt); cbn [optApp]; [|reflexivity]. f_equal. rewrite <- !app_assoc. cbn [app]. rewrite <- ?app_assoc. reflexivity.
    - destruct H as (-> & H2 & H3 & H4). cbn [negb N.eqb]. rewrite H3.
      pose proof (encw_version e a hi Hw Hhi Hcap (this + 6) lo _ v H2 HQ) as Ev.
      assert (Et : eEnv (fun e => if negb (eReasonNoEscape e) then eEscape SIP_REASON_PHRASE (g16 (mem a) (this + 18)) else eCStr (g16 (mem a) (this + 18))) e a
                   = wopt (Some (if eReasonNoEscape e then t else escape SIP_REASON_PHRASE t))).
      { apply encw_of. unfold eEnv. destruct (eReasonNoEscape e); cbn [negb]; [eapply enc_cstr; eauto|eapply enc_escape; eauto]. }
      etransitivity; [eapply encw_app; [eapply encw_app; [exact Ev|eapply encw_app; [apply (encw_of e a (eOut [32]) [32]); reflexivity|eapply encw_app; [apply (encw_of e a (eOut (encUInt c)) (encUInt c)); reflexivity|eapply encw_app; [apply (encw_of e a (eOut [32]) [32]); reflexivity|exact Et]]]]|apply (encw_of e a (eOut CRLF) CRLF); reflexivity]|].
      change versionText with versionAt. cbn [optApp wopt]. f_equal. rewrite <- !app_assoc. cbn [app]. rewrite <- ?app_assoc. reflexivity.
  Qed.
  Lemma encw_header k this lo v : hasWord k = true -> 8 <= lo -> repHVal k (mem a) this lo hi v -> whvalQ this lo a tt v -> mEncHeader k this e a = wopt (headerText e lo k v).
  Proof using Hw Hcap Hhi.
    intros Hk H8 H HQ. unfold mEncHeader. destruct k; try discriminate; destruct v as [ad t ps| |p tr h t ps|n mt|r c mt|n|mn sb t ps|d t ps|w w2];
      cbn [repHVal] in H; try (destruct H as (_ & F); contradiction); try (destruct H as (F & _); discriminate); try contradiction; cbn [whvalQ headerText] in *.
    - destruct H as (_ & H1 & H2 & H3 & H4). pose proof (encw_proto e a hi Hw Hhi Hcap this lo _ p H8 H1 HQ) as Ep.
      assert (E1 : eCStr (g16 (mem a) (this + 2)) e a = wopt (Some tr)) by (apply encw_of; eapply enc_cstr; eauto).
      assert (E2 : mEncHostPort (this + 4) e a = wopt (Some (encHostPort e h))) by (apply encw_of; eapply enc_hostPort; eauto).
      assert (E3 : mEncParams KVia this e a = wopt (Some (encGenParams 59 (knownNames KVia) t ps))) by (apply encw_of; eapply (enc_params e a hi Hw Hhi Hcap KVia); eauto).
      assert (Eh : mEncHVal KVia this e a = wopt (Some (protoAt lo p ++ tr ++ [32] ++ encHostPort e h ++ encGenParams 59 (knownNames KVia) t ps))).
      { unfold mEncHVal, eMem. exact (encw_app e a _ _ _ _ Ep (encw_app e a _ _ _ _ E1 (encw_app e a (eOut [32]) _ (Some [32]) _ eq_refl (encw_app e a _ _ _ _ E2 E3)))). }
      etransitivity; [exact (encw_app e a (eOut (hName KVia)) _ (Some (hName KVia)) _ eq_refl (encw_app e a (eOut (s2b ": ")) _ (Some (s2b ": ")) _ eq_refl Eh))|]. change protocolText with protoAt. cbn [optApp wopt]. reflexivity.
    - destruct H as (_ & H1 & H2). pose proof (encw_method e a hi Hw Hhi Hcap (this + 4) lo _ mt H2 HQ) as Em. 
      assert (Eh : mEncHVal KCSeq this e a = wopt (optApp (Some (encUInt n)) (optApp (Some [32]) (methodAt (lo + 2) mt)))).
      { unfold mEncHVal, eMem. rewrite H1. exact (encw_app e a (eOut _) _ (Some _) _ eq_refl (encw_app e a (eOut [32]) _ (Some [32]) _ eq_refl Em)). }
      etransitivity; [exact (encw_app e a (eOut (hName KCSeq)) _ (Some (hName KCSeq)) _ eq_refl (encw_app e a (eOut (s2b ": ")) _ (Some (s2b ": ")) _ eq_refl Eh))|]. change methodText with methodAt. destruct (methodAt _ mt); reflexivity.
    - destruct H as (_ & H1 & H2 & H3). pose proof (encw_method e a hi Hw Hhi Hcap (this + 8) lo _ mt H3 HQ) as Em. 
      assert (Eh : mEncHVal KRAck this e a = wopt (optApp (Some (encUInt r)) (optApp (Some [32]) (optApp (Some (encUInt c)) (optApp (Some [32]) (methodAt (lo + 2) mt)))))).
      { unfold mEncHVal, eMem. rewrite H1, H2. exact (encw_app e a (eOut _) _ (Some _) _ eq_refl (encw_app e a (eOut [32]) _ (Some [32]) _ eq_refl (encw_app e a (eOut _) _ (Some _) _ eq_refl (encw_app e a (eOut [32]) _ (Some [32]) _ eq_refl Em)))). }
      etransitivity; [exact (encw_app e a (eOut (hName KRAck)) _ (Some (hName KRAck)) _ eq_refl (encw_app e a (eOut (s2b ": ")) _ (Some (s2b ": ")) _ eq_refl Eh))|]. change methodText with methodAt. destruct (methodAt _ mt); reflexivity.
  Qed.
End Enc.

(** A start line: anywhere in an arena that is not full to the last byte. *)
Theorem C69_start_line : forall e a t pre l s, legal e a -> aused a + 20 <= cap a -> parseStartLine e (mkst t (aused a + 20)) = Ok l s -> used s < cap a ->
  created e a KStartLine t pre (rest s) (used s) (lineText e (aused a + 20) (used s) l).
Proof.
  intros e a t pre l s Hl Hr E Hc. pose proof Hl as Hl'. apply legal_wfA in Hl' as (Hw & Hn). num Hw.
  apply (run_object e a KStartLine t pre (OStartLine l) s (fun a' _ o => match o with OStartLine l => repStartLine (mem a') (aused a) (aused a + 20) (aused a') l /\ wlineQ (aused a) (aused a + 20) a' tt l | _ => False end));
    [exact Hl|exact Hr|cbn [objValue objSize]; unfold bind; rewrite E; reflexivity|discriminate| |].
  - intros a1 Hw1 U1. cbn [objSize] in *. cbn [objParse objValue]. num Hw1. eapply sim_mapR; [apply sim_both; [apply start_startLineParse; auto; lia|apply word_startLineParse; auto; lia]|].
    intros a' [] l' _ H. cbv beta in *. unfold startQ in H. rewrite U1 in H. exact H.
  - intros a' Hw' U (H1 & H2). num Hw'. cbn [objEncode]. rewrite <- U. assert (Hc' : cap a' = cap a).
    { destruct Hw as (G1 & _). destruct Hw' as (G2 & _). congruence. }
    apply encw_startLine; auto; lia.
Qed.
Print Assumptions C69_start_line.
(** A Via, CSeq or RAck header. *)
Theorem C69_header : forall e a k t pre v s, (k = KVia \/ k = KCSeq \/ k = KRAck) -> legal e a -> aused a + hvalSize k <= cap a ->
  parseHeader k e (mkst t (aused a + hvalSize k)) = Ok v s -> used s < cap a ->
  created e a (KHdr k) t pre (rest s) (used s) (headerText e (aused a + hvalSize k) k v).
Proof.
  intros e a k t pre v s Hk Hl Hr E Hc. pose proof Hl as Hl'. apply legal_wfA in Hl' as (Hw & Hn). num Hw.
  assert (Hk' : hasWord k = true) by (destruct Hk as [->|[->| ->]]; reflexivity).
  apply (run_object e a (KHdr k) t pre (OHdr v) s (fun a' _ o => match o with OHdr v => repHVal k (mem a') (aused a) (aused a + hvalSize k) (aused a') v /\ whvalQ (aused a) (aused a + hvalSize k) a' tt v | _ => False end));
    [exact Hl|exact Hr|cbn [objValue objSize]; unfold bind; rewrite E; reflexivity|intros F; injection F as ->; destruct Hk as [|[|]]; discriminate| |].
  - intros a1 Hw1 U1. cbn [objSize] in *. cbn [objParse objValue]. num Hw1. eapply sim_mapR; [apply sim_both; [apply sim_header; auto; lia|apply word_header; auto; lia]|].
    intros a' [] l' _ H. cbv beta in *. unfold hvalQ in H. rewrite U1 in H. exact H.
  - intros a' Hw' U (H1 & H2). num Hw'. cbn [objEncode]. assert (Hc' : cap a' = cap a).
    { destruct Hw as (G1 & _). destruct Hw' as (G2 & _). congruence. }
    apply encw_header; auto; lia.
Qed.
Print Assumptions C69_header.

(** Below 32768 the texts are the encodings of the values (as C48 and C49 say). *)
Theorem C69_below : forall e lo hi l, lo + 2 < 32768 -> hi < 32768 -> lineText e lo hi l = Some (encStartLine e l).
Proof.
  intros e lo hi l H1 H2. unfold lineText, encStartLine, methodText, versionText, encMethod, encVersion. rewrite (proj2 (N.ltb_lt _ _) H1).
  destruct l as [[i|n] ad [|t]|[|t] c r]; rewrite ?(proj2 (N.ltb_lt _ _)) by lia; rewrite <- ?app_assoc; cbn [app]; rewrite <- ?app_assoc; cbn [app]; rewrite <- ?app_assoc; reflexivity.
Qed.
Print Assumptions C69_below.
Lemma after_bind {A B} (p : P A) (f : A -> P B) e s b s' : bind p f e s = Ok b s' -> exists a s1, p e s = Ok a s1 /\ f a e s1 = Ok b s'.
Proof. unfold bind. destruct (p e s) as [a s1| | |]; try discriminate. eauto. Qed.
Lemma after_method e s m s' : parseMethod e s = Ok m s' -> forall name, m = MOther name -> name <> [] /\ forall i, ~ In (name, i) methodNames.
Proof.
  intros H name ->. destruct (exact_method e) as (G & _). specialize (G _ _ _ H). destruct G as (t & _ & G). inversion G as [|t0 k0 T N _]; subst. split; [exact (proj1 T)|exact N].
Qed.
(** The method of a parsed CSeq or RAck header: if it is not registered, its name is not one of the registered names. *)
Lemma header_method e k t u v s m : parseHeader k e (mkst t u) = Ok v s -> (exists n, k = KCSeq /\ v = VCSeq n m) \/ (exists r n, k = KRAck /\ v = VRAck r n m) ->
  forall name, m = MOther name -> name <> [] /\ forall i, ~ In (name, i) methodNames.
Proof.
  intros H C name Em. unfold parseHeader in H. apply after_bind in H as (? & s1 & _ & H). apply after_bind in H as (? & s2 & _ & H).
  destruct C as [(n & -> & ->)|(r & n & -> & ->)]; cbn [parseHVal] in H.
  - unfold parseCSeq in H. apply after_bind in H as (x1 & s3 & _ & H). apply after_bind in H as (x2 & s4 & _ & H). apply after_bind in H as (x3 & s5 & G & H). injection H as <- <- <-. eapply after_method; eauto.
  - unfold parseRAck in H. apply after_bind in H as (x1 & s3 & _ & H). apply after_bind in H as (x2 & s4 & _ & H). apply after_bind in H as (x3 & s5 & _ & H). apply after_bind in H as (x4 & s6 & _ & H).
    apply after_bind in H as (x5 & s7 & G & H). injection H as <- <- <- <-. eapply after_method; eauto.
Qed.
Lemma some_eq {A} (x y : A) : Some x = Some y -> x = y.
Proof. congruence. Qed.
Lemma registered_names i : (i < 14)%nat -> nth i registered [] = s2b "UKNOWN" \/ In (nth i registered [], N.of_nat i) methodNames.
Proof. intros H. do 14 (destruct i as [|i]; [vm_compute; tauto|]). lia. Qed.
Lemma methodText_wrong q name : name <> [] -> (forall i, ~ In (name, i) methodNames) -> (methodText q (MOther name) = Some name <-> q < 32768 \/ q = 32768 /\ name = s2b "UKNOWN").
Proof.
  intros H1 H2. unfold methodText. destruct (N.ltb_spec q 32768) as [L|L]; [tauto|]. split.
  - intros E. right. assert (Li : (N.to_nat (q - 32768) < 14)%nat) by (change 14%nat with (List.length registered); apply nth_error_Some; congruence).
    apply (nth_error_nth registered _ []) in E. destruct (registered_names _ Li) as [Eu|Ei].
    + rewrite E in Eu. split; [|exact Eu]. rewrite Eu in E. destruct (N.to_nat (q - 32768)) as [|j] eqn:Ej; [lia|]. exfalso.
      do 13 (destruct j as [|j]; [vm_compute in E; discriminate|]). lia.
    + rewrite E in Ei. elim (H2 _ Ei).
  - intros [F|(-> & ->)]; [lia|]. reflexivity.
Qed.
(** A CSeq or RAck header with an unregistered method is written as what was read exactly if the name is stored below 32768 (or is the placeholder of the table, stored
    at 32768); otherwise Encode writes the name of another method, or crashes if the name is stored at 32782 or above. *)
Theorem C69_method : forall e k t u v s name, parseHeader k e (mkst t u) = Ok v s ->
  (exists n, k = KCSeq /\ v = VCSeq n (MOther name)) \/ (exists r n, k = KRAck /\ v = VRAck r n (MOther name)) ->
  (headerText e u k v = Some (encHeader e k v) <-> u + 2 < 32768 \/ u + 2 = 32768 /\ name = s2b "UKNOWN") /\
  (headerText e u k v = None <-> 32782 <= u + 2).
Proof.
  intros e k t u v s name H C. assert (G : name <> [] /\ forall i, ~ In (name, i) methodNames) by (eapply header_method; [exact H| |reflexivity]; destruct C as [(n & C)|(r & n & C)]; eauto).
  pose proof (methodText_wrong (u + 2) name (proj1 G) (proj2 G)) as M.
  assert (M0 : methodText (u + 2) (MOther name) = None <-> 32782 <= u + 2).
  { unfold methodText. destruct (N.ltb_spec (u + 2) 32768) as [L|L]; [split; [discriminate|lia]|]. rewrite nth_error_None. change (List.length registered) with 14%nat. lia. }
  destruct C as [(n & -> & ->)|(r & n & -> & ->)]; cbn [headerText]; unfold encHeader, encHVal; cbn [encMethod].
  - split.
    + rewrite <- M. destruct (methodText (u + 2) (MOther name)) as [x|]; [|split; discriminate]. split; [|intros E; apply some_eq in E; subst x; reflexivity].
      intros E. apply some_eq in E. change (s2b "CSeq: " ++ encUInt n ++ [32] ++ x = s2b "CSeq: " ++ encUInt n ++ [32] ++ name) in E. do 3 apply app_inv_head in E. now subst x.
    + rewrite <- M0. destruct (methodText (u + 2) (MOther name)); split; (discriminate || reflexivity).
  - split.
    + rewrite <- M. destruct (methodText (u + 2) (MOther name)) as [x|]; [|split; discriminate]. split; [|intros E; apply some_eq in E; subst x; reflexivity].
      intros E. apply some_eq in E. change (s2b "RAck: " ++ encUInt r ++ [32] ++ encUInt n ++ [32] ++ x = s2b "RAck: " ++ encUInt r ++ [32] ++ encUInt n ++ [32] ++ name) in E. do 5 apply app_inv_head in E. now subst x.
    + rewrite <- M0. destruct (methodText (u + 2) (MOther name)); split; (discriminate || reflexivity).
Qed.
Print Assumptions C69_method.

(** An arena of 50000 bytes with [u] in use: any such arena meets the hypotheses. *)
Definition halfArena (u : N) : arena := mkA (fun _ => 7) 50000 u 0 0 0 0 0.
Definition halfEnv : env := defaultEnv (Some 50000).
Lemma halfArena_legal u : 8 <= u <= 50000 -> legal halfEnv (halfArena u).
Proof. intros H. repeat split; try (intros; discriminate); cbn; lia. Qed.
(** Read FOO, write INVITE; read SIP/3.1, write SIP/2.0; read SIP/2.5/UDP, write SIP/2.0/UDP; read FOO, crash. *)
Theorem C69_wrong_texts_refuted :
  created halfEnv (halfArena 32759) (KHdr KCSeq) (s2b "CSeq: 7 FOO") [] [] 32772 (Some (s2b "CSeq: 7 INVITE")) /\
  created halfEnv (halfArena 40000) KStartLine (s2b "SIP/13.1 200 OK" ++ CRLF) [] [] 40030 (Some (s2b "SIP/2.0 200 OK" ++ CRLF)) /\
  created halfEnv (halfArena 40000) (KHdr KVia) (s2b "Via: SIP/2.5/UDP a;b") [] [] 40049 (Some (s2b "Via: SIP/2.0/UDP a;b")) /\
  created halfEnv (halfArena 40000) (KHdr KCSeq) (s2b "CSeq: 7 FOO") [] [] 40013 None.
Proof. repeat split; vm_compute; reflexivity. Qed.
Print Assumptions C69_wrong_texts_refuted.
