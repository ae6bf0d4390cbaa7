(** C58: the parsers accept exactly the grammars of GrammarSpec and GrammarMsg. *)
From Verif Require Import Base BaseLemmas Charset CharsetSpec Num NumSpec Lws LwsSpec Str StrSpec StrProofs QuotedSpec MethodTree NameSpec Monad Good Room Rt Seq Inv
  Host HostSpec HostProofs Uri UriSpec UriGood UriProofs Tel TelSpec TelProofs GenParam GenParamSpec GenParamProofs Addr AddrSpec AddrProofs
  StartLine StartLineSpec StartLineProofs Headers HeadersSpec HeadersProofs GrammarSpec Exact ExactUri GrammarMsg ExactMsg ExactHead Nine NineParse P05_Uri P08_Addr.
From Coq Require Import String.
Open Scope N_scope.

(** Hosts (ParseSipHost). Every answer, in any arena, is a reading of the grammar, and takes exactly the text read. *)
Theorem C58_host_sound : forall e s v s', parseHost e s = Ok v s' -> exists t, rest s = t ++ rest s' /\ HostRead e t v (rest s').
Proof. intros e. exact (ex_sound _ _ _ (exact_host e)). Qed.
Print Assumptions C58_host_sound.
(** With memory left, the answers are exactly the readings. *)
Theorem C58_host_exact : forall e r u v k, roomFor e (u + 16 + len r) ->
  ((exists u', parseHost e (mkst r u) = Ok v (mkst k u')) <-> exists t, r = t ++ k /\ HostRead (withMem None e) t v k).
Proof. intros e r u v k H. rewrite (room_eq _ _ _ _ _ (goodAt_parseHost e _)) by (cbn [used rest]; rewrite N.mul_1_l; exact H). apply (exact_ok _ _ _ (exact_host (withMem None e)) eq_refl). Qed.
Print Assumptions C58_host_exact.
(** Host and port. Every answer, in any arena, is a reading of the grammar, and takes exactly the text read. *)
Theorem C58_hostport_sound : forall e s v s', parseHostPort e s = Ok v s' -> exists t, rest s = t ++ rest s' /\ HostPortRead e t v (rest s').
Proof. intros e. exact (ex_sound _ _ _ (exact_hostPort e)). Qed.
Print Assumptions C58_hostport_sound.
(** With memory left, the answers are exactly the readings. *)
Theorem C58_hostport_exact : forall e r u v k, roomFor e (u + 16 + len r) ->
  ((exists u', parseHostPort e (mkst r u) = Ok v (mkst k u')) <-> exists t, r = t ++ k /\ HostPortRead (withMem None e) t v k).
Proof. intros e r u v k H. rewrite (room_eq _ _ _ _ _ (goodAt_parseHostPort e _)) by (cbn [used rest]; rewrite N.mul_1_l; exact H). apply (exact_ok _ _ _ (exact_hostPort (withMem None e)) eq_refl). Qed.
Print Assumptions C58_hostport_exact.
(** SIP URIs (SipUri.Parse). Every answer, in any arena, is a reading of the grammar, and takes exactly the text read. *)
Theorem C58_sip_uri_sound : forall e s v s', parseSipUri e s = Ok v s' -> exists t, rest s = t ++ rest s' /\ SipUriRead e t v (rest s').
Proof. intros e. exact (ex_sound _ _ _ (exact_sipUri e)). Qed.
Print Assumptions C58_sip_uri_sound.
(** With memory left, the answers are exactly the readings. *)
Theorem C58_sip_uri_exact : forall e r u v k, roomFor e (u + 57 + 9 * len r) ->
  ((exists u', parseSipUri e (mkst r u) = Ok v (mkst k u')) <-> exists t, r = t ++ k /\ SipUriRead (withMem None e) t v k).
Proof. intros e r u v k H. rewrite (nine_room _ _ _ _ _ n_sipUri ltac:(lia)) by (exact H). apply (exact_ok _ _ _ (exact_sipUri (withMem None e)) eq_refl). Qed.
Print Assumptions C58_sip_uri_exact.
(** Telephone URIs (TelUri.Parse). Every answer, in any arena, is a reading of the grammar, and takes exactly the text read. *)
Theorem C58_tel_uri_sound : forall e s v s', parseTelUri e s = Ok v s' -> exists t, rest s = t ++ rest s' /\ TelUriRead e t v (rest s').
Proof. intros e. exact (ex_sound _ _ _ (exact_telUri e)). Qed.
Print Assumptions C58_tel_uri_sound.
(** With memory left, the answers are exactly the readings. *)
Theorem C58_tel_uri_exact : forall e r u v k, roomFor e (u + 57 + 9 * len r) ->
  ((exists u', parseTelUri e (mkst r u) = Ok v (mkst k u')) <-> exists t, r = t ++ k /\ TelUriRead (withMem None e) t v k).
Proof. intros e r u v k H. rewrite (nine_room _ _ _ _ _ n_telUri ltac:(lia)) by (exact H). apply (exact_ok _ _ _ (exact_telUri (withMem None e)) eq_refl). Qed.
Print Assumptions C58_tel_uri_exact.
(** Name and address (the form with angle brackets). Every answer, in any arena, is a reading of the grammar, and takes exactly the text read. *)
Theorem C58_nameaddr_sound : forall e s v s', parseNameAddr e s = Ok v s' -> exists t, rest s = t ++ rest s' /\ NameAddrRead e t v (rest s').
Proof. intros e. exact (ex_sound _ _ _ (exact_nameAddr e)). Qed.
Print Assumptions C58_nameaddr_sound.
(** With memory left, the answers are exactly the readings. *)
Theorem C58_nameaddr_exact : forall e r u v k, roomFor e (u + 57 + 9 * len r) ->
  ((exists u', parseNameAddr e (mkst r u) = Ok v (mkst k u')) <-> exists t, r = t ++ k /\ NameAddrRead (withMem None e) t v k).
Proof. intros e r u v k H. rewrite (nine_room _ _ _ _ _ n_nameAddr ltac:(lia)) by (exact H). apply (exact_ok _ _ _ (exact_nameAddr (withMem None e)) eq_refl). Qed.
Print Assumptions C58_nameaddr_exact.
(** Addresses, with the parameters behind a bare URI belonging to it or not. Every answer, in any arena, is a reading of the grammar, and takes exactly the text read. *)
Theorem C58_addr_sound : forall e params s v s', (parseAddr params) e s = Ok v s' -> exists t, rest s = t ++ rest s' /\ AddrRead e params t v (rest s').
Proof. intros e params. exact (ex_sound _ _ _ (exact_addr e params)). Qed.
Print Assumptions C58_addr_sound.
(** With memory left, the answers are exactly the readings. *)
Theorem C58_addr_exact : forall e params r u v k, roomFor e (u + 57 + 9 * len r) ->
  ((exists u', (parseAddr params) e (mkst r u) = Ok v (mkst k u')) <-> exists t, r = t ++ k /\ AddrRead (withMem None e) params t v k).
Proof. intros e params r u v k H. rewrite (nine_room _ _ _ _ _ (n_addr params) ltac:(lia)) by (exact H). apply (exact_ok _ _ _ (exact_addr (withMem None e) params) eq_refl). Qed.
Print Assumptions C58_addr_exact.
(** Start lines. Every answer, in any arena, is a reading of the grammar, and takes exactly the text read. *)
Theorem C58_start_line_sound : forall e s v s', parseStartLine e s = Ok v s' -> exists t, rest s = t ++ rest s' /\ StartLineRead e t v (rest s').
Proof. intros e. exact (ex_sound _ _ _ (exact_startLine e)). Qed.
Print Assumptions C58_start_line_sound.
(** With memory left, the answers are exactly the readings. *)
Theorem C58_start_line_exact : forall e r u v k, roomFor e (u + 57 + 9 * len r) ->
  ((exists u', parseStartLine e (mkst r u) = Ok v (mkst k u')) <-> exists t, r = t ++ k /\ StartLineRead (withMem None e) t v k).
Proof. intros e r u v k H. rewrite (nine_room _ _ _ _ _ n_startLine ltac:(lia)) by (exact H). apply (exact_ok _ _ _ (exact_startLine (withMem None e)) eq_refl). Qed.
Print Assumptions C58_start_line_exact.
(** Header values of every type. Every answer, in any arena, is a reading of the grammar, and takes exactly the text read. *)
Theorem C58_value_sound : forall e h s v s', (parseHVal h) e s = Ok v s' -> exists t, rest s = t ++ rest s' /\ ValueRead e h t v (rest s').
Proof. intros e h. exact (ex_sound _ _ _ (exact_value e h)). Qed.
Print Assumptions C58_value_sound.
(** With memory left, the answers are exactly the readings. *)
Theorem C58_value_exact : forall e h r u v k, roomFor e (u + 57 + 9 * len r) ->
  ((exists u', (parseHVal h) e (mkst r u) = Ok v (mkst k u')) <-> exists t, r = t ++ k /\ ValueRead (withMem None e) h t v k).
Proof. intros e h r u v k H. rewrite (nine_room _ _ _ _ _ (n_hval h) ltac:(lia)) by (exact H). apply (exact_ok _ _ _ (exact_value (withMem None e) h) eq_refl). Qed.
Print Assumptions C58_value_exact.
(** Header lines: name, colon and value. Every answer, in any arena, is a reading of the grammar, and takes exactly the text read. *)
Theorem C58_header_sound : forall e h s v s', (parseHeader h) e s = Ok v s' -> exists t, rest s = t ++ rest s' /\ LineRead e h t v (rest s').
Proof. intros e h. exact (ex_sound _ _ _ (exact_header e h)). Qed.
Print Assumptions C58_header_sound.
(** With memory left, the answers are exactly the readings. *)
Theorem C58_header_exact : forall e h r u v k, roomFor e (u + 57 + 9 * len r) ->
  ((exists u', (parseHeader h) e (mkst r u) = Ok v (mkst k u')) <-> exists t, r = t ++ k /\ LineRead (withMem None e) h t v k).
Proof. intros e h r u v k H. rewrite (nine_room _ _ _ _ _ (n_header h) ltac:(lia)) by (exact H). apply (exact_ok _ _ _ (exact_header (withMem None e) h) eq_refl). Qed.
Print Assumptions C58_header_exact.

(** Generic parameters, with the names of any table a caller recognises. *)
Theorem C58_params_sound : forall e h s v s', parseParams h e s = Ok v s' -> exists t, rest s = t ++ rest s' /\ ParamsRead e h t (fst v) (snd v) (rest s').
Proof. intros e h. exact (ex_sound _ _ _ (exact_params e h)). Qed.
Print Assumptions C58_params_sound.

(** No text has two readings: a reading is determined by the text in front of it, both where it ends and what it means. *)
Lemma unambiguous {A} e (p : P A) R t v k t' v' k' : exact e p R -> infinite e -> R t v k -> R t' v' k' -> t ++ k = t' ++ k' -> t = t' /\ v = v' /\ k = k'.
Proof.
  intros X HI H H' E. destruct (ex_complete _ _ _ X HI _ _ _ 0 H) as [u1 E1]. destruct (ex_complete _ _ _ X HI _ _ _ 0 H') as [u2 E2]. rewrite E, E2 in E1. injection E1 as -> -> _. split; [|auto]. now apply app_inv_tail in E.
Qed.
Theorem C58_header_unambiguous : forall e h t v k t' v' k', memend e = None -> LineRead e h t v k -> LineRead e h t' v' k' -> t ++ k = t' ++ k' -> t = t' /\ v = v' /\ k = k'.
Proof. intros. eapply unambiguous; eauto using exact_header. Qed.
Print Assumptions C58_header_unambiguous.
Theorem C58_start_line_unambiguous : forall e t v k t' v' k', memend e = None -> StartLineRead e t v k -> StartLineRead e t' v' k' -> t ++ k = t' ++ k' -> t = t' /\ v = v' /\ k = k'.
Proof. intros. eapply unambiguous; eauto using exact_startLine. Qed.
Print Assumptions C58_start_line_unambiguous.
Theorem C58_addr_unambiguous : forall e params t v k t' v' k', memend e = None -> AddrRead e params t v k -> AddrRead e params t' v' k' -> t ++ k = t' ++ k' -> t = t' /\ v = v' /\ k = k'.
Proof. intros. eapply unambiguous; eauto using exact_addr. Qed.
Print Assumptions C58_addr_unambiguous.

(** ** Cases *)
Definition gEnv : env := exNet (Some 100000).
(** A reading found by running the parser. *)
Lemma reading {A} e (p : P A) R r k : exact e p R -> (match p e (mkst r 0) with Ok _ s' => beq (rest s') k | _ => false end) = true -> exists t v, R t v k /\ t ++ k = r.
Proof. intros X H. destruct (p e (mkst r 0)) as [v s'|s'| |] eqn:E; try discriminate. apply beq_eq in H. apply (ex_sound _ _ _ X) in E as (t & Et & Q). rewrite H in *. exists t, v. auto. Qed.
Example C58_case_header : exists t v, LineRead gEnv KFrom t v [13; 10] /\ t ++ [13; 10] = s2b "fRoM : ""A. \""B"" <sip:a:b@h:5060;lr?x=%41>;tag=1 ; x" ++ [13; 10].
Proof. apply (reading gEnv (parseHeader KFrom)); [apply exact_header|vm_compute; reflexivity]. Qed.
(** The grammars follow the code where it departs from RFC 3261. An unclosed bracket is no reading. *)
Example C58_case_no_reading : ~ exists t v k, SipUriRead (withMem None gEnv) t v k /\ s2b "sip:a@[1" = t ++ k.
Proof.
  intros (t & v & k & H & E). destruct (proj2 (C58_sip_uri_exact gEnv (s2b "sip:a@[1") 0 v k ltac:(vm_compute; discriminate)) (ex_intro _ t (conj E H))) as [u' Q]. vm_compute in Q. discriminate.
Qed.
(** In "Record-Route" a CR passes for the dash. *)
Example C58_case_cr : exists t v, LineRead gEnv KRecordRoute t v [13; 10] /\ t ++ [13; 10] = s2b "record" ++ 13 :: s2b "route:<sip:h>" ++ [13; 10].
Proof. apply (reading gEnv (parseHeader KRecordRoute)); [apply exact_header|vm_compute; reflexivity]. Qed.
(** A request line and a status line. *)
Example C58_case_start : exists t v, StartLineRead gEnv t v (s2b "To: x") /\ t ++ s2b "To: x" = s2b "INVITE sip:a@h;transport=tcp SIP/2.0" ++ [13; 10] ++ s2b "To: x".
Proof. apply (reading gEnv parseStartLine); [apply exact_startLine|vm_compute; reflexivity]. Qed.
Example C58_case_status : exists t v, StartLineRead gEnv t v [] /\ t ++ [] = s2b "sip/3.12 0486 Busy%20here" ++ [13; 10].
Proof. apply (reading gEnv parseStartLine); [apply exact_startLine|vm_compute; reflexivity]. Qed.
(** Readings built from the grammar, without the parser. *)
Example C58_case_by_hand : ValueRead gEnv KCSeq (s2b "007 ACK") (VCSeq 7 (MKnown SIP_METHOD_ACK)) [13; 10].
Proof.
  change (s2b "007 ACK") with (s2b "007" ++ [32] ++ s2b "ACK"). apply VRcseq.
  - split; [discriminate|]. split; [reflexivity|]. split; reflexivity.
  - apply BlPlain.
    + apply Forall_cons; [now left|apply Forall_nil].
    + intros (x & q & E & [-> | ->]); discriminate.
    + intros (q & E). discriminate.
  - apply MRknown; [vm_compute; tauto|reflexivity].
Qed.
