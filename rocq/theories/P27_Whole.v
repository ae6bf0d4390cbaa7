(** C59: header blocks and whole messages: the parsers accept exactly the grammars of GrammarWhole. *)
From Verif Require Import Base BaseLemmas Charset CharsetSpec Num NumSpec Lws LwsSpec Str StrSpec StrProofs QuotedSpec MethodTree HeaderTree NameSpec Monad Good Room Rt Seq Inv
  Host HostSpec Uri UriSpec Tel TelSpec GenParam GenParamSpec Addr AddrSpec StartLine StartLineSpec Headers HeadersSpec RawHeaders RawSpec RawProofs Msg MsgSpec MsgProofs
  GrammarSpec Exact GrammarMsg ExactMsg ExactHead GrammarWhole ExactName ExactWhole Nine NineParse P05_Uri P19_World P26_Grammar.
From Coq Require Import String.
Open Scope N_scope.

(** The name of a header field, with the colon (ParseHeaderName): the text and the number of the name. *)
Theorem C59_field_name_sound : forall e s v s', parseHeaderName e s = Ok v s' -> exists t, rest s = t ++ rest s' /\ FieldNameRead t v (rest s').
Proof. intros e. exact (ex_sound _ _ _ (exact_fieldName e)). Qed.
Print Assumptions C59_field_name_sound.
Theorem C59_field_name_exact : forall e r u v k, roomFor e (u + 3 + len r) ->
  ((exists u', parseHeaderName e (mkst r u) = Ok v (mkst k u')) <-> exists t, r = t ++ k /\ FieldNameRead t v k).
Proof. intros e r u v k H. rewrite (room_eq _ _ _ _ _ (gd_headerName 1 e _ ltac:(lia))) by (cbn [used rest]; rewrite N.mul_1_l; exact H). apply (exact_ok _ _ _ (exact_fieldName (withMem None e)) eq_refl). Qed.
Print Assumptions C59_field_name_exact.

(** A block of headers kept as they are written (ParseRawHeaders). Every answer, in any arena, is a reading of the grammar, and takes exactly the text read. *)
Theorem C59_raw_block_sound : forall e s hs s', parseRawHeaders e s = Ok hs s' -> exists t, rest s = t ++ rest s' /\ RawFieldsRead t hs (rest s').
Proof. intros e. exact (ex_sound _ _ _ (exact_rawHeaders e)). Qed.
Print Assumptions C59_raw_block_sound.
(** With memory left, the answers are exactly the readings. *)
Theorem C59_raw_block_exact : forall e r u hs k, roomFor e (u + 57 + 9 * len r) ->
  ((exists u', parseRawHeaders e (mkst r u) = Ok hs (mkst k u')) <-> exists t, r = t ++ k /\ RawFieldsRead t hs k).
Proof. intros e r u hs k H. rewrite (nine_room _ _ _ _ _ n_rawHeaders ltac:(lia)) by exact H. apply (exact_ok _ _ _ (exact_rawHeaders (withMem None e)) eq_refl). Qed.
Print Assumptions C59_raw_block_exact.

(** The headers of a message or of a body part (ParseHeaders). What is stored is what the fields say. *)
Theorem C59_block_sound : forall o e s h s', parseHeaders o e s = Ok h s' -> exists t fs, rest s = t ++ rest s' /\ FieldsRead e o t fs (rest s') /\ h = collect o fs.
Proof. intros o e s h s' H. apply (ex_sound _ _ _ (exact_headers e o)) in H as (t & Et & fs & Hf & Hh). eauto. Qed.
Print Assumptions C59_block_sound.
Theorem C59_block_exact : forall o e r u h k, roomFor e (u + 57 + 9 * len r) ->
  ((exists u', parseHeaders o e (mkst r u) = Ok h (mkst k u')) <-> exists t fs, r = t ++ k /\ FieldsRead (withMem None e) o t fs k /\ h = collect o fs).
Proof.
  intros o e r u h k H. rewrite (nine_room _ _ _ _ _ (n_headers o) ltac:(lia)) by exact H. rewrite (exact_ok _ _ _ (exact_headers (withMem None e) o) eq_refl).
  split; [intros (t & Et & fs & Hf & Hh)|intros (t & fs & Et & Hf & Hh)]; eauto.
Qed.
Print Assumptions C59_block_exact.

(** Whole messages (SipMsg.Parse). Every answer, in any arena, is a reading of the grammar; the position is behind what was read (in front of a single body). *)
Theorem C59_message_sound : forall e s m s', parseMsg e s = Ok m s' -> exists t, rest s = t ++ rest s' /\ MessageRead e t m (rest s').
Proof. intros e. exact (ex_sound _ _ _ (exact_msg e)). Qed.
Print Assumptions C59_message_sound.
Theorem C59_message_exact : forall e r u m k, roomFor e (u + 57 + 9 * len r) ->
  ((exists u', parseMsg e (mkst r u) = Ok m (mkst k u')) <-> exists t, r = t ++ k /\ MessageRead (withMem None e) t m k).
Proof.
  intros e r u m k H. assert (E : parseMsg e (mkst r u) = parseMsg (withMem None e) (mkst r u)).
  { apply (nine_room _ _ _ _ _ n_msg); [lia|exact H]. }
  rewrite E. apply (exact_ok _ _ _ (exact_msg (withMem None e)) eq_refl).
Qed.
Print Assumptions C59_message_exact.
(** A text is read as a message in one way at most. *)
Theorem C59_message_unambiguous : forall e t m k t' m' k', memend e = None -> MessageRead e t m k -> MessageRead e t' m' k' -> t ++ k = t' ++ k' -> t = t' /\ m = m' /\ k = k'.
Proof. intros. eapply unambiguous; eauto using exact_msg. Qed.
Print Assumptions C59_message_unambiguous.
Theorem C59_raw_block_unambiguous : forall t hs k t' hs' k', RawFieldsRead t hs k -> RawFieldsRead t' hs' k' -> t ++ k = t' ++ k' -> t = t' /\ hs = hs' /\ k = k'.
Proof. intros t hs k t' hs' k' H H' E. exact (unambiguous (exNet None) _ _ _ _ _ _ _ _ (exact_rawHeaders (exNet None)) eq_refl H H' E). Qed.
Print Assumptions C59_raw_block_unambiguous.

(** ** Cases *)
Example C59_case_multi : exists t m, MessageRead gEnv t m (exLine "") /\ t ++ exLine "" = exMulti.
Proof. apply (reading gEnv parseMsg); [apply exact_msg|vm_compute; reflexivity]. Qed.
Example C59_case_single : exists t m, MessageRead gEnv t m (s2b "hello") /\ t ++ s2b "hello" = exSingle.
Proof. apply (reading gEnv parseMsg); [apply exact_msg|vm_compute; reflexivity]. Qed.
(** Not a message: a header name without a colon. *)
Example C59_case_none : ~ exists t m k, MessageRead (withMem None gEnv) t m k /\ exLine "SIP/2.0 200 OK" ++ exLine "CSeq 7 FOO" = t ++ k.
Proof.
  intros (t & m & k & H & E). destruct (proj2 (C59_message_exact gEnv (exLine "SIP/2.0 200 OK" ++ exLine "CSeq 7 FOO") 0 m k ltac:(vm_compute; discriminate)) (ex_intro _ t (conj E H))) as [u' Q]. vm_compute in Q. discriminate.
Qed.
(** A block read by the grammar alone, without the parser. *)
Example C59_case_by_hand : RawFieldsRead (s2b "To:x" ++ [13; 10; 13; 10]) [mkraw SIP_HDR_TO None (s2b "x")] [].
Proof.
  change (s2b "To:x" ++ [13; 10; 13; 10]) with (s2b "To:" ++ (s2b "x" ++ [13; 10]) ++ [13; 10]). apply RFcons; [| |apply RFline].
  - exists (s2b "To"), (s2b ":"). split; [reflexivity|]. split.
    + apply (NRknown _ (s2b "To")); [apply in_or_app; left; vm_compute; tauto|left; reflexivity].
    + exists [], []. split; [reflexivity|]. split; [constructor|]. apply (SWS_plain []); [constructor|intros (x & q & E & [-> | ->]); discriminate|intros (q & E); discriminate].
  - exists (s2b "x" ++ [13]). split; [reflexivity|]. split; [|split].
    + intros a b E. exfalso. destruct a as [|? [|? [|? ?]]]; discriminate.
    + intros (x & q & E & [-> | ->]); discriminate.
    + left. split; [reflexivity|discriminate].
Qed.
