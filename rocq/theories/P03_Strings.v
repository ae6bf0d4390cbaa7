(** Properties C13, C14, C27, C40 (comparison) and the number part of C24. *)
From Verif Require Import Base Charset BaseLemmas Lws LwsProofs Str StrSpec StrProofs Num Arena ArenaProofs ArenaTop LwsSpec QuotedSpec QuotedExact.

(** [roomy e n]: the arena of [e] has at least [n] bytes in total. *)

(** C13. *)
Theorem C13_escape_roundtrip : forall cs e b k u, inset cs 37 = false -> allBytes b -> b <> [] -> endsRun (inset cs) k ->
  roomy e (u + 3 + len (escape cs b ++ k)) ->
  paEscapable cs e (mkst (escape cs b ++ k) u) = Ok b (mkst k (u + 2 + len b)).
Proof. exact escape_roundtrip. Qed.
Print Assumptions C13_escape_roundtrip.
Theorem C13_escape_roundtrip_empty : forall cs e b k u, inset cs 37 = false -> allBytes b -> endsRun (inset cs) k ->
  roomy e (u + 3 + len (escape cs b ++ k)) ->
  paEscapableEmpty cs e (mkst (escape cs b ++ k) u) = Ok b (mkst k (u + 2 + len b)).
Proof. exact escape_roundtrip_empty. Qed.
Print Assumptions C13_escape_roundtrip_empty.
(** The hypothesis on "%" holds of every class the encoders escape with. *)
Theorem C13_classes_exclude_percent :
  Forall (fun cs => inset cs 37 = false) [SIP_USER; SIP_PASSWORD; SIP_PNAME; SIP_PVALUE; SIP_HNAME; SIP_HVALUE; SIP_REASON_PHRASE; TEL_PNAME; TEL_PVALUE].
Proof. exact classes_exclude_percent. Qed.
Print Assumptions C13_classes_exclude_percent.
Example C13_case : escape SIP_USER (s2b "a@%b") = s2b "a%40%25b" /\ endsRun (inset SIP_USER) (s2b "@h").
Proof. split; [reflexivity|]. split; [reflexivity|discriminate]. Qed.

(** C14. *)
Theorem C14_escapable_accepts : forall cs e s tok s', roomy e (used s + 3 + len (rest s)) ->
  (paEscapable cs e s = Ok tok s' <->
   exists run, rest s = run ++ rest s' /\ Decodes (inset cs) run tok /\ endsRun (inset cs) (rest s') /\ tok <> [] /\
               used s' = used s + 2 + len tok).
Proof. exact paEscapable_ok. Qed.
Print Assumptions C14_escapable_accepts.
Theorem C14_escapable_rejects : forall cs e s, roomy e (used s + 3 + len (rest s)) ->
  ((exists s', paEscapable cs e s = Fail s') <->
   (exists run tok r', rest s = run ++ r' /\ Decodes (inset cs) run tok /\ badEscape (inset cs) r') \/ endsRun (inset cs) (rest s)).
Proof. exact paEscapable_fail. Qed.
Print Assumptions C14_escapable_rejects.
Theorem C14_escapable_empty_accepts : forall cs e s tok s', roomy e (used s + 3 + len (rest s)) ->
  (paEscapableEmpty cs e s = Ok tok s' <->
   exists run, rest s = run ++ rest s' /\ Decodes (inset cs) run tok /\ endsRun (inset cs) (rest s') /\
               used s' = used s + 2 + len tok).
Proof. exact paEscapableEmpty_ok. Qed.
Print Assumptions C14_escapable_empty_accepts.
Theorem C14_escapable_empty_rejects : forall cs e s, roomy e (used s + 3 + len (rest s)) ->
  ((exists s', paEscapableEmpty cs e s = Fail s') <->
   (exists run tok r', rest s = run ++ r' /\ Decodes (inset cs) run tok /\ badEscape (inset cs) r')).
Proof. exact paEscapableEmpty_fail. Qed.
Print Assumptions C14_escapable_empty_rejects.
Example C14_case : badEscape (inset SIP_USER) (s2b "%4g") /\ roomy (defaultEnv (Some 100)) (8 + 3 + len (s2b "ab%4g")).
Proof. split; [|vm_compute; discriminate]. split; [reflexivity|]. intros [_ [v H]]. unfold hexDigitValue in H. vm_compute in H. intuition (try discriminate). Qed.

(** C27: what is stored for a quoted string is exactly the text between the quotes, except that the line feed of a folded
    line end is stored as a second carriage return ([QText] in QuotedSpec.v). *)
Theorem C27_quoted_exact : forall e r u tok k u', roomy e (u + 2 + len r) ->
  (paQuoted e (mkst r u) = Ok tok (mkst k u') <->
   u' = u + 2 + len tok /\ exists src, SWS r (34 :: src ++ 34 :: k) /\ QText plainQd isWsp src tok).
Proof. intros e r u tok k u' H. exact (quoted_ok_iff e r u H tok k u'). Qed.
Print Assumptions C27_quoted_exact.
(** It is refused exactly if it does not start with a quote, a byte is not allowed, a line end is not folded or there is no closing quote. *)
Theorem C27_quoted_refused : forall e r u, roomy e (u + 2 + len r) ->
  ((exists s, paQuoted e (mkst r u) = Fail s) <->
   (exists x k, SWS r (x :: k) /\ x <> 34) \/
   (exists src tok k, SWS r (34 :: src ++ k) /\ QText plainQd isWsp src tok /\ (badByteAt plainQd isWsp k \/ lineEndAt isWsp k))).
Proof. exact quoted_fail_iff. Qed.
Print Assumptions C27_quoted_refused.
(** Hence without line folding it is kept byte for byte. *)
Theorem C27_quoted_unfolded : forall e b k u, QuotedBody plainQd isWsp b -> roomy e (u + 2 + len b) ->
  paQuoted e (mkst (34 :: b ++ 34 :: k) u) = Ok b (mkst k (u + 2 + len b)).
Proof. exact paQuoted_body. Qed.
Print Assumptions C27_quoted_unfolded.
Theorem C27_quoted_refuted : exists src tok s, paQuoted (defaultEnv None) (mkst src 8) = Ok tok s /\
  src = s2b """a" ++ [13; 10] ++ s2b " b""" /\ tok = s2b "a" ++ [13; 13] ++ s2b " b".
Proof. exact paQuoted_fold_changes. Qed.
Print Assumptions C27_quoted_refuted.
Example C27_case : QuotedBody plainQd isWsp (s2b "Joe \"" Q").
Proof. vm_compute. repeat (first [apply QBNil | apply QBPair | apply QBText; [reflexivity|] | apply QBWs; [reflexivity|]]). Qed.
Example C27_folded_case : QText plainQd isWsp (s2b "Joe" ++ [13; 10; 32] ++ s2b "\"" Q") (s2b "Joe" ++ [13; 13; 32] ++ s2b "\"" Q").
Proof. vm_compute. repeat (first [apply QTNil | apply QTPair | apply QTFold; [reflexivity|] | apply QTText; [reflexivity|] | apply QTWs; [reflexivity|]]). Qed.
(** C32: reading a quoted string does not end exactly if it contains a line break that is not CRLF. *)
Theorem C32_quoted_loops_exactly : forall e r u, roomy e (u + 2 + len r) ->
  (paQuoted e (mkst r u) = Loop <-> exists src tok k, SWS r (34 :: src ++ k) /\ QText plainQd isWsp src tok /\ loneBreakAt k).
Proof. exact quoted_loop_iff. Qed.
Print Assumptions C32_quoted_loops_exactly.
(** C32 counterexample: no amount of fuel ends the loop. *)
Theorem C32_quoted_loop_refuted : forall e s r, rest s = 34 :: 10 :: r -> paQuoted e s = Loop /\
  forall fuel u U, qLoop fuel e u U (10 :: r) = QLoop.
Proof. exact paQuoted_diverges. Qed.
Print Assumptions C32_quoted_loop_refuted.
(** And [Loop] is always real divergence: no larger fuel gives a result. *)
Theorem C32_loop_is_divergence : forall f e u U r, (List.length r < f)%nat -> qLoop f e u U r = QLoop -> forall g, qLoop g e u U r = QLoop.
Proof. exact qLoop_diverges. Qed.
Print Assumptions C32_loop_is_divergence.

(** C40: stored-string comparison. *)
Theorem C40_equal_nocase : forall a name, name <> [] -> (CStringEqualNoCase a name = Some true <-> sameNoCase a name).
Proof. exact CStringEqualNoCase_spec. Qed.
Print Assumptions C40_equal_nocase.
Theorem C40_equal_nocase_total : forall a name, name <> [] -> CStringEqualNoCase a name <> None.
Proof. exact CStringEqualNoCase_total. Qed.
Print Assumptions C40_equal_nocase_total.
(** Comparing an empty stored string with an empty name panics. *)
Theorem C40_empty_refuted : CStringEqualNoCase [] [] = None.
Proof. reflexivity. Qed.
Print Assumptions C40_empty_refuted.
Example C40_case : sameNoCase (s2b "Branch-ABC") (s2b "bRANCH-abc").
Proof. reflexivity. Qed.

(** C24: removing visual separators, as a filter and in place in the arena. *)
Theorem C24_remove_idempotent : forall b, removeVisual (removeVisual b) = removeVisual b.
Proof. exact removeVisual_idem. Qed.
Print Assumptions C24_remove_idempotent.
Theorem C24_remove_none_left : forall b, Forall (fun v => IsTelVisualSperator v = false) (removeVisual b).
Proof. exact removeVisual_none. Qed.
Print Assumptions C24_remove_none_left.
Theorem C24_remove_in_place : forall a p b, cap a < 65536 -> stored a p b -> p < cap a -> len b < 65536 ->
  exists a', RemoveTelUriVisualSeperator p a = Some a' /\ readCString a' p = Some (removeVisual b) /\ aused a' = aused a /\
    forall i, i < p - 2 \/ p + len b <= i -> mem a' i = mem a i.
Proof. exact RemoveVisual_ok. Qed.
Print Assumptions C24_remove_in_place.
