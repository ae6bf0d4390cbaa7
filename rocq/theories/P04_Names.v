(** Properties C17 (method lookup) and C18 (header-name lookup). *)
From Verif Require Import Base Charset CharsetSpec BaseLemmas Str StrSpec IndexTree IndexProofs MethodTree HeaderTree NameSpec NameProofs NameExact.

(** C17: an index is returned exactly for the registered names, matched case-sensitively and ended by a non-token byte. *)
Theorem C17_method_lookup : forall r i r',
  (GetSipMethodIndex r = Some (i, r') /\ i <> SIP_METHOD_UNKNOWN) <->
  exists name, In (name, i) methodNames /\ r = name ++ r' /\ nameEnds r'.
Proof. exact method_spec. Qed.
Print Assumptions C17_method_lookup.
(** Otherwise only token bytes were skipped, so the caller's token scan from the returned position yields the whole token. *)
Theorem C17_method_unknown_skips_token : forall r i r', GetSipMethodIndex r = Some (i, r') ->
  exists p, r = p ++ r' /\ forallb IsSipToken p = true.
Proof. exact method_skips. Qed.
Print Assumptions C17_method_unknown_skips_token.
(** "It never panics" is false, on exactly three inputs. *)
Theorem C17_panics_exactly : forall r, GetSipMethodIndex r = None <-> In r [s2b "P"; s2b "IN"; s2b "RE"].
Proof. exact method_panic. Qed.
Print Assumptions C17_panics_exactly.
Example C17_case : GetSipMethodIndex (s2b "INVITE sip:a") = Some (SIP_METHOD_INVITE, s2b " sip:a") /\
  GetSipMethodIndex (s2b "INVITED x") = Some (0, s2b "D x") /\ nameEnds (s2b " sip:a").
Proof. repeat split; vm_compute; reflexivity. Qed.

(** C18: an index is returned exactly for the names in the tables, in any letter case (and with CR for the dash after "In", "P", "Priv", "Refer": [spells]).
    The tables are the registered names and compact forms, and four misspellings. *)
Theorem C18_header_lookup : forall r i r',
  (GetSipHeaderIndex r = Some (i, r') /\ i <> SIP_HDR_UNKNOWN) <->
  exists name p, In (name, i) (headerNames ++ compactNames ++ misspeltNames) /\ r = p ++ r' /\ spells p name /\ nameEnds r'.
Proof. exact header_exact. Qed.
Print Assumptions C18_header_lookup.
(** So in an input without CR, exactly for the names. *)
Theorem C18_header_lookup_no_cr : forall r i r', ~ In 13 r ->
  ((GetSipHeaderIndex r = Some (i, r') /\ i <> SIP_HDR_UNKNOWN) <->
   exists name p, In (name, i) (headerNames ++ compactNames ++ misspeltNames) /\ r = p ++ r' /\ sameNoCase p name /\ nameEnds r').
Proof. exact header_spec. Qed.
Print Assumptions C18_header_lookup_no_cr.
(** The other direction for the registered names alone. *)
Theorem C18_header_lookup_complete : forall name i p r', In (name, i) (headerNames ++ compactNames) -> sameNoCase p name -> nameEnds r' ->
  GetSipHeaderIndex (p ++ r') = Some (i, r').
Proof. intros name i p r' I. apply header_complete. unfold recognisedNames. rewrite app_assoc. apply in_or_app. left. exact I. Qed.
Print Assumptions C18_header_lookup_complete.
(** The CR case does happen: "Refer<CR>To" is taken for Refer-To. *)
Theorem C18_cr_as_dash_refuted : exists r, In 13 r /\ GetSipHeaderIndex r = Some (SIP_HDR_REFER_TO, s2b ":x").
Proof. exists (s2b "Refer" ++ 13 :: s2b "To:x"). split; [vm_compute; tauto|vm_compute; reflexivity]. Qed.
Print Assumptions C18_cr_as_dash_refuted.
(** Registered names that the lookup does not know although the library has an index for them. *)
Theorem C18_missed_names_refuted : Forall (fun q => GetSipHeaderIndex (fst q ++ [58]) <> Some (snd q, [58]) /\ snd q <> SIP_HDR_UNKNOWN) missedNames.
Proof. repeat constructor; vm_compute; discriminate. Qed.
Print Assumptions C18_missed_names_refuted.
(** Panics: exactly on these prefixes (any letter case); never when a colon is ahead, as in every header line. *)
Theorem C18_panics_exactly : forall r, GetSipHeaderIndex r = None <-> exists name, In name headerPanics /\ spells r name.
Proof. exact header_panic_exact. Qed.
Print Assumptions C18_panics_exactly.
Theorem C18_no_panic_before_colon : forall r, In 58 r -> GetSipHeaderIndex r <> None.
Proof. exact header_safe. Qed.
Print Assumptions C18_no_panic_before_colon.
Theorem C18_header_unknown_skips_token : forall r i r', GetSipHeaderIndex r = Some (i, r') ->
  exists p, r = p ++ r' /\ forallb tokenOrCR p = true.
Proof. exact header_skips. Qed.
Print Assumptions C18_header_unknown_skips_token.
Example C18_case : GetSipHeaderIndex (s2b "cOnTent-LENGTH : 5") = Some (SIP_HDR_CONTENT_LENGTH, s2b " : 5") /\
  GetSipHeaderIndex (s2b "l:5") = Some (SIP_HDR_CONTENT_LENGTH, s2b ":5") /\ GetSipHeaderIndex (s2b "X-Foo: 1") = Some (0, s2b "-Foo: 1") /\
  ~ In 13 (s2b "cOnTent-LENGTH : 5") /\ nameEnds (s2b " : 5") /\ In 58 (s2b "l:5").
Proof. repeat split; try (vm_compute; reflexivity); vm_compute; intuition discriminate. Qed.
