(** Properties C40 (searching) and C45: searching headers in the text of a message. *)
From Verif Require Import Base BaseLemmas Charset Lws LwsSpec LwsProofs Str StrSpec StrProofs GenParam GenParamProofs RawHeaders RawProofs HeaderList ListProofs Scan ScanSpec ScanProofs.

(** ** C40: ByteSliceIndexNoCase and HasPrefixNoCase *)
(** The position found is that of the first occurrence, if that does not reach to the end of the input. *)
Theorem C40_index : forall find r a t, find <> [] -> (ByteSliceIndexNoCase r find = Some (a, t) <-> firstAt find r a t /\ (List.length find < List.length t)%nat).
Proof. exact index_spec. Qed.
Print Assumptions C40_index.
Theorem C40_index_none : forall find r, find <> [] -> ~ occurs find r -> ByteSliceIndexNoCase r find = None.
Proof. exact index_none. Qed.
Print Assumptions C40_index_none.
(** An occurrence at the end of the input is not found. *)
Theorem C40_index_end_refuted : occurs (s2b "Abc") (s2b "x aBC") /\ ByteSliceIndexNoCase (s2b "x aBC") (s2b "Abc") = None /\ forall r, ByteSliceIndexNoCase r [] = None.
Proof. split; [|split; [vm_compute; reflexivity|reflexivity]]. exists (s2b "x "), (s2b "aBC"). split; [reflexivity|]. exists (s2b "aBC"), []. split; reflexivity. Qed.
Example C40_index_case : firstAt (s2b "bA") (s2b "aabaxBA.") (s2b "aa") (s2b "baxBA.") /\ ByteSliceIndexNoCase (s2b "aabaxBA.") (s2b "bA") = Some (s2b "aa", s2b "baxBA.").
Proof. assert (H : ByteSliceIndexNoCase (s2b "aabaxBA.") (s2b "bA") = Some (s2b "aa", s2b "baxBA.")) by (vm_compute; reflexivity). split; [|exact H]. apply C40_index in H; [apply H|discriminate]. Qed.
Theorem C40_prefix : forall t p, hasPrefixNoCase (Some t) p = true <-> startsNoCase p t.
Proof. intros t p. rewrite hasPrefixNoCase_spec. reflexivity. Qed.
Print Assumptions C40_prefix.
Example C40_prefix_case : startsNoCase (s2b "Content-") (s2b "cONTENT-id") /\ hasPrefixNoCase (Some (s2b "cONTENT-id")) (s2b "Content-") = true /\ hasPrefixNoCase (Some (s2b "Content")) (s2b "Content-") = false /\ hasPrefixNoCase None (s2b "Content-") = false.
Proof. split; [|vm_compute; auto]. apply C40_prefix. vm_compute. reflexivity. Qed.

(** ** C45: FindSipHeader1 *)
(** All the values, joined by commas, the first one with the name of the header. *)
Theorem C45_all_values : forall name r n v l ws, ~ In 10 name -> headerLines name r ((n, v) :: l) -> Forall2 (fun p w => trimmed (snd p) w) l ws ->
  FindSipHeader1 name r = Some (n ++ v ++ flat_map (fun w => s2b ", " ++ w) ws, true).
Proof.
  intros name r n v l ws Hname H Hws. inversion H as [|a n0 v0 b l0 F Hn Hv Hb]; subst. unfold FindSipHeader1, scanName. cbn [scanLoop].
  rewrite (round_first _ _ (mkscan [] true false) a n v b eq_refl Hname Hn Hv F). rewrite (loop_next name b l Hb ws Hws); [|reflexivity|reflexivity|rewrite app_length; cbn [List.length]; rewrite !app_length; cbn [List.length]; lia].
  cbn [scFound scBuf app]. rewrite <- app_assoc. reflexivity.
Qed.
Print Assumptions C45_all_values.
(** Without a header of that name, the short name is tried; one such header is written as it stands. *)
Lemma shortOf_spec name : forall l s, shortOf l name = Some s -> exists n, In (n, s) l /\ sameNoCase name n.
Proof. induction l as [|(n, t) l IH]; intros s; cbn [shortOf]; [discriminate|]. destruct (eqNoCase name n) eqn:E; [intros [= ->]; exists n; split; [now left|now apply eqNoCase_spec]|]. intros H. destruct (IH _ H) as (m & I & Sm). exists m. split; [now right|exact Sm]. Qed.
Lemma same_trans a b c : sameNoCase a b -> sameNoCase b c -> sameNoCase a c. Proof. unfold sameNoCase. congruence. Qed.
Lemma same_sym a b : sameNoCase a b -> sameNoCase b a. Proof. unfold sameNoCase. congruence. Qed.
Lemma shortOf_compact name full s : In (full, s) compactForms -> full <> s2b "Subject:" -> full <> s2b "Supported:" -> sameNoCase name full -> shortOf shortNames name = Some s /\ ~ In 10 s.
Proof.
  intros I N1 N2 S.
  assert (Sub : In (full, s) shortNames).
  { unfold compactForms in I. repeat (destruct I as [I|I]; [apply pair_equal_spec in I as [<- <-]; first [now contradiction N1|now contradiction N2|vm_compute; tauto]|]). destruct I. }
  clear I N1 N2. assert (D : forall f1 s1 f2 s2, In (f1, s1) shortNames -> In (f2, s2) shortNames -> sameNoCase f1 f2 -> s1 = s2).
  { intros f1 s1 f2 s2 H1 H2 H. unfold shortNames in H1, H2. repeat (destruct H1 as [H1|H1]; [apply pair_equal_spec in H1 as [<- <-]; repeat (destruct H2 as [H2|H2]; [apply pair_equal_spec in H2 as [<- <-]; first [reflexivity|vm_compute in H; discriminate]|]); destruct H2|]). destruct H1. }
  split.
  - assert (T : forall l, (forall f t, In (f, t) l -> In (f, t) shortNames) -> In (full, s) l -> shortOf l name = Some s).
    { induction l as [|(f, t) l IH]; intros Hl I; [destruct I|]. cbn [shortOf]. destruct (eqNoCase name f) eqn:E.
      - f_equal. apply eqNoCase_spec in E. apply (D f t full s); [apply Hl; now left|exact Sub|]. exact (same_trans _ _ _ (same_sym _ _ E) S).
      - destruct I as [I|I]; [apply pair_equal_spec in I as [-> ->]; apply eqNoCase_spec in S; congruence|]. apply IH; [intros f' t' H; apply Hl; now right|exact I]. }
    apply T; auto.
  - unfold shortNames in Sub. repeat (destruct Sub as [Sub|Sub]; [apply pair_equal_spec in Sub as [_ <-]; vm_compute; intros Q; repeat destruct Q as [Q|Q]; try discriminate; exact Q|]). destruct Sub.
Qed.
Theorem C45_short_name : forall name full s r n v, In (full, s) compactForms -> full <> s2b "Subject:" -> full <> s2b "Supported:" -> sameNoCase name full ->
  headerLines name r [] -> headerLines s r [(n, v)] -> FindSipHeader1 name r = Some (n ++ v, true).
Proof.
  intros name full s r n v I N1 N2 Sm H0 H1. destruct (shortOf_compact name full s I N1 N2 Sm) as [Hs Hsl].
  unfold FindSipHeader1, scanName. inversion H0; subst. rewrite loop_none by assumption. cbn [scFound]. rewrite Hs. inversion H1 as [|a n0 v0 b l0 F Hn Hv Hb]; subst.
  rewrite (loop_one s _ Hsl (mkscan [] true false) _ a n v b eq_refl F Hn Hv Hb); [|lia]. reflexivity.
Qed.
Print Assumptions C45_short_name.
(** If there is no header of either name, nothing is written and the result is false. *)
Theorem C45_absent : forall name r, ~ occurs (10 :: name) r -> (forall full s, In (full, s) compactForms -> sameNoCase name full -> ~ occurs (10 :: s) r) -> FindSipHeader1 name r = Some ([], false).
Proof.
  intros name r H0 H1. unfold FindSipHeader1, scanName. rewrite loop_none by exact H0. cbn [scFound]. destruct (shortOf shortNames name) as [s|] eqn:E; [|reflexivity]. apply shortOf_spec in E as (n & I & Sn).
  rewrite loop_none; [reflexivity|]. apply (H1 n s); [|exact Sn]. unfold shortNames in I. repeat (destruct I as [I|I]; [apply pair_equal_spec in I as [<- <-]; vm_compute; tauto|]). destruct I.
Qed.
Print Assumptions C45_absent.
(** A decision procedure for the examples. *)
Fixpoint occursB (f r : bytes) : bool := (Nat.leb (List.length f) (List.length r) && eqNoCase (firstn (List.length f) r) f) || match r with [] => false | _ :: r' => occursB f r' end.
Lemma occursB_spec f r : occursB f r = false -> ~ occurs f r.
Proof.
  induction r as [|x r IH]; cbn [occursB]; intros H (a & t & E & S); apply orb_false_iff in H as [H1 H2].
  - destruct a; [|discriminate]. cbn [app] in E. subst t. apply starts_firstn in S as [L S]. apply Nat.leb_le in L. rewrite L, S in H1. discriminate.
  - destruct a as [|y a]; cbn [app] in E; [subst t; apply starts_firstn in S as [L S]; apply Nat.leb_le in L; rewrite L, S in H1; discriminate|]. injection E as <- E. apply (IH H2). exists a, t. auto.
Qed.
Definition exScan : bytes := s2b "INVITE sip:a@b SIP/2.0" ++ CRLF ++ s2b "VIA: SIP/2.0/UDP h1" ++ CRLF ++ s2b "To: x" ++ CRLF ++ s2b "via: " ++ s2b " SIP/2.0/TCP h2" ++ CRLF ++ s2b "f: y" ++ CRLF ++ CRLF.
Lemma firstAt_by_index find r a t : find <> [] -> ByteSliceIndexNoCase r find = Some (a, t) -> firstAt find r a t.
Proof. intros Hf H. apply C40_index in H; [apply H|exact Hf]. Qed.
Example C45_case : (exists n v l, headerLines (s2b "Via:") exScan ((n, v) :: l) /\ l <> []) /\ FindSipHeader1 (s2b "Via:") exScan = Some (s2b "VIA: SIP/2.0/UDP h1, SIP/2.0/TCP h2", true) /\
  (exists n v, headerLines (s2b "From:") exScan [] /\ headerLines (s2b "f:") exScan [(n, v)]) /\ FindSipHeader1 (s2b "From:") exScan = Some (s2b "f: y", true) /\ FindSipHeader1 (s2b "Route:") exScan = Some ([], false).
Proof.
  split; [|split; [vm_compute; reflexivity|split; [|split; vm_compute; reflexivity]]].
  - exists (s2b "VIA:"), (s2b " SIP/2.0/UDP h1"), [(s2b "via:", s2b "  SIP/2.0/TCP h2")]. split; [|discriminate].
    apply (hl_line (s2b "Via:") (s2b "INVITE sip:a@b SIP/2.0" ++ [13]) (s2b "VIA:") (s2b " SIP/2.0/UDP h1") (s2b "To: x" ++ CRLF ++ s2b "via: " ++ s2b " SIP/2.0/TCP h2" ++ CRLF ++ s2b "f: y" ++ CRLF ++ CRLF)).
    + apply firstAt_by_index; [discriminate|vm_compute; reflexivity].
    + reflexivity.
    + vm_compute. intuition discriminate.
    + apply (hl_line (s2b "Via:") (s2b "To: x" ++ [13]) (s2b "via:") (s2b "  SIP/2.0/TCP h2") (s2b "f: y" ++ CRLF ++ CRLF)).
      * apply firstAt_by_index; [discriminate|vm_compute; reflexivity].
      * reflexivity.
      * vm_compute. intuition discriminate.
      * apply hl_none. apply occursB_spec. vm_compute. reflexivity.
  - exists (s2b "f:"), (s2b " y"). split; [apply hl_none; apply occursB_spec; vm_compute; reflexivity|].
    apply (hl_line (s2b "f:") (s2b "INVITE sip:a@b SIP/2.0" ++ CRLF ++ s2b "VIA: SIP/2.0/UDP h1" ++ CRLF ++ s2b "To: x" ++ CRLF ++ s2b "via: " ++ s2b " SIP/2.0/TCP h2" ++ [13]) (s2b "f:") (s2b " y") CRLF).
    + apply firstAt_by_index; [discriminate|vm_compute; reflexivity].
    + reflexivity.
    + vm_compute. intuition discriminate.
    + apply hl_none. apply occursB_spec. vm_compute. reflexivity.
Qed.
(** False in general: the second of two header lines that follow each other directly is not found, *)
Theorem C45_adjacent_refuted : FindSipHeader1 (s2b "Via:") (s2b "x" ++ CRLF ++ s2b "Via: a" ++ CRLF ++ s2b "Via: b" ++ CRLF ++ CRLF) = Some (s2b "Via: a", true).
Proof. vm_compute. reflexivity. Qed.
(** a value that goes on in the next line is cut off, *)
Theorem C45_folded_refuted : FindSipHeader1 (s2b "To:") (s2b "x" ++ CRLF ++ s2b "To: a" ++ CRLF ++ s2b " b" ++ CRLF ++ CRLF) = Some (s2b "To: a", true).
Proof. vm_compute. reflexivity. Qed.
(** the values of the second and later headers with the short name lose their first bytes, *)
Theorem C45_short_twice_refuted : FindSipHeader1 (s2b "Contact:") (s2b "x" ++ CRLF ++ s2b "m: sip:a" ++ CRLF ++ s2b "To: y" ++ CRLF ++ s2b "m: sip:boss" ++ CRLF ++ CRLF) = Some (s2b "m: sip:a, oss", true).
Proof. vm_compute. reflexivity. Qed.
(** two short names are not known, *)
Theorem C45_compact_form_refuted : exists full s, In (full, s) compactForms /\ headerLines s (s2b "x" ++ CRLF ++ s ++ s2b " v" ++ CRLF) [(s, s2b " v")] /\ FindSipHeader1 full (s2b "x" ++ CRLF ++ s ++ s2b " v" ++ CRLF) = Some ([], false).
Proof.
  exists (s2b "Subject:"), (s2b "s:"). split; [vm_compute; tauto|]. split; [|vm_compute; reflexivity]. apply (hl_line (s2b "s:") (s2b "x" ++ [13]) (s2b "s:") (s2b " v") []).
  - apply firstAt_by_index; [discriminate|vm_compute; reflexivity].
  - reflexivity.
  - vm_compute. intuition discriminate.
  - apply hl_none. apply occursB_spec. vm_compute. reflexivity.
Qed.
(** and it panics on a header line without line end, and on a second header with an empty value and a lone line feed. *)
Theorem C45_panics_refuted : FindSipHeader1 (s2b "To:") (s2b "x" ++ CRLF ++ s2b "To: a") = None /\ FindSipHeader1 (s2b "To:") (s2b "x" ++ [10] ++ s2b "To: a" ++ CRLF ++ s2b "x" ++ [10] ++ s2b "To:" ++ [10] ++ [10]) = None.
Proof. split; vm_compute; reflexivity. Qed.
Print Assumptions C45_panics_refuted.

(** ** C45: FindSipHeader2 *)
(** For all names (without line feed, blank and colon, the long one no prefix of the short one) and inputs: what the result says about the lines of the input. The first line with the header
    is found; the position returned is that of the colon. *)
Theorem C45_find2 : forall name short r, plainName name -> plainName short -> ~ startsNoCase name short ->
  let hdr t c := headerAt name t c \/ headerAt short t c in
  match FindSipHeader2 name short r with
  | Some (c, true) => exists t, lineStart r t /\ hdr t c /\ forall t2 c2, lineStart r t2 -> hdr t2 c2 -> (List.length t2 <= List.length t)%nat
  | Some (_, false) => forall t, lineStart r t -> (forall c, ~ hdr t c) /\ (t <> [] -> (List.length name <= List.length t)%nat)
  | None => exists t, lineStart r t /\ t <> [] /\ (List.length t < Nat.max (List.length name) (List.length short))%nat /\ forall t2 c2, lineStart r t2 -> hdr t2 c2 -> (List.length t2 <= List.length t)%nat
  end.
Proof. intros name short r Hn Hs Hp hdr. exact (find2_ok name short Hn Hs Hp (S (List.length r)) r ltac:(lia)). Qed.
Print Assumptions C45_find2.
(** So a header that is there is found if at least as many bytes as the longer name has follow the start of its line. *)
Theorem C45_find2_found : forall name short r t c, plainName name -> plainName short -> ~ startsNoCase name short -> lineStart r t -> headerAt name t c \/ headerAt short t c ->
  (Nat.max (List.length name) (List.length short) <= List.length t)%nat -> exists c', FindSipHeader2 name short r = Some (c', true).
Proof.
  intros name short r t c Hn Hs Hp Ht Hc L. pose proof (C45_find2 name short r Hn Hs Hp) as H. cbn zeta in H. destruct (FindSipHeader2 name short r) as [(c', [])|].
  - eauto.
  - exfalso. destruct (H t Ht) as [H1 _]. exact (H1 c Hc).
  - exfalso. destruct H as (t2 & _ & _ & L2 & H). specialize (H t c Ht Hc). lia.
Qed.
Print Assumptions C45_find2_found.
Example C45_find2_case : plainName (s2b "Via") /\ plainName (s2b "v") /\ ~ startsNoCase (s2b "Via") (s2b "v") /\
  (let r := s2b "To: x" ++ CRLF ++ s2b "Viable: z" ++ CRLF ++ s2b "V " ++ s2b " : y" ++ CRLF in
   exists t c, lineStart r t /\ headerAt (s2b "v") t c /\ (3 <= List.length t)%nat /\ FindSipHeader2 (s2b "Via") (s2b "v") r = Some (c, true) /\ c = s2b ": y" ++ CRLF).
Proof.
  split; [intros x H; vm_compute in H; repeat (destruct H as [<-|H]; [split; [discriminate|]; split; [discriminate|intros [Q|Q]; discriminate]|]); destruct H|].
  split; [intros x H; vm_compute in H; repeat (destruct H as [<-|H]; [split; [discriminate|]; split; [discriminate|intros [Q|Q]; discriminate]|]); destruct H|].
  split; [intros H; apply starts_length in H; cbn in H; lia|].
  exists (s2b "V " ++ s2b " : y" ++ CRLF), (s2b ": y" ++ CRLF). split; [exists (s2b "To: x" ++ CRLF ++ s2b "Viable: z" ++ CRLF); split; [vm_compute; reflexivity|right; exists (s2b "To: x" ++ CRLF ++ s2b "Viable: z" ++ [13]); vm_compute; reflexivity]|].
  split; [exists (s2b "V"), (s2b "  "); split; [vm_compute; reflexivity|]; split; [reflexivity|]; split; [constructor; [now left|]; constructor; [now left|]; constructor|exists (s2b " y" ++ CRLF); reflexivity]|].
  split; [vm_compute; lia|]. split; [vm_compute; reflexivity|reflexivity].
Qed.
(** A header that is not there is not reported missing: the search usually panics at the empty line that ends the headers. *)
Theorem C45_find2_absent_refuted : (forall t, lineStart (s2b "To: x" ++ CRLF ++ CRLF) t -> forall c, ~ headerAt (s2b "Via") t c /\ ~ headerAt (s2b "v") t c) /\ FindSipHeader2 (s2b "Via") (s2b "v") (s2b "To: x" ++ CRLF ++ CRLF) = None.
Proof.
  split; [|vm_compute; reflexivity].
  assert (Q : forall f t, (occursB f (s2b "To: x" ++ CRLF ++ CRLF) = false) -> lineStart (s2b "To: x" ++ CRLF ++ CRLF) t -> forall c, ~ headerAt f t c).
  { intros f t O (a & E & _) c H. apply headerAt_starts in H. apply (occursB_spec _ _ O). exists a, t. auto. }
  intros t Ht c. split; (apply (Q _ t); [vm_compute; reflexivity|exact Ht]).
Qed.
Print Assumptions C45_find2_absent_refuted.
Print Assumptions C40_index_end_refuted.
Print Assumptions C45_adjacent_refuted.
Print Assumptions C45_folded_refuted.
Print Assumptions C45_short_twice_refuted.
Print Assumptions C45_compact_form_refuted.
