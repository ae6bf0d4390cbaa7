(** Properties C19 and C35: header lines and raw header blocks. *)
From Verif Require Import Base Charset CharsetSpec BaseLemmas Num Lws LwsSpec LwsProofs Str StrSpec StrProofs Monad Good Rt Seq GoodAuto Room Inv
  MethodTree HeaderTree Lookup NameSpec NameProofs GenParam GenParamSpec GenParamProofs AddrProofs StartLine StartLineProofs Headers HeadersSpec HeadersProofs RawHeaders RawSpec RawProofs Nine NineParse P05_Uri.

(** ** C19: the end of a header line *)
Theorem C19_line_end : forall r v r', FindCrlf r = Some (v, r') <-> exists line, headerLine r line r' /\ cutCR line v.
Proof. exact FindCrlf_spec. Qed.
Print Assumptions C19_line_end.
Theorem C19_no_line_end : forall r, FindCrlf r = None <-> ~ exists line r', headerLine r line r'.
Proof. exact FindCrlf_none. Qed.
Print Assumptions C19_no_line_end.
(** There is at most one line and one value, and there is one as soon as some line feed is not followed by a blank. *)
Theorem C19_unique : forall r, (forall l1 r1 l2 r2, headerLine r l1 r1 -> headerLine r l2 r2 -> l1 = l2 /\ r1 = r2) /\ (forall line v w, cutCR line v -> cutCR line w -> v = w) /\
  ((exists line r', headerLine r line r') <-> exists a b, r = a ++ 10 :: b /\ ~ startsWsp b).
Proof.
  intros r. split; [exact (headerLine_unique r)|]. split; [exact cutCR_det|]. split.
  - intros (line & r' & E & _ & H). exists line, r'. auto.
  - remember (List.length r) as n eqn:Hn. assert (L : (List.length r <= n)%nat) by lia. clear Hn. revert r L. induction n as [n IH] using lt_wf_ind. intros r L (a & b & E & Hb).
    destruct (first_lf r) as [H|(x & t & E2 & Hx)]; [exfalso; apply H; rewrite E; apply in_or_app; right; left; reflexivity|].
    assert (D : startsWsp t \/ ~ startsWsp t) by (destruct t as [|y t]; [right; intros (y & q & Q & _); discriminate|]; destruct (isWsp y) eqn:Ey; [left; exists y, t; split; [reflexivity|now apply isWsp_spec]|right; now apply no_wsp]).
    destruct D as [D|D]; [|exists x, t; split; [exact E2|]; split; [now apply folded_nolf|exact D]].
    assert (T : exists a', t = a' ++ 10 :: b).
    { rewrite E2 in E. clear - E Hx D Hb. revert a E. induction x as [|y x IHx]; intros [|z a] E; cbn [app] in E.
      - injection E as ->. contradiction.
      - injection E as _ E. exists a. exact E.
      - injection E as -> _. exfalso. apply Hx. left. reflexivity.
      - injection E as _ E. apply (IHx (fun I => Hx (or_intror I)) a E). }
    destruct T as (a' & T). destruct (IH (List.length t)) with (r := t) as (l & r' & El & Fl & Hr'); [rewrite E2 in L; rewrite app_length in L; cbn in L; lia|lia|exists a', b; auto|].
    exists (x ++ 10 :: l), r'. split; [rewrite <- app_assoc; cbn [app]; congruence|]. split; [|exact Hr']. apply folded_cons; auto. rewrite El in D. destruct l as [|y l].
    + exfalso. cbn [app] in D. destruct D as (y & q & [= <- _] & Hy). destruct Hy; discriminate.
    + destruct D as (z & q & E3 & Hz). cbn [app] in E3. injection E3 as <- _. exists y, l. auto.
Qed.
Print Assumptions C19_unique.
(** The value parser, in every arena: it takes exactly the line, and moves to the end when there is none. *)
Theorem C19_value : forall e s, match rawValue e s with
  | Ok v s' => exists line, headerLine (rest s) line (rest s') /\ cutCR line v
  | Fail s' => rest s' = [] /\ (forall line r', ~ headerLine (rest s) line r') \/ exists line, headerLine (rest s) line (rest s')
  | _ => False
  end.
Proof.
  intros e s. destruct (rawValue e s) as [v s'|s'| |] eqn:E.
  - exact (rawValue_ok _ _ _ _ E).
  - unfold rawValue, onRest in E. destruct (FindCrlf (rest s)) as [[v r']|] eqn:F.
    + right. apply FindCrlf_spec in F as (line & H & _). rewrite goto_bind in E. unfold allocCString in E. destruct (leMem _ _); [discriminate|]. injection E as <-. exists line. exact H.
    + left. injection E as <-. split; [reflexivity|]. intros line r' H. apply FindCrlf_none in F. apply F. exists line, r'. exact H.
  - unfold rawValue, onRest in E. destruct (FindCrlf _) as [[v r']|]; [|discriminate]. rewrite goto_bind in E. unfold allocCString in E. destruct (leMem _ _); discriminate.
  - unfold rawValue, onRest in E. destruct (FindCrlf _) as [[v r']|]; [|discriminate]. rewrite goto_bind in E. unfold allocCString in E. destruct (leMem _ _); discriminate.
Qed.
Print Assumptions C19_value.
Example C19_case : FindCrlf (s2b "a b" ++ CRLF ++ s2b " c" ++ CRLF ++ s2b "D: e") = Some (s2b "a b" ++ CRLF ++ s2b " c", s2b "D: e") /\
  headerLine (s2b "a b" ++ CRLF ++ s2b " c" ++ CRLF ++ s2b "D: e") (s2b "a b" ++ CRLF ++ s2b " c" ++ [13]) (s2b "D: e") /\ FindCrlf (s2b "a" ++ CRLF ++ s2b " b") = None /\
  FindCrlf (s2b "a" ++ [10]) = Some (s2b "a", []).
Proof.
  split; [vm_compute; reflexivity|]. split; [|split; vm_compute; reflexivity].
  assert (F : FindCrlf (s2b "a b" ++ CRLF ++ s2b " c" ++ CRLF ++ s2b "D: e") = Some (s2b "a b" ++ CRLF ++ s2b " c", s2b "D: e")) by (vm_compute; reflexivity).
  apply FindCrlf_spec in F as (line & H & C). destruct C as [[-> _]|[-> C]]; [exact H|]. exfalso. destruct H as (H & _). vm_compute in H. discriminate.
Qed.
(** An empty value is not returned empty: the carriage return of the line end is taken for the value. *)
Theorem C19_empty_value_refuted : exists r, headerLine r [13] [] /\ FindCrlf r = Some ([13], []).
Proof.
  exists CRLF. split; [|vm_compute; reflexivity]. split; [reflexivity|]. split; [apply folded_nolf; vm_compute; intuition discriminate|]. intros (x & t & E & _). discriminate.
Qed.
Print Assumptions C19_empty_value_refuted.

(** ** C35: header blocks *)
Theorem C35_block_read : forall e r hs r' u, headerBlock r hs r' -> roomFor e (u + 57 + 9 * len r) -> exists u', parseRawHeaders e (mkst r u) = Ok hs (mkst r' u').
Proof.
  intros e r hs r' u B R. destruct (block_complete (withMem None e) r hs r' eq_refl B [] u) as [u' E]. exists u'. rewrite (nine_room _ _ _ e (mkst _ u) (n_rawHeaders) ltac:(lia) R). exact E.
Qed.
Print Assumptions C35_block_read.
(** In every arena: what is returned is what is written. *)
Theorem C35_block_sound : forall e r u hs s', crlfOnly r -> parseRawHeaders e (mkst r u) = Ok hs s' -> headerBlock r hs (rest s').
Proof. intros e r u hs s' H E. exact (block_sound e (mkst r u) hs s' H E). Qed.
Print Assumptions C35_block_sound.
(** With enough memory and an input that is not cut off, parsing fails exactly when there is no header block. *)
Theorem C35_block_exact : forall e r u, crlfOnly r -> ~ cutOff r -> roomFor e (u + 57 + 9 * len r) ->
  match parseRawHeaders e (mkst r u) with
  | Ok hs s' => headerBlock r hs (rest s')
  | Fail _ => forall hs r', ~ headerBlock r hs r'
  | _ => False
  end.
Proof.
  intros e r u Hc Hx R. pose proof (nine_room _ _ _ e (mkst r u) (n_rawHeaders) ltac:(lia) R) as Q. destruct (parseRawHeaders e (mkst r u)) as [hs s'|s'| |] eqn:E.
  - exact (C35_block_sound _ _ _ _ _ Hc E).
  - intros hs r' B. destruct (C35_block_read e r hs r' u B R) as [u' E2]. congruence.
  - symmetry in Q. apply Hx. exact (block_panic (withMem None e) (mkst r u) eq_refl Q).
  - exact (noLoop_rawHeaders e (mkst r u) E).
Qed.
Print Assumptions C35_block_exact.
(** Encoding and parsing back. *)
Theorem C35_round_trip : forall e hs t u, Forall wfRaw hs -> roomFor e (u + 57 + 9 * len (encRawHeaders hs ++ CRLF ++ t)) ->
  exists u', parseRawHeaders e (mkst (encRawHeaders hs ++ CRLF ++ t) u) = Ok hs (mkst t u').
Proof.
  intros e hs t u W R. destruct (rt_rawHeaders (withMem None e) hs t u eq_refl W) as [u' E]. exists u'. rewrite (nine_room _ _ _ e (mkst _ u) (n_rawHeaders) ltac:(lia) R). exact E.
Qed.
Print Assumptions C35_round_trip.
(** Everything the parser returns is in the domain of the round trip, except for values that are empty or start with white space, and the known headers
    for which the library has no name to write. *)
Lemma block_wf r hs r' : headerBlock r hs r' ->
  Forall (fun h => rValue h <> [] /\ ~ startsWsp (rValue h) /\ ~ startsCRLF (rValue h) /\ (rName h = None -> In (rId h) writtenHeaders)) hs -> Forall wfRaw hs.
Proof.
  induction 1 as [|r|p w t r1 line r2 h hs r' Np Hw Hs (El & Fl & _) Hv B IH]; intros F; [constructor|constructor|]. inversion F as [|h' hs' (F1 & F2 & F3 & F4) F5]; subst. constructor; [|auto]. split.
  - split; [exact F1|]. split; [|auto]. destruct Hv as [[-> _]|[-> _]]; [|exact Fl]. intros a b E. destruct (Fl a (b ++ [13])) as (x & q & E2 & Hx); [rewrite E, <- app_assoc; reflexivity|].
    destruct b as [|y b]; cbn [app] in E2; injection E2 as E2 E3; subst x; [destruct Hx; discriminate|]. exists y, b. auto.
  - destruct Np as [p name i I Sn|p W Un]; [|auto]. now apply F4.
Qed.
Theorem C35_reparse : forall e e' r u hs s' u2 t, crlfOnly r -> parseRawHeaders e (mkst r u) = Ok hs s' ->
  Forall (fun h => rValue h <> [] /\ ~ startsWsp (rValue h) /\ ~ startsCRLF (rValue h) /\ (rName h = None -> In (rId h) writtenHeaders)) hs ->
  roomFor e' (u2 + 57 + 9 * len (encRawHeaders hs ++ CRLF ++ t)) -> exists u', parseRawHeaders e' (mkst (encRawHeaders hs ++ CRLF ++ t) u2) = Ok hs (mkst t u').
Proof. intros e e' r u hs s' u2 t Hc E F R. apply C35_round_trip; [|exact R]. exact (block_wf _ _ _ (C35_block_sound _ _ _ _ _ Hc E) F). Qed.
Print Assumptions C35_reparse.
Definition exRaw : list raw := [mkraw SIP_HDR_SUBJECT None (s2b "a" ++ CRLF ++ s2b " b"); mkraw SIP_HDR_UNKNOWN (Some (s2b "X-Accept")) (s2b "y"); mkraw SIP_HDR_SUBJECT None (s2b "c:")].
Lemma exRaw_wf : Forall wfRaw exRaw.
Proof.
  assert (V : forall v, FindCrlf (v ++ CRLF) = Some (v, []) -> v <> [] -> stops isWsp v = true -> stops (fun x => x =? 13) v = true -> wfRawValue v).
  { intros v F Hne Hw Hc. split; [exact Hne|]. split; [|split].
    - apply FindCrlf_spec in F as (line & (E & Fl & _) & _). assert (line = v ++ [13]) as -> by (change CRLF with ([13] ++ [10]) in E; rewrite app_assoc in E; apply app_inj_tail in E; symmetry; apply E).
      intros a b E2. destruct (Fl a (b ++ [13])) as (x & q & E3 & Hx); [rewrite E2, <- app_assoc; reflexivity|]. destruct b as [|y b]; cbn [app] in E3; injection E3 as E3 E4; subst x; [destruct Hx; discriminate|]. exists y, b. auto.
    - destruct v as [|x v]; [congruence|]. cbn in Hw. apply no_wsp. now apply negb_true_iff.
    - destruct v as [|x v]; [congruence|]. cbn in Hc. intros (q & [= -> _]). discriminate. }
  assert (U : unknownName (s2b "X-Accept")).
  { intros name i I Sn. assert (F : forallb (fun q => negb (beq (map asciiLower (fst q)) (map asciiLower (s2b "X-Accept")))) (headerNames ++ compactNames ++ misspeltNames) = true) by (vm_compute; reflexivity).
    rewrite forallb_forall in F. apply F in I. cbn [fst] in I. unfold sameNoCase in Sn. rewrite Sn in I. rewrite beq_refl in I. discriminate. }
  constructor; [split; [apply V; [vm_compute; reflexivity|discriminate|reflexivity|reflexivity]|vm_compute; tauto]|].
  constructor; [split; [apply V; [vm_compute; reflexivity|discriminate|reflexivity|reflexivity]|split; [reflexivity|split; [split; [discriminate|vm_compute; reflexivity]|exact U]]]|].
  constructor; [split; [apply V; [vm_compute; reflexivity|discriminate|reflexivity|reflexivity]|vm_compute; tauto]|]. constructor.
Qed.
Example C35_case : let txt := s2b "Subject: a" ++ CRLF ++ s2b " b" ++ CRLF ++ s2b "X-Accept: y" ++ CRLF ++ s2b "Subject: c:" ++ CRLF ++ CRLF ++ s2b "v=0" in
  Forall wfRaw exRaw /\ encRawHeaders exRaw ++ CRLF ++ s2b "v=0" = txt /\ roomFor (exNet (Some 1000)) (8 + 57 + 9 * len txt) /\
  (exists s', parseRawHeaders (exNet (Some 1000)) (mkst (s2b "s:a" ++ CRLF ++ s2b " b" ++ CRLF ++ s2b "X-Accept : y" ++ CRLF ++ s2b "SUBJECT: c:" ++ CRLF ++ CRLF ++ s2b "v=0") 8) = Ok exRaw s' /\ rest s' = s2b "v=0").
Proof. cbv zeta. split; [exact exRaw_wf|]. split; [vm_compute; reflexivity|]. split; [vm_compute; discriminate|]. eexists. split; vm_compute; reflexivity. Qed.

(** What is written for one header: "name: value" and a line end; the name is its own, or the registered spelling for the headers known by a number. *)
Lemma written_names : forallb (fun i => match infoOf i with Some x => existsb (fun q => beq (fst q) (hiName x) && (snd q =? i)) headerNames | None => false end) writtenHeaders = true.
Proof. vm_compute. reflexivity. Qed.
Theorem C35_written : forall h, wfRaw h -> exists n, encRaw h = n ++ s2b ": " ++ rValue h ++ CRLF /\ match rName h with Some x => n = x | None => In (n, rId h) headerNames end.
Proof.
  intros h [_ W]. exists (rawName h). split; [reflexivity|]. unfold rawName. destruct (rName h) as [x|].
  - destruct W as (-> & _). reflexivity.
  - destruct (written_info _ W) as [Hi _]. rewrite (proj2 (N.eqb_neq _ _) Hi). pose proof written_names as F. rewrite forallb_forall in F. apply F in W. destruct (infoOf (rId h)) as [x|]; [|discriminate].
    apply existsb_exists in W as ([n i] & I & E). cbn [fst snd] in E. apply andb_prop in E as [E1 E2]. apply beq_eq in E1. apply N.eqb_eq in E2. now subst.
Qed.
Print Assumptions C35_written.
Example C35_written_case : wfRaw (mkraw SIP_HDR_ALLOW_EVENTS None (s2b "dialog")) /\ encRaw (mkraw SIP_HDR_ALLOW_EVENTS None (s2b "dialog")) = s2b "Allow-Events: dialog" ++ CRLF.
Proof.
  split; [|reflexivity]. split; [|vm_compute; tauto]. split; [discriminate|]. split; [|split].
  - intros a b E. exfalso. assert (H : In 10 (s2b "dialog")) by (cbn [rValue] in E; rewrite E; apply in_or_app; right; left; reflexivity). vm_compute in H. intuition discriminate.
  - intros (x & t & E & Hw). vm_compute in E. injection E as <- _. destruct Hw; discriminate.
  - intros (t & E). vm_compute in E. discriminate.
Qed.

(** ** Looking up headers *)
Theorem C35_find_known : forall hs i, match findKnownRaw hs i with
  | Some h => exists a b, hs = a ++ h :: b /\ rId h = i /\ Forall (fun x => rId x <> i) a
  | None => Forall (fun x => rId x <> i) hs
  end.
Proof.
  intros hs i. induction hs as [|h hs IH]; cbn [findKnownRaw]; [constructor|]. destruct (N.eqb_spec (rId h) i) as [E|E]; [exists [], hs; repeat split; auto|].
  destruct (findKnownRaw hs i) as [x|]; [|constructor; auto]. destruct IH as (a & b & -> & Hx & Fa). exists (h :: a), b. repeat split; auto.
Qed.
Print Assumptions C35_find_known.
Definition named (name : bytes) (h : raw) : Prop := exists n, rName h = Some n /\ sameNoCase n name.
Theorem C35_find_unknown : forall hs name, name <> [] -> match findUnknownRaw hs name with
  | Some (Some h) => exists a b, hs = a ++ h :: b /\ named name h /\ Forall (fun x => ~ named name x) a
  | Some None => Forall (fun x => ~ named name x) hs
  | None => False
  end.
Proof.
  intros hs name Hne. induction hs as [|h hs IH]; cbn [findUnknownRaw]; [constructor|].
  assert (Q : exists b, (match rName h with Some n => CStringEqualNoCase n name | None => Some false end) = Some b /\ (b = true <-> named name h)).
  { destruct (rName h) as [n|] eqn:En.
    - pose proof (CStringEqualNoCase_total n name Hne) as T. pose proof (CStringEqualNoCase_spec n name Hne) as Sp. destruct (CStringEqualNoCase n name) as [b|]; [|congruence]. exists b. split; [reflexivity|]. unfold named. rewrite En. split.
      + intros ->. exists n. split; [reflexivity|]. apply Sp. reflexivity.
      + intros (m & [= <-] & S1). apply Sp in S1. now injection S1.
    - exists false. split; [reflexivity|]. unfold named. rewrite En. split; [discriminate|intros (m & E & _); discriminate]. }
  destruct Q as ([] & -> & Q).
  - exists [], hs. split; [reflexivity|]. split; [now apply Q|constructor].
  - assert (Nh : ~ named name h) by (intros H; apply Q in H; discriminate). destruct (findUnknownRaw hs name) as [[x|]|]; [|constructor; auto|exact IH]. destruct IH as (a & b & -> & Hx & Fa). exists (h :: a), b. repeat split; auto.
Qed.
Print Assumptions C35_find_unknown.
Example C35_find_case : findKnownRaw exRaw SIP_HDR_SUBJECT = Some (mkraw SIP_HDR_SUBJECT None (s2b "a" ++ CRLF ++ s2b " b")) /\
  findUnknownRaw exRaw (s2b "x-ACCEPT") = Some (Some (mkraw SIP_HDR_UNKNOWN (Some (s2b "X-Accept")) (s2b "y"))) /\ findUnknownRaw exRaw (s2b "Subject") = Some None.
Proof. split; [|split]; vm_compute; reflexivity. Qed.

(** ** Outside the domain *)
(** A known header without an entry in the table of header descriptions loses its name. *)
Theorem C35_name_lost_refuted : exists e hs s', parseRawHeaders e (mkst (s2b "Server: a/1" ++ CRLF ++ CRLF) 8) = Ok hs s' /\ encRawHeaders hs = s2b ": a/1" ++ CRLF /\
  forall e' u h s2, parseRawHeaders e' (mkst (encRawHeaders hs ++ CRLF) u) <> Ok h s2.
Proof.
  exists (exNet (Some 1000)). eexists. eexists. split; [vm_compute; reflexivity|]. split; [vm_compute; reflexivity|]. intros e' u h s2 E. apply C35_block_sound in E.
  - vm_compute encRawHeaders in E. cbn [app] in E. inversion E as [|r Q|p w t r1 line r2 h0 hs r' Np Hw Hs Hl Hv B Q]; subst.
    pose proof (name_token _ _ _ Np) as T.
    destruct p as [|x p]; [destruct T; congruence|]. cbn [app] in Q. injection Q as Qx _. subst x. destruct T as [_ T]. vm_compute in T. discriminate.
  - intros a b Q. vm_compute encRawHeaders in Q. cbn [app] in Q. repeat (destruct a as [|? a]; cbn [app] in Q; [injection Q as Q; try discriminate; subst; eexists; reflexivity|injection Q as ? Q; subst]). destruct a; discriminate.
Qed.
Print Assumptions C35_name_lost_refuted.
(** A blank value grows by one space with every encoding, and a value that starts with a second folding loses it. *)
Theorem C35_blank_value_refuted : exists e hs s' hs2 s2, parseRawHeaders e (mkst (s2b "X: " ++ CRLF ++ CRLF) 8) = Ok hs s' /\ map rValue hs = [s2b " "] /\
  parseRawHeaders e (mkst (encRawHeaders hs ++ CRLF) 8) = Ok hs2 s2 /\ map rValue hs2 = [s2b "  "].
Proof. exists (exNet (Some 1000)). eexists. eexists. eexists. eexists. split; [vm_compute; reflexivity|]. split; [vm_compute; reflexivity|]. split; vm_compute; reflexivity. Qed.
Print Assumptions C35_blank_value_refuted.
Theorem C35_double_folding_refuted : exists e hs s' hs2 s2, parseRawHeaders e (mkst (s2b "X:" ++ CRLF ++ s2b " " ++ CRLF ++ s2b " y" ++ CRLF ++ CRLF) 8) = Ok hs s' /\ map rValue hs = [CRLF ++ s2b " y"] /\
  parseRawHeaders e (mkst (encRawHeaders hs ++ CRLF) 8) = Ok hs2 s2 /\ map rValue hs2 = [s2b "y"].
Proof. exists (exNet (Some 1000)). eexists. eexists. eexists. eexists. split; [vm_compute; reflexivity|]. split; [vm_compute; reflexivity|]. split; vm_compute; reflexivity. Qed.
Print Assumptions C35_double_folding_refuted.
(** A carriage return inside a known name is read as its dash; an input cut off in a name crashes. *)
Theorem C35_lone_cr_refuted : exists e hs s', parseRawHeaders e (mkst (s2b "Refer" ++ [13] ++ s2b "To: x" ++ CRLF ++ CRLF) 8) = Ok hs s' /\ map rId hs = [SIP_HDR_REFER_TO].
Proof. exists (exNet (Some 1000)). eexists. eexists. split; vm_compute; reflexivity. Qed.
Print Assumptions C35_lone_cr_refuted.
Theorem C35_cut_off_refuted : exists e, parseRawHeaders e (mkst (s2b "X: y" ++ CRLF ++ s2b "Max-") 8) = Panic.
Proof. exists (exNet (Some 1000)). vm_compute. reflexivity. Qed.
Print Assumptions C35_cut_off_refuted.
