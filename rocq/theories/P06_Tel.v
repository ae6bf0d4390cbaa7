(** Properties C24 and C25: telephone URIs. *)
From Verif Require Import Base Charset CharsetSpec BaseLemmas Str StrSpec StrProofs Monad Good Rt Room Inv Host HostSpec Uri UriSpec Tel TelSpec TelProofs TelSound TelCrash Nine NineParse P05_Uri.

(** ** C24 *)
Theorem C24_tel_round_trip : forall e t k u,
  eUriNoEscape e = false -> wfTelUri e t -> telEnds k -> roomFor e (u + 57 + 9 * len (encTelUri e t ++ k)) ->
  exists u', parseTelUri e (mkst (encTelUri e t ++ k) u) = Ok t (mkst k u').
Proof.
  intros e t k u He W F R. destruct (rt_telUri (withMem None e) t k u eq_refl He W F) as [u' E]. exists u'.
  rewrite (nine_room _ _ _ e _ (n_telUri) ltac:(lia)); [exact E|exact R].
Qed.
Print Assumptions C24_tel_round_trip.
(** The number returned is the written number without its visual separators: "+" (iff written) and the digits of a maximal run. *)
Theorem C24_number_written : forall e s t s', parseTelUri e s = Ok t s' ->
  exists h run r', rest s = h ++ run ++ r' /\ len h = 4 /\
    tNumber t = filter (fun b => negb (rfcVisualSep b)) run /\
    (tGlobal t = true -> exists ds, run = 43 :: ds /\ forallb (fun b => rfcDIGIT b || rfcVisualSep b)%bool ds = true /\ stops (fun b => rfcDIGIT b || rfcVisualSep b)%bool r' = true) /\
    (tGlobal t = false -> forallb (fun b => rfcHEXDIG b || rfcVisualSep b)%bool run = true /\ stops (fun b => rfcHEXDIG b || rfcVisualSep b)%bool r' = true) /\
    Forall (fun b => rfcVisualSep b = false) (tNumber t) /\ tNumber t <> [] /\ tNumber t <> [43].
Proof. exact telUri_number. Qed.
Print Assumptions C24_number_written.
Definition exTel : teluri := mktel false false (s2b "1234abCD") (Some (mkup (s2b "phone-context") (Some (s2b "+8610"))))
  (Some [Some (mkup (s2b "isub") (Some (s2b "a;b"))); None]) [mkup (s2b "x y") None].
Lemma exTel_wf m : wfTelUri (exNet m) exTel.
Proof.
  split; [split; [discriminate|vm_compute; reflexivity]|]. split.
  { split; [reflexivity|]. split; [reflexivity|]. exists 43, (s2b "8610"). split; [reflexivity|]. split; [abytes|]. right. repeat split. }
  split.
  - split; [|split; [reflexivity|split; [vm_compute; discriminate|]]].
    + intros _ p n [<-|[]] Hn Q. revert Q. cbn in Hn. intuition (subst; vm_compute in Q; discriminate).
    + repeat constructor; try discriminate; abytes.
  - split; repeat constructor; try discriminate; try abytes.
Qed.
Example C24_case : let e := exNet (Some 2000) in wfTelUri e exTel /\ telEnds (s2b ">") /\ roomFor e (8 + 57 + 9 * len (encTelUri e exTel ++ s2b ">")) /\
  encTelUri e exTel = s2b "tel:1234abCD;phone-context=+8610;isub=a%3Bb;x%20y" /\
  parseTelUri e (mkst (s2b "TEL:+1(23)-4.5") 8) = Ok (mktel true false (s2b "+12345") None None []) (mkst [] 16).
Proof. cbv zeta. split; [apply exTel_wf|]. split; [vm_compute; auto|]. split; [vm_compute; discriminate|]. split; vm_compute; reflexivity. Qed.
(** What remains equal when an accepted URI is encoded and read again: everything, up to letter case in the recognised names, except that a global number loses its context. *)
Definition sameTel (x y : teluri) : Prop :=
  tGlobal x = tGlobal y /\ tNumber x = tNumber y /\ sameTable (tKnown x) (tKnown y) /\ tParams x = tParams y /\
  (if tGlobal x then tContext y = None
   else tDomain x = tDomain y /\ match tContext x, tContext y with
     | Some p, Some q => sameNoCase (upName p) (upName q) /\ upValue p = upValue q | None, None => True | _, _ => False end).
Lemma canonTel_same e x : outTelUri e x -> sameTel x (canonTel x).
Proof.
  intros (_ & Oc & (_ & _ & O) & _). cbn [fst snd] in *. unfold sameTel, canonTel. cbn [tGlobal tNumber tKnown tParams tContext tDomain]. split; [reflexivity|]. split; [reflexivity|]. split; [|split; [reflexivity|]].
  - destruct (tKnown x) as [tbl|]; [|exact I]. apply canonTable_same, O.
  - destruct (tGlobal x); [reflexivity|]. split; [reflexivity|]. unfold outContext in Oc. cbn [fst snd] in Oc. destruct (tContext x) as [p|]; [|exact I]. split; [apply Oc|reflexivity].
Qed.
Theorem C24_stable : forall e0 s x s' e k u,
  parseTelUri e0 s = Ok x s' -> e = withMem (memend e) e0 -> eUriNoEscape e = false ->
  telEnds k -> roomFor e (u + 57 + 9 * len (encTelUri e x ++ k)) ->
  exists y u', parseTelUri e (mkst (encTelUri e x ++ k) u) = Ok y (mkst k u') /\ sameTel x y /\ encTelUri e y = encTelUri e x.
Proof.
  intros e0 s x s' e k u H Ee He F R. apply telUri_out in H. assert (O : outTelUri e x) by (rewrite Ee; exact H).
  destruct (C24_tel_round_trip e (canonTel x) k u He (canonTel_wf _ _ O) F) as [u' E]; [rewrite encTel_canon; exact R|]. rewrite encTel_canon in E.
  exists (canonTel x), u'. split; [exact E|]. split; [exact (canonTel_same _ _ O)|apply encTel_canon].
Qed.
Print Assumptions C24_stable.
Example C24_stable_case : let e := exNet (Some 4000) in
  exists x s', parseTelUri e (mkst (s2b "Tel:1-2;PHONE-context=%61;ISUB=%41;Q") 8) = Ok x s' /\
    encTelUri e x = s2b "tel:12;phone-context=a;isub=A;Q" /\ roomFor e (8 + 57 + 9 * len (encTelUri e x ++ s2b ">")) /\ telEnds (s2b ">").
Proof. cbv zeta. eexists. eexists. split; [vm_compute; reflexivity|]. split; [vm_compute; reflexivity|]. split; [vm_compute; discriminate|vm_compute; auto]. Qed.
(** A global number may be accepted with a context, which is not written again. *)
Theorem C24_global_context_refuted : exists e t s', parseTelUri e (mkst (s2b "tel:+1;phone-context=h") 8) = Ok t s' /\ tContext t <> None /\ encTelUri e t = s2b "tel:+1".
Proof. exists (exNet (Some 1000)). eexists. eexists. split; [vm_compute; reflexivity|]. split; [discriminate|vm_compute; reflexivity]. Qed.
Print Assumptions C24_global_context_refuted.
(** Of two contexts the first disappears. *)
Theorem C24_two_contexts_refuted : exists e t s', parseTelUri e (mkst (s2b "tel:1;phone-context=a;phone-context=b") 8) = Ok t s' /\ encTelUri e t = s2b "tel:1;phone-context=b".
Proof. exists (exNet (Some 1000)). eexists. eexists. split; [vm_compute; reflexivity|]. vm_compute; reflexivity. Qed.
Print Assumptions C24_two_contexts_refuted.

(** ** C25 *)
(** False: a context without value crashes, in every arena with room. *)
Theorem C25_tel_crash_refuted : forall e k u, parseTelUri (withMem None e) (mkst (s2b "tel:1;phone-context" ++ 62 :: k) u) = Panic.
Proof. intros. reflexivity. Qed.
Print Assumptions C25_tel_crash_refuted.
(** The exact texts: given enough room, the parse crashes if and only if the text is "tel:", a number and parameters that lead to a
    complete name "phone-context" (any letter case, escapes decoded) with no "=" behind it. *)
Theorem C25_crashes_exactly : forall e s, roomFor e (used s + 57 + 9 * len (rest s)) ->
  parseTelUri e s = Panic <-> TelCrash (rest s).
Proof.
  intros e [r u] R. cbn [rest used] in *. rewrite (nine_room _ _ _ e (mkst r u) (n_telUri) ltac:(lia) R), <- (telUri_crash_iff (withMem None e) r u eq_refl).
  destruct (parseTelUri (withMem None e) (mkst r u)); cbn; split; intros H; congruence || contradiction || exact I || reflexivity.
Qed.
Print Assumptions C25_crashes_exactly.
(** In any other case the parse succeeds or fails. *)
Theorem C25_otherwise_returns : forall e s, ~ TelCrash (rest s) -> roomFor e (used s + 57 + 9 * len (rest s)) ->
  (exists t s', parseTelUri e s = Ok t s') \/ (exists s', parseTelUri e s = Fail s').
Proof.
  intros e [r u] B R. pose proof (proj1 (C25_crashes_exactly e (mkst r u) R)) as X. rewrite (nine_room _ _ _ e (mkst r u) (n_telUri) ltac:(lia) R) in *. pose proof (telUri_noloop (withMem None e) r u eq_refl) as NL.
  destruct (parseTelUri (withMem None e) (mkst r u)); [left; eauto|right; eauto|exfalso; auto|congruence].
Qed.
Print Assumptions C25_otherwise_returns.
Example C25_crash_case : let e := exNet (Some 1000) in TelCrash (s2b "tel:+1-2;ext=5;phone%2Dcontext>") /\ roomFor e (8 + 57 + 9 * len (s2b "tel:+1-2;ext=5;phone%2Dcontext>")).
Proof.
  cbv zeta. split; [|vm_compute; discriminate]. apply (C25_crashes_exactly (withMem None (exNet None)) (mkst (s2b "tel:+1-2;ext=5;phone%2Dcontext>") 8)); [vm_compute; auto|vm_compute; reflexivity].
Qed.
(** Given enough room, it is the only cause: a telephone URI whose text has no "phone-context" name (escapes decoded, any letter
    case) without "=" is parsed to success or failure. *)
Theorem C25_tel_no_crash : forall e s, ~ bareContext (rest s) -> roomFor e (used s + 57 + 9 * len (rest s)) ->
  (exists t s', parseTelUri e s = Ok t s') \/ (exists s', parseTelUri e s = Fail s').
Proof.
  intros e s B R. rewrite (nine_room _ _ _ e s (n_telUri) ltac:(lia) R). pose proof (telUri_crash (withMem None e) s eq_refl) as X. unfold calm in X.
  destruct (parseTelUri (withMem None e) s); [left; eauto|right; eauto|contradiction|contradiction].
Qed.
Print Assumptions C25_tel_no_crash.
Lemma short_no_context r : (List.length r < 13)%nat -> ~ bareContext r.
Proof.
  intros L (a & run & b & tok & -> & D & Sm & _). assert (List.length tok <= List.length run)%nat. { clear -D. induction D; cbn; lia. }
  apply (f_equal (@List.length N)) in Sm. rewrite !map_length in Sm. cbn in Sm. rewrite !app_length in L. lia.
Qed.
Example C25_case : let e := exNet (Some 1000) in ~ bareContext (s2b "tel:12;ext=1") /\
  roomFor e (8 + 57 + 9 * len (s2b "tel:12;ext=1")) /\
  (exists t, parseTelUri e (mkst (s2b "tel:12;ext=1") 8) = Ok t (mkst [] 30)) /\
  (exists t, parseTelUri e (mkst (s2b "tel:12;Phone-Context=+1") 8) = Ok t (mkst [] 37)).
Proof.
  cbv zeta. split; [apply short_no_context; cbn; lia|]. split; [vm_compute; discriminate|]. split; eexists; vm_compute; reflexivity.
Qed.
