(** Property C29 (and the header part of C03): the structured headers. *)
From Verif Require Import Base Charset CharsetSpec BaseLemmas Num NumSpec NumProofs Lws LwsSpec LwsProofs Str StrSpec StrProofs Monad Good Rt Seq Room Inv MethodTree NameSpec Host HostSpec Uri UriSpec UriProofs
  Tel TelSpec GenParam GenParamSpec GenParamProofs Addr AddrSpec AddrProofs StartLine StartLineSpec StartLineProofs Headers HeadersSpec HeadersProofs Nine NineParse P05_Uri P06_Tel P08_Addr.

Lemma wf_mem e k v m : wfHVal e k v -> wfHVal (withMem m e) k v.
Proof.
  assert (A : forall a, wfAddr e a -> wfAddr (withMem m e) a) by (intros a (W1 & W2 & W3); split; [exact W1|]; split; [destruct (aUri a); exact W2|exact W3]).
  assert (Q : forall t ps, wfParams e k t ps -> wfParams (withMem m e) k t ps) by (intros t ps; unfold wfParams; now rewrite !recognise_on, knownOn_free).
  destruct k, v; cbn [wfHVal]; try contradiction; try tauto; try (intros W; intuition auto).
Qed.
Lemma follow_mem e k v r m : hFollow e k v r -> hFollow (withMem m e) k v r.
Proof. destruct v; cbn [hFollow]; auto. Qed.

(** The whole header, name included. *)
Theorem C29_header_round_trip : forall e k v r u,
  eUriNoEscape e = false -> wfHVal e k v -> hFollow e k v r -> roomFor e (u + 57 + 9 * len (encHeader e k v ++ r)) ->
  exists u', parseHeader k e (mkst (encHeader e k v ++ r) u) = Ok (asWritten e v) (mkst r u').
Proof.
  intros e k v r u He W F R. destruct (rt_header (withMem None e) k v r u eq_refl He (wf_mem _ _ _ _ W) (follow_mem _ _ _ _ _ F)) as [u' E].
  unfold encHeader in E |- *. unfold encHeader in R. rewrite encHVal_mem in E. exists u'. rewrite (nine_room _ _ _ e _ (n_header k) ltac:(lia)); [|exact R]. rewrite E. destruct v; reflexivity.
Qed.
Print Assumptions C29_header_round_trip.
(** Just the value (Content-Length is padded with blanks on the left and its value parser wants the digits). *)
Theorem C29_value_round_trip : forall e k v r u,
  eUriNoEscape e = false -> wfHVal e k v -> hFollow e k v r -> k <> KContentLength -> roomFor e (u + 57 + 9 * len (encHVal e k v ++ r)) ->
  exists u', parseHVal k e (mkst (encHVal e k v ++ r) u) = Ok (asWritten e v) (mkst r u').
Proof.
  intros e k v r u He W F NL R. destruct (rt_hval (withMem None e) k v r u eq_refl He (wf_mem _ _ _ _ W) (follow_mem _ _ _ _ _ F) NL) as [u' E].
  rewrite encHVal_mem in E. exists u'. rewrite (nine_room _ _ _ e _ (n_hval k) ltac:(lia)); [|exact R]. rewrite E. destruct v; reflexivity.
Qed.
Print Assumptions C29_value_round_trip.

Definition exVia : hval := VVia (ProtoOther (s2b "sip") (s2b "2.01")) (s2b "TCP") (mkhp (HIpv4 10 0 0 1) (Some 5061))
  (Some [Some (mkgp (s2b "branch") (Some (GToken (s2b "z9hG4bK1")))); None; Some (mkgp (s2b "rport") None); None; None]) [mkgp (s2b "x") (Some (GBracket (s2b "[::1]")))].
Definition exFrom : hval := VAddr exAddr2 (Some [Some (mkgp (s2b "tag") (Some (GToken (s2b "1.a"))))]) [mkgp (s2b "q") (Some (GQuoted (s2b "a b")))].
Definition exType : hval := VType (s2b "multipart") (s2b "mixed") (Some [Some (mkgp (s2b "boundary") (Some (GQuoted (s2b "b=1"))))]) [].
Lemma exVia_wf m : wfHVal (exNet m) KVia exVia.
Proof.
  split; [|split; [split; [discriminate|reflexivity]|split; [split; [cbn; lia|reflexivity]|]]].
  - split; [split; [discriminate|reflexivity]|]. split; [split; [discriminate|reflexivity]|]. intros _ w H. cbn in H. injection H as <-. eexists _, _. split; reflexivity.
  - split.
    + split; [intros _ p n [<-|[]] Hn Q; revert Q; cbn in Hn; intuition (subst; vm_compute in Q; discriminate)|]. split; [reflexivity|]. split; [discriminate|].
      constructor; [split; [reflexivity|split; [split; [discriminate|reflexivity]|split; [discriminate|reflexivity]]]|].
      constructor; [exact I|]. constructor; [split; [reflexivity|split; [split; [discriminate|reflexivity]|exact I]]|]. repeat constructor.
    + constructor; [|constructor]. split; [split; [discriminate|reflexivity]|]. exists (s2b "::1"). split; [reflexivity|]. vm_compute. intuition discriminate.
Qed.
Lemma exAddr2_wf m : wfAddr (exNet m) exAddr2.
Proof. pose proof C28_case as H. cbv zeta in H. destruct H as ((_ & H & _) & _). destruct H as (H1 & H2 & H3). split; [exact H1|]. split; [exact H2|exact H3]. Qed.
Lemma exFrom_wf m : wfHVal (exNet m) KFrom exFrom.
Proof.
  split; [apply exAddr2_wf|]. split.
  - split; [intros _ p n [<-|[]] Hn Q; revert Q; cbn in Hn; intuition (subst; vm_compute in Q; discriminate)|]. split; [reflexivity|]. split; [discriminate|].
    constructor; [split; [reflexivity|split; [split; [discriminate|reflexivity]|split; [discriminate|reflexivity]]]|]. constructor.
  - constructor; [|constructor]. split; [split; [discriminate|reflexivity]|].
    repeat first [apply QBNil | apply QBPair | apply QBText; [vm_compute; reflexivity|] | apply QBWs; [vm_compute; reflexivity|]].
Qed.
Lemma lineEnd_ex : lineEnds (CRLF ++ s2b "To: x"). Proof. right. exists (s2b "To: x"). split; [reflexivity|]. intros (x & t & E & [->| ->]); discriminate. Qed.
Example C29_case : let e := exNet (Some 6000) in let r := CRLF ++ s2b "To: x" in
  (wfHVal e KVia exVia /\ hFollow e KVia exVia r) /\ (wfHVal e KFrom exFrom /\ hFollow e KFrom exFrom r) /\
  (wfHVal e KCSeq (VCSeq 4294967295 (MOther (s2b "INVITEX"))) /\ hFollow e KCSeq (VCSeq 4294967295 (MOther (s2b "INVITEX"))) r) /\
  (wfHVal e KContentLength (VNum 120) /\ hFollow e KContentLength (VNum 120) r) /\ (wfHVal e KCallID (VCall (s2b "a<b>c") (Some (s2b "h"))) /\ hFollow e KCallID (VCall (s2b "a<b>c") (Some (s2b "h"))) r) /\
  roomFor e (8 + 57 + 9 * len (encHeader e KVia exVia ++ r)) /\ roomFor e (8 + 57 + 9 * len (encHeader e KFrom exFrom ++ r)) /\
  encHeader e KVia exVia = s2b "Via: sip/2.01/TCP 10.0.0.1:5061;branch=z9hG4bK1;rport;x=[::1]" /\
  encHeader e KContentLength (VNum 120) = s2b "Content-Length:        120" /\
  encHeader e KFrom exFrom = s2b "From: " ++ encAddr e exAddr2 ++ s2b ";tag=1.a;q=""a b""".
Proof.
  cbv zeta. pose proof lineEnd_ex as L. split; [split; [apply exVia_wf|split; [left; exact L|split; [reflexivity|discriminate]]]|].
  split; [split; [apply exFrom_wf|split; [left; exact L|discriminate]]|].
  split; [split; [split; [reflexivity|split; [split; [discriminate|reflexivity]|intros i H; vm_compute in H; intuition discriminate]]|split; [discriminate|reflexivity]]|].
  split; [split; [reflexivity|reflexivity]|]. split; [split; [split; split; discriminate || reflexivity|split; [reflexivity|discriminate]]|].
  split; [vm_compute; discriminate|]. split; [vm_compute; discriminate|]. split; [vm_compute; reflexivity|]. split; vm_compute; reflexivity.
Qed.

(** ** Outside the domain *)
(** A display name starting with "*" makes a Contact the wildcard. *)
Theorem C29_contact_star_refuted : exists e a s', parseHeader KFrom e (mkst (s2b "From: *x <sip:h>" ++ CRLF) 8) = Ok (VAddr a None []) s' /\
  encHeader e KContact (VAddr a None []) = s2b "Contact: *x <sip:h>" /\
  exists s2, parseHeader KContact e (mkst (s2b "Contact: *x <sip:h>" ++ CRLF) 8) = Ok VStar s2 /\ rest s2 = s2b "x <sip:h>" ++ CRLF.
Proof. exists (exNet (Some 1000)). eexists. eexists. split; [vm_compute; reflexivity|]. split; [vm_compute; reflexivity|]. eexists. split; vm_compute; reflexivity. Qed.
Print Assumptions C29_contact_star_refuted.
(** A Via header that is accepted but whose encoding is not. *)
Theorem C29_via_version_refuted : exists e v s' s'', parseHeader KVia e (mkst (s2b "Via: SIP / 2.0x/UDP h" ++ CRLF) 8) = Ok v s' /\
  encHeader e KVia v = s2b "Via: SIP/2.0x/UDP h" /\ parseHeader KVia e (mkst (encHeader e KVia v ++ CRLF) 8) = Fail s''.
Proof. exists (exNet (Some 1000)). eexists. eexists. eexists. split; [vm_compute; reflexivity|]. split; [vm_compute; reflexivity|]. vm_compute. reflexivity. Qed.
Print Assumptions C29_via_version_refuted.
(** A Call-ID with "/" is cut there. *)
Theorem C29_call_id_slash_refuted : exists e s', parseHeader KCallID e (mkst (s2b "Call-ID: a/b" ++ CRLF) 8) = Ok (VCall (s2b "a") None) s' /\ rest s' = s2b "/b" ++ CRLF.
Proof. exists (exNet (Some 1000)). eexists. split; vm_compute; reflexivity. Qed.
Print Assumptions C29_call_id_slash_refuted.
(** Content-Type and Content-Disposition also answer to the compact form of Content-Length, and Record-Route to a line break in its name. *)
Theorem C29_header_name_refuted : exists e v s', parseHeader KContentType e (mkst (s2b "l: text/plain") 8) = Ok v s' /\
  exists w s2, parseHeader KContentDisposition e (mkst (s2b "l: render") 8) = Ok w s2 /\
  exists x s3, parseHeader KRecordRoute e (mkst (s2b "Record" ++ 13 :: s2b "Route: <sip:h>") 8) = Ok x s3.
Proof.
  exists (exNet (Some 1000)). eexists. eexists. split; [vm_compute; reflexivity|]. eexists. eexists. split; [vm_compute; reflexivity|]. eexists. eexists. vm_compute. reflexivity.
Qed.
Print Assumptions C29_header_name_refuted.

(** ** Names: every documented spelling in any letter case is accepted, up to the byte after it *)
Definition spellings (k : hkind) : list bytes :=
  hName k :: match k with KFrom => [s2b "f"] | KTo => [s2b "t"] | KVia => [s2b "v"] | KContact => [s2b "m"] | KContentLength => [s2b "l"] | KContentType => [s2b "c"] | KCallID => [s2b "i"] | _ => [] end.
Definition isSep (x : N) : bool := (x =? 58) || (x =? 32) || (x =? 9).
Lemma sep_eq x : ((x =? 58) || IsWspChar x)%bool = isSep x.
Proof. unfold isSep. rewrite IsWspChar_isWsp. unfold isWsp. now rewrite orb_assoc. Qed.
Definition testOk (t : btest) : bool := match t with T c | Headers.X c => rng 97 122 c || (c =? 45) end.
Lemma test_sep t x : testOk t = true -> isSep x = true -> testByte t x = false.
Proof.
  intros H S. unfold isSep in S. assert (E : x = 58 \/ x = 32 \/ x = 9) by lia. destruct t as [c|c]; cbn in *; unfold rng in H.
  - destruct E as [->|[->| ->]]; unfold lc; [change (N.lor 58 32) with 58|change (N.lor 32 32) with 32|change (N.lor 9 32) with 41]; apply N.eqb_neq; lia.
  - apply N.eqb_neq. lia.
Qed.
Lemma matchTests_unique ts : forallb testOk ts = true -> forall n x r q, forallb (fun y => negb (isSep y)) n = true -> isSep x = true -> matchTests ts (n ++ x :: r) = Some q -> q = x :: r.
Proof.
  induction ts as [|t ts IH]; intros Ht n x r q Hn Hx H.
  - destruct n as [|y n]; cbn in *; rewrite sep_eq in H; [rewrite Hx in H; now injection H as <-|]. apply andb_prop in Hn as [Hn _]. apply negb_true_iff in Hn. rewrite Hn in H. discriminate.
  - cbn in Ht. apply andb_prop in Ht as [H1 H2]. destruct n as [|y n]; cbn in *.
    + rewrite test_sep in H by assumption. discriminate.
    + apply andb_prop in Hn as [_ Hn]. destruct (testByte t y); [|discriminate]. eapply IH; eauto.
Qed.
Lemma nameTests_ok k : forallb (forallb testOk) (nameTests k) = true. Proof. destruct k; vm_compute; reflexivity. Qed.
Lemma firstMatch_some ts n x r : forallb (forallb testOk) ts = true -> forallb (fun y => negb (isSep y)) n = true -> isSep x = true ->
  (exists t q, In t ts /\ matchTests t (n ++ x :: r) = Some q) -> firstMatch ts (n ++ x :: r) = Some (x :: r).
Proof.
  intros Ht Hn Hx (t & q & Hin & Hq). induction ts as [|t0 ts IH]; [contradiction|]. cbn in Ht. apply andb_prop in Ht as [H1 H2]. cbn [firstMatch].
  destruct (matchTests t0 (n ++ x :: r)) as [q0|] eqn:E; [f_equal; eapply matchTests_unique; eauto|]. destruct Hin as [->|Hin]; [congruence|]. now apply IH.
Qed.
(** What a spelling means for the tests. *)
Definition specTest (c : N) (t : btest) : bool := match t with T d => (asciiLower c =? d) | Headers.X d => (asciiLower c =? d) && negb (rng 97 122 d) end.
Lemma specTest_sound c t y : specTest c t = true -> testOk t = true -> asciiLower y = asciiLower c -> testByte t y = true /\ isSep y = false.
Proof.
  intros H K E. destruct t as [d|d]; cbn in *.
  - apply N.eqb_eq in H. rewrite H in E. unfold rng in K. unfold asciiLower in E. destruct ((65 <=? y) && (y <=? 90))%bool eqn:B.
    + assert (SW : forallb (fun y => implb ((65 <=? y) && (y <=? 90)) (lc y (y + 32))) all256 = true) by (vm_compute; reflexivity).
      assert (Hy : y < 256) by lia. pose proof (sweep _ SW y Hy) as Z. cbv beta in Z. rewrite B in Z. rewrite E in Z. split; [exact Z|unfold isSep; lia].
    + clear H. subst d. assert (SW : forallb (fun y => implb (rng 97 122 y || (y =? 45)) (lc y y)) all256 = true) by (vm_compute; reflexivity).
      assert (Hy : y < 256) by lia. pose proof (sweep _ SW y Hy) as Z. cbv beta in Z. unfold rng in Z. rewrite K in Z. split; [exact Z|unfold isSep; lia].
  - apply andb_prop in H as [H Hr]. apply N.eqb_eq in H. rewrite H in E. unfold rng in *. unfold asciiLower in E. destruct ((65 <=? y) && (y <=? 90))%bool eqn:B; [lia|]. clear H. subst y. split; [apply N.eqb_refl|unfold isSep; lia].
Qed.
Lemma spec_match name : forall ts n x r, forallb testOk ts = true -> Forall2 (fun c t => specTest c t = true) name ts -> sameNoCase n name -> isSep x = true ->
  matchTests ts (n ++ x :: r) = Some (x :: r) /\ forallb (fun y => negb (isSep y)) n = true.
Proof.
  induction name as [|c name IH]; intros ts n x r Ht F E Hx; inversion F as [|? t ? ts' H1 H2]; subst; unfold sameNoCase in E.
  - destruct n; [|discriminate]. cbn. rewrite sep_eq, Hx. auto.
  - destruct n as [|y n]; [discriminate|]. cbn [map] in E. injection E as E1 E2. cbn in Ht. apply andb_prop in Ht as [T1 T2].
    destruct (specTest_sound _ _ _ H1 T1 E1) as [B1 B2]. destruct (IH ts' n x r T2 H2 E2 Hx) as [I1 I2]. cbn [app matchTests]. rewrite B1. split; [exact I1|]. cbn. now rewrite B2.
Qed.
Fixpoint specTests (name : bytes) (ts : list btest) : bool :=
  match name, ts with [], [] => true | c :: n', t :: ts' => specTest c t && specTests n' ts' | _, _ => false end.
Lemma specTests_ok name : forall ts, specTests name ts = true -> Forall2 (fun c t => specTest c t = true) name ts.
Proof. induction name as [|c n IH]; intros [|t ts] H; try discriminate; constructor; cbn in H; apply andb_prop in H as [H1 H2]; auto. Qed.
Lemma spellings_tested k : forallb (fun name => existsb (fun ts => specTests name ts) (nameTests k)) (spellings k) = true.
Proof. destruct k; vm_compute; reflexivity. Qed.
Theorem C29_header_names : forall e k name n x r u,
  In name (spellings k) -> sameNoCase n name -> x = 58 \/ wsp x -> parseHName k e (mkst (n ++ x :: r) u) = Ok tt (mkst (x :: r) u).
Proof.
  intros e k name n x r u Hin Hs Hx. assert (Sx : isSep x = true) by (unfold isSep; destruct Hx as [->|[->| ->]]; reflexivity).
  pose proof (spellings_tested k) as H. rewrite forallb_forall in H. specialize (H name Hin). apply existsb_exists in H as (ts & Hts & Hsp). apply specTests_ok in Hsp.
  assert (Tk : forallb testOk ts = true) by (pose proof (nameTests_ok k) as K; rewrite forallb_forall in K; now apply K).
  destruct (spec_match name ts n x r Tk Hsp Hs Sx) as [M1 M2]. unfold parseHName. rewrite onRest_eq, (firstMatch_some (nameTests k) n x r); [reflexivity|apply nameTests_ok|exact M2|exact Sx|]. eauto.
Qed.
Print Assumptions C29_header_names.
Example C29_names_case : In (s2b "Content-Length") (spellings KContentLength) /\ sameNoCase (s2b "cONTENT-lENGTH") (s2b "Content-Length") /\ In (s2b "m") (spellings KContact) /\ sameNoCase (s2b "M") (s2b "m").
Proof. split; [left; reflexivity|]. split; [reflexivity|]. split; [right; left; reflexivity|reflexivity]. Qed.

(** ** C03 for the numeric headers *)
Definition numWidth (k : hkind) : N := match k with KMaxForwards => 256 | _ => 4294967296 end.
Lemma mod_mod64 w n : w = 256 \/ w = 4294967296 -> n mod 18446744073709551616 mod w = n mod w.
Proof.
  intros [->| ->]; [change 18446744073709551616 with (256 * 72057594037927936)|change 18446744073709551616 with (4294967296 * 4294967296)];
  rewrite N.mod_mul_r by discriminate; rewrite (N.mul_comm _ (_ mod _)), N.mod_add by discriminate; now rewrite N.mod_mod by discriminate.
Qed.
(** The value of RSeq, Expires, Max-Forwards and Content-Length headers is the number written, modulo the width of its field: exact iff it fits. *)
Theorem C03_header_numbers : forall e k r u n s', In k [KRSeq; KExpires; KMaxForwards; KContentLength] ->
  parseHVal k e (mkst r u) = Ok (VNum n) s' <->
  numberAt (numWidth k) r n (rest s') /\ used s' = u.
Proof.
  intros e k r u n s' Hk.
  assert (E : parseHVal k e (mkst r u) = match ParseUInt r with Some (v, _, r') => Ok (VNum (v mod numWidth k)) (mkst r' u) | None => Fail (mkst r u) end).
  { destruct Hk as [<-|[<-|[<-|[<-|[]]]]]; cbn [parseHVal numWidth]; unfold parseNum, pUIntW, pUInt, bind; rewrite onRest_eq; destruct (ParseUInt r) as [[[v c] r']|]; reflexivity. }
  assert (Wd : numWidth k = 256 \/ numWidth k = 4294967296) by (destruct Hk as [<-|[<-|[<-|[<-|[]]]]]; cbn; auto).
  rewrite E. split.
  - destruct (ParseUInt r) as [[[v c] r']|] eqn:Ep; [|discriminate]. intros [= <- <-]. apply ParseUInt_spec in Ep as (ds & H1 & H2 & H3 & H4 & -> & _). cbn [rest used]. split; [|reflexivity]. exists ds.
    split; [exact H1|]. split; [exact H2|]. split; [exact H3|]. split; [exact H4|]. now apply mod_mod64.
  - intros ((ds & H1 & H2 & H3 & H4 & ->) & H6). assert (Ep : ParseUInt r = Some (decVal ds mod two64, len ds, rest s')) by (apply ParseUInt_spec; exists ds; auto 8).
    rewrite Ep. unfold two64. rewrite mod_mod64 by exact Wd. destruct s' as [r' u']. cbn in *. now subst.
Qed.
Print Assumptions C03_header_numbers.
Example C03_header_case : exists s', parseHVal KMaxForwards (exNet (Some 100)) (mkst (s2b "0070" ++ CRLF) 8) = Ok (VNum 70) s'.
Proof. eexists. vm_compute. reflexivity. Qed.
Lemma uintW_inv w e s v s' : w = 256 \/ w = 4294967296 -> pUIntW w e s = Ok v s' -> numberAt w (rest s) v (rest s').
Proof.
  intros Hw E. unfold pUIntW in E. apply bind_inv in E as (v0 & s1 & E1 & E2). injection E2 as <- <-. unfold pUInt in E1. destruct s as [r u]. rewrite onRest_eq in E1.
  destruct (ParseUInt r) as [[[v c] r']|] eqn:Ep; [|discriminate]. injection E1 as <- <-. apply ParseUInt_spec in Ep as (ds & H1 & H2 & H3 & H4 & -> & _).
  exists ds. cbn [rest]. repeat (split; [assumption|]). now apply mod_mod64.
Qed.
Lemma lws_inv e s s' : pLWS e s = Ok tt s' -> exists w, rest s = w ++ rest s' /\ (w = [] \/ LWS w).
Proof.
  unfold pLWS, liftB. intros E. destruct (ParseLWS (rest s)) as [r' b] eqn:P. destruct b; [|discriminate]. injection E as <-. cbn [rest].
  pose proof (ParseSWS_consumes (rest s)) as H. unfold ParseSWS_2 in H. rewrite P in H.
  destruct (rest s) as [|x r] eqn:Er; [vm_compute in P; injection P as <-; exact H|]. destruct (IsLwsChar x) eqn:L; cbn [negb] in H; [exact H|].
  assert (N1 : ~ startsWsp (x :: r)) by (intros (y & t & [= <- <-] & [->| ->]); discriminate).
  assert (N2 : ~ startsCRLF (x :: r)) by (intros (t & [= -> _]); discriminate).
  pose proof (ParseLWS_plain [] (x :: r) (Forall_nil _) N1 N2) as Q. cbn [app] in Q. rewrite P in Q. injection Q as ->. exact H.
Qed.
(** CSeq: a number. RAck: two numbers separated by white space (which may be missing only if the second number would be empty: the digits are read greedily). *)
Theorem C03_cseq_number : forall e s n m s', parseHVal KCSeq e s = Ok (VCSeq n m) s' -> exists k, numberAt 4294967296 (rest s) n k.
Proof. intros e s n m s' E. cbn [parseHVal] in E. unfold parseCSeq in E. apply bind_inv in E as (v & s1 & E1 & E2). apply bind_inv in E2 as ([] & s2 & _ & E2). apply bind_inv in E2 as (m0 & s3 & _ & E2).
  injection E2 as <- <- _. exists (rest s1). apply uintW_inv in E1; [exact E1|now right]. Qed.
Print Assumptions C03_cseq_number.
Theorem C03_rack_numbers : forall e s n c m s', parseHVal KRAck e s = Ok (VRAck n c m) s' ->
  exists w k k', numberAt 4294967296 (rest s) n (w ++ k) /\ LWS w /\ numberAt 4294967296 k c k'.
Proof.
  intros e s n c m s' E. cbn [parseHVal] in E. unfold parseRAck in E. apply bind_inv in E as (v & s1 & E1 & E2). apply bind_inv in E2 as ([] & s2 & E3 & E2). apply bind_inv in E2 as (c0 & s3 & E4 & E2).
  apply bind_inv in E2 as ([] & s4 & _ & E2). apply bind_inv in E2 as (m0 & s5 & _ & E2). injection E2 as <- <- <- _. apply uintW_inv in E1; [|now right]. apply uintW_inv in E4; [|now right].
  apply lws_inv in E3 as (w & Hw & L). exists w, (rest s2), (rest s3). rewrite Hw in E1. split; [exact E1|]. split; [|exact E4].
  destruct L as [->|L]; [exfalso|exact L]. destruct E1 as (ds & _ & _ & _ & M & _). destruct E4 as (ds2 & H1 & H2 & H3 & _). destruct ds2 as [|d ds2]; [congruence|].
  cbn [app] in H1, M. cbn [forallb] in H3. rewrite (M d _ H1) in H3. discriminate.
Qed.
Print Assumptions C03_rack_numbers.
Example C03_rack_case : exists s', parseHVal KRAck (exNet (Some 100)) (mkst (s2b "12 4294967299 INVITE" ++ CRLF) 8) = Ok (VRAck 12 3 (MKnown SIP_METHOD_INVITE)) s'.
Proof. eexists. vm_compute. reflexivity. Qed.
Theorem C03_headers_refuted : exists e s1 s2 s3, parseHeader KMaxForwards e (mkst (s2b "Max-Forwards: 326") 8) = Ok (VNum 70) s1 /\ parseHeader KExpires e (mkst (s2b "Expires: 4294967296") 8) = Ok (VNum 0) s2 /\
  parseHeader KCSeq e (mkst (s2b "CSeq: 4294967297 ACK" ++ CRLF) 8) = Ok (VCSeq 1 (MKnown SIP_METHOD_ACK)) s3.
Proof. exists (exNet (Some 100)). eexists. eexists. eexists. split; [vm_compute; reflexivity|]. split; vm_compute; reflexivity. Qed.
Print Assumptions C03_headers_refuted.
