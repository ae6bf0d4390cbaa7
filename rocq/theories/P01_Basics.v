(** Properties C01-C04, C15 (first part), C16. *)
From Verif Require Import Base Charset CharsetSpec CharsetProofs BaseLemmas Num NumSpec NumProofs Lws LwsSpec LwsProofs.

(** C01. [agrees cs spec]: for every byte value the classifier answers as the RFC predicate does. *)
Theorem C01_classes_exact :
  agrees DIGIT rfcDIGIT /\ agrees ALPHA rfcALPHA /\ agrees LOWER rfcLOWER /\ agrees UPPER rfcUPPER /\
  agrees ALPHANUM rfcAlphanum /\ agrees LOWER_HEX_ALPHA rfcLHexAlpha /\ agrees UPPER_HEX_ALPHA rfcUHexAlpha /\
  agrees LOWER_HEX rfcLHex /\ agrees UPPER_HEX rfcUHex /\ agrees HEX rfcHEXDIG /\
  agrees CRLF_CHAR rfcCRLFchar /\ agrees WSP_CHAR rfcWSP /\ agrees LWS_CHAR rfcLWSchar /\
  agrees UTF8_CHAR rfcTextUTF8char /\ agrees HOSTNAME rfcHostname /\ agrees URI_UNRESERVED rfcUnreserved /\
  agrees URI_RESERVED rfcReserved /\ agrees URI_SCHEME rfcScheme /\ agrees URI_URIC rfcUric /\
  agrees URI_URIC_NO_SLASH rfcUricNoSlash /\ agrees URI_PCHAR rfcPchar /\ agrees URI_REG_NAME rfcRegName /\
  agrees SIP_TOKEN rfcToken /\ agrees SIP_QUOTED_PAIR rfcQuotedPair /\
  agrees SIP_USER rfcUser /\ agrees SIP_PASSWORD rfcPassword /\
  agrees SIP_PNAME rfcPname /\ agrees SIP_PVALUE rfcPname /\ agrees SIP_HNAME rfcHname /\ agrees SIP_HVALUE rfcHname /\
  agrees TEL_PHONE_DIGIT rfcPhoneDigit /\ agrees TEL_PNAME rfcTelPname /\ agrees TEL_PVALUE rfcTelPvalue /\
  agrees TEL_VISUAL_SPERATOR rfcVisualSep.
Proof. exact charsets_exact. Qed.
Print Assumptions C01_classes_exact.
Theorem C01_classes_deviating :
  agreesExcept SIP_SEPARATORS rfcSeparators [9; 11; 47] /\
  agreesExcept SIP_WORD rfcWord [47] /\
  agreesExcept SIP_REASON_PHRASE rfcReason [9; 11] /\
  agreesExcept SIP_QUOTED_TEXT rfcQdtext utf8conts /\
  agreesExcept SIP_COMMENT rfcComment utf8conts /\
  agreesExcept TEL_PHONE_DIGIT_HEX rfcPhoneDigitHex [42; 35].
Proof. exact charsets_deviating. Qed.
Print Assumptions C01_classes_deviating.

(** C02. *)
Theorem C02_parse_uint : forall r v n r',
  ParseUInt r = Some (v, n, r') <->
  exists ds, r = ds ++ r' /\ ds <> [] /\ forallb isDec ds = true /\
             (forall d t, r' = d :: t -> isDec d = false) /\
             v = decVal ds mod 18446744073709551616 /\ n = len ds.
Proof. exact ParseUInt_spec. Qed.
Print Assumptions C02_parse_uint.
Theorem C02_parse_uint_fails : forall r, ParseUInt r = None <-> (r = [] \/ exists d t, r = d :: t /\ isDec d = false).
Proof. exact ParseUInt_none. Qed.
Print Assumptions C02_parse_uint_fails.
Lemma parseW w r v n r' : ParseUIntW w r = Some (v, n, r') <-> exists v0, ParseUInt r = Some (v0, n, r') /\ v = v0 mod w.
Proof.
  unfold ParseUIntW. destruct (ParseUInt r) as [[[v0 n0] r0]|].
  - split; [intros [= <- <- <-]; eauto|]. intros (v1 & [= <- <- <-] & ->). reflexivity.
  - split; [discriminate|]. intros (v1 & H & _). discriminate.
Qed.
Theorem C02_parse_uint_truncated : forall r v n r',
  (ParseUInt32 r = Some (v, n, r') <-> exists v0, ParseUInt r = Some (v0, n, r') /\ v = v0 mod 4294967296) /\
  (ParseUInt16 r = Some (v, n, r') <-> exists v0, ParseUInt r = Some (v0, n, r') /\ v = v0 mod 65536) /\
  (ParseUInt8 r = Some (v, n, r') <-> exists v0, ParseUInt r = Some (v0, n, r') /\ v = v0 mod 256).
Proof. intros. repeat split; apply parseW. Qed.
Print Assumptions C02_parse_uint_truncated.
Example C02_case : ParseUInt (s2b "0042;") = Some (42, 4, s2b ";").
Proof. reflexivity. Qed.

(** C03 is false: numbers that do not fit are accepted with another value. *)
Theorem C03_numbers_refuted :
  (exists r v n r', ParseUInt r = Some (v, n, r') /\ r' = [] /\ decVal r <> v) /\
  (exists r v n r', ParseUInt32 r = Some (v, n, r') /\ r' = [] /\ decVal r <> v) /\
  (exists r v n r', ParseUInt16 r = Some (v, n, r') /\ r' = [] /\ decVal r <> v) /\
  (exists r v n r', ParseUInt8 r = Some (v, n, r') /\ r' = [] /\ decVal r <> v).
Proof.
  split; [|split; [|split]].
  - exists (s2b "18446744073709551617"), 1, 20, []. vm_compute. repeat split; discriminate.
  - exists (s2b "4294967297"), 1, 10, []. vm_compute. repeat split; discriminate.
  - exists (s2b "65737"), 201, 5, []. vm_compute. repeat split; discriminate.
  - exists (s2b "256"), 0, 3, []. vm_compute. repeat split; discriminate.
Qed.
Print Assumptions C03_numbers_refuted.
(** The exact statement: a number is read modulo the width of its field, so exactly when it fits. *)
Lemma mod_mod64 w n : In w [256; 65536; 4294967296; 18446744073709551616] -> n mod 18446744073709551616 mod w = n mod w.
Proof.
  intros [<-|[<-|[<-|[<-|[]]]]]; [change 18446744073709551616 with (256 * 72057594037927936)|change 18446744073709551616 with (65536 * 281474976710656)|
    change 18446744073709551616 with (4294967296 * 4294967296)|now rewrite N.mod_mod by discriminate];
  rewrite N.mod_mul_r by discriminate; rewrite (N.mul_comm _ (_ mod _)), N.mod_add by discriminate; now rewrite N.mod_mod by discriminate.
Qed.
Theorem C03_numbers : forall w r v n r', In w [256; 65536; 4294967296; 18446744073709551616] ->
  ParseUIntW w r = Some (v, n, r') <-> numberAt w r v r' /\ n = len r - len r'.
Proof.
  intros w r v n r' Hw. rewrite parseW. split.
  - intros (v0 & H & ->). apply ParseUInt_spec in H as (ds & H1 & H2 & H3 & H4 & -> & ->). split; [|subst r; rewrite len_app; lia].
    exists ds. repeat (split; [assumption|]). now apply mod_mod64.
  - intros ((ds & H1 & H2 & H3 & H4 & ->) & ->). exists (decVal ds mod two64). split; [|symmetry; now apply mod_mod64].
    apply ParseUInt_spec. exists ds. repeat (split; [assumption|]). split; [reflexivity|]. subst r. rewrite len_app. lia.
Qed.
Print Assumptions C03_numbers.
Theorem C03_exact_iff_fits : forall w ds k, In w [256; 65536; 4294967296; 18446744073709551616] -> ds <> [] -> forallb isDec ds = true -> (forall d t, k = d :: t -> isDec d = false) ->
  exists v, ParseUIntW w (ds ++ k) = Some (v, len ds, k) /\ (v = decVal ds <-> decVal ds < w).
Proof.
  intros w ds k Hw H1 H2 H3. exists (decVal ds mod w). split.
  - apply C03_numbers; [exact Hw|]. split; [|rewrite len_app; lia]. exists ds. repeat (split; [first [reflexivity|assumption]|]). reflexivity.
  - assert (w <> 0) by (destruct Hw as [<-|[<-|[<-|[<-|[]]]]]; discriminate). split; intros E; [rewrite <- E; now apply N.mod_lt|now apply N.mod_small].
Qed.
Print Assumptions C03_exact_iff_fits.
Example C03_case : ParseUIntW 256 (s2b "070;") = Some (70, 3, s2b ";") /\ ParseUIntW 256 (s2b "326;") = Some (70, 3, s2b ";").
Proof. split; reflexivity. Qed.

(** C04. *)
Theorem C04_encode_canonical : forall n, n < 18446744073709551616 ->
  exists ds, EncodeUInt n = Some ds /\ EncodeUInt2 n = Some ds /\ canonical ds /\ decVal ds = n /\
    forall r, (forall d t, r = d :: t -> isDec d = false) -> ParseUInt (ds ++ r) = Some (n, len ds, r).
Proof.
  intros n Hn. destruct (EncodeUInt_spec n Hn) as (ds & H1 & H2 & H3). exists ds. rewrite EncodeUInt2_eq.
  repeat split; auto; try apply H2. intros r Hr. apply ParseUInt_spec. exists ds. destruct H2 as (Hne & Hall & _). rewrite H3.
  repeat split; auto. symmetry. apply N.mod_small. exact Hn.
Qed.
Print Assumptions C04_encode_canonical.
Theorem C04_encode32 : forall n, n < 4294967296 -> exists ds, EncodeUInt32 n = Some ds /\ canonical ds /\ decVal ds = n.
Proof. exact EncodeUInt32_spec. Qed.
Print Assumptions C04_encode32.
Theorem C04_encode_byte : forall v, v < 256 -> canonical (WriteByteAsString v) /\ decVal (WriteByteAsString v) = v.
Proof. exact WriteByteAsString_spec. Qed.
Print Assumptions C04_encode_byte.
(** Right-aligned: enough blanks to reach the width (none when the digits are longer), then the digits. *)
Theorem C04_encode_width : forall n w, n < 18446744073709551616 ->
  exists ds k, EncodeUIntWithWidth n w = Some (repeat 32 k ++ ds) /\ canonical ds /\ decVal ds = n /\
    k = Z.to_nat (w - Z.of_nat (List.length ds)) /\ (Z.of_nat (List.length (repeat 32 k ++ ds)) = Z.max w (Z.of_nat (List.length ds))).
Proof.
  intros n w Hn. destruct (EncodeWithWidth_spec 32 n w) as (ds & H1 & H2 & H3).
  { eapply N.lt_trans; [exact Hn|]. exact two64_pow. }
  exists ds, (Z.to_nat (w - Z.of_nat (List.length ds))). split; [exact H1|]. split; [assumption|]. split; [assumption|]. split; [reflexivity|].
  rewrite app_length, repeat_length. lia.
Qed.
Print Assumptions C04_encode_width.
Theorem C04_encode32_width : forall n w, n < 4294967296 ->
  exists ds k, EncodeUInt32WithWidth n w = Some (repeat 32 k ++ ds) /\ canonical ds /\ decVal ds = n /\
    k = Z.to_nat (w - Z.of_nat (List.length ds)).
Proof.
  intros n w Hn. destruct (EncodeWithWidth_spec 16 n w) as (ds & H1 & H2 & H3).
  { eapply N.lt_trans; [exact Hn|]. exact two32_pow. }
  exists ds, (Z.to_nat (w - Z.of_nat (List.length ds))). split; [exact H1|]. auto.
Qed.
Print Assumptions C04_encode32_width.
Example C04_case : EncodeUIntWithWidth 305 6 = Some (s2b "   305").
Proof. reflexivity. Qed.

(** C15, first part: scanner twins. *)
Theorem C15_twins : forall r,
  ParseUInt_2 r = match ParseUInt r with Some (v, _, r') => Some (v, r') | None => None end /\
  ParseLWS_2 r = ParseLWS r /\ ParseSWS r = ParseSWS_2 r /\ ParseHcolon2 r = ParseHcolon r /\
  (forall m, ParseSWSMark_2 m r = ParseSWSMark m r) /\
  ParseLeftAngleQuote2 r = ParseLeftAngleQuote r /\ ParseRightAngleQuote2 r = ParseRightAngleQuote r /\
  ParseCRLF2 r = ParseCRLF r.
Proof.
  intros r. repeat apply conj; auto using ParseUInt_2_eq, ParseLWS_2_eq, ParseSWS_eq, ParseHcolon2_eq,
    ParseSWSMark_2_eq, ParseLeftAngleQuote2_eq, ParseRightAngleQuote2_eq, ParseCRLF2_eq.
Qed.
Print Assumptions C15_twins.
Theorem C15_encode_twins : forall n, EncodeUInt2 n = EncodeUInt n.
Proof. exact EncodeUInt2_eq. Qed.
Print Assumptions C15_encode_twins.
(** One pair is not interchangeable: they leave different positions when the mark is absent. *)
Theorem C15_mark_can_omit_refuted : exists m r, ParseSWSMarkCanOmmit m r <> ParseSWSMarkCanOmmit_2 m r.
Proof. exists 61, (s2b " x"). vm_compute. discriminate. Qed.
Print Assumptions C15_mark_can_omit_refuted.
Theorem C15_mark_can_omit_exact : forall m r,
  let '(r2, m2, ok2) := ParseSWSMarkCanOmmit_2 m r in
  let '(r1, m1, ok1) := ParseSWSMarkCanOmmit m r in
  m1 = m2 /\ ok1 = ok2 /\
  (if (ok1 && negb m1)%bool then r2 = r /\ r1 = ParseSWS_2 r else r1 = r2).
Proof. exact ParseSWSMarkCanOmmit_2_rel. Qed.
Print Assumptions C15_mark_can_omit_exact.

(** C16. *)
Theorem C16_sws_exact : forall r r', ParseSWS r = r' <-> SWS r r'.
Proof. intros. rewrite ParseSWS_eq. apply ParseSWS_spec. Qed.
Print Assumptions C16_sws_exact.
Theorem C16_sws_consumes_lws : forall r, exists w, r = w ++ ParseSWS r /\ (w = [] \/ LWS w).
Proof. intros. rewrite ParseSWS_eq. apply ParseSWS_consumes. Qed.
Print Assumptions C16_sws_consumes_lws.
Theorem C16_line_end_kept : forall r, ~ startsWsp r -> ParseSWS (13 :: 10 :: r) = 13 :: 10 :: r.
Proof. intros. rewrite ParseSWS_eq. now apply ParseSWS_eol. Qed.
Print Assumptions C16_line_end_kept.
Example C16_case : ParseSWS (s2b " " ++ [13; 10; 9; 32] ++ s2b "x") = s2b "x" /\ ~ startsWsp (s2b "Via").
Proof. split; [reflexivity|]. intros (x & t & [= <- <-] & [H|H]); discriminate. Qed.
