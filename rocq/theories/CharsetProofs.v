(** The shipped table against the RFC classes, for all 256 bytes. *)
From Verif Require Import Base Charset CharsetSpec BaseLemmas.

Definition agrees (cs : charset) (spec : N -> bool) : Prop := forall b, b < 256 -> inset cs b = spec b.
(** Agreement except on the listed bytes, where the two answers differ. *)
Definition agreesExcept (cs : charset) (spec : N -> bool) (ex : list N) : Prop :=
  forall b, b < 256 -> inset cs b = (if existsb (N.eqb b) ex then negb (spec b) else spec b).

Lemma agrees_sweep cs spec : forallb (fun b => Bool.eqb (inset cs b) (spec b)) all256 = true -> agrees cs spec.
Proof. intros H b Hb. apply eqb_prop. exact (sweep _ H b Hb). Qed.
Lemma agreesExcept_sweep cs spec ex :
  forallb (fun b => Bool.eqb (inset cs b) (if existsb (N.eqb b) ex then negb (spec b) else spec b)) all256 = true ->
  agreesExcept cs spec ex.
Proof. intros H b Hb. apply eqb_prop. exact (sweep _ H b Hb). Qed.

(** Classes that are exactly the RFC ones. *)
Lemma charsets_exact :
  agrees DIGIT rfcDIGIT /\ agrees ALPHA rfcALPHA /\ agrees LOWER rfcLOWER /\ agrees UPPER rfcUPPER /\
  agrees ALPHANUM rfcAlphanum /\ agrees LOWER_HEX_ALPHA rfcLHexAlpha /\ agrees UPPER_HEX_ALPHA rfcUHexAlpha /\
  agrees LOWER_HEX rfcLHex /\ agrees UPPER_HEX rfcUHex /\ agrees HEX rfcHEXDIG /\
  agrees CRLF_CHAR rfcCRLFchar /\ agrees WSP_CHAR rfcWSP /\ agrees LWS_CHAR rfcLWSchar /\
  agrees UTF8_CHAR rfcTextUTF8char /\ agrees HOSTNAME rfcHostname /\ agrees URI_UNRESERVED rfcUnreserved /\
  agrees URI_RESERVED rfcReserved /\ agrees URI_SCHEME rfcScheme /\ agrees URI_URIC rfcUric /\
  agrees URI_URIC_NO_SLASH rfcUricNoSlash /\ agrees URI_PCHAR rfcPchar /\ agrees URI_REG_NAME rfcRegName /\
  agrees SIP_TOKEN rfcToken /\ agrees SIP_QUOTED_PAIR rfcQuotedPair /\
  agrees SIP_USER rfcUser /\ agrees SIP_PASSWORD rfcPassword /\
  agrees SIP_PNAME rfcPname /\ agrees SIP_PVALUE rfcPname /\ agrees SIP_HNAME rfcHname /\ agrees SIP_HVALUE rfcHname /\
  agrees TEL_PHONE_DIGIT rfcPhoneDigit /\ agrees TEL_PNAME rfcTelPname /\ agrees TEL_PVALUE rfcTelPvalue /\
  agrees TEL_VISUAL_SPERATOR rfcVisualSep.
Proof. repeat apply conj; apply agrees_sweep; vm_compute; reflexivity. Qed.

(** Classes that deviate, with exactly the deviating bytes: HTAB (9) was written 0x0b (VT) in
    separators and reason-phrase, "/" (47) is missing from separators and from word (so a Call-ID containing "/" is cut), UTF-8 continuation bytes
    are missing from qdtext and comment text, "*" and "#" are missing from phonedigit-hex. *)
Definition utf8conts : list N := map N.of_nat (seq 128 64).
Lemma charsets_deviating :
  agreesExcept SIP_SEPARATORS rfcSeparators [9; 11; 47] /\
  agreesExcept SIP_WORD rfcWord [47] /\
  agreesExcept SIP_REASON_PHRASE rfcReason [9; 11] /\
  agreesExcept SIP_QUOTED_TEXT rfcQdtext utf8conts /\
  agreesExcept SIP_COMMENT rfcComment utf8conts /\
  agreesExcept TEL_PHONE_DIGIT_HEX rfcPhoneDigitHex [42; 35].
Proof. repeat apply conj; apply agreesExcept_sweep; vm_compute; reflexivity. Qed.
