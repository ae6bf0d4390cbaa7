(** GENERATED by tools/gen_charset.py from AbnfCharset.go: the character class table
    [g_charsets] (lines 3-520), the class constants and the classifier functions. *)
From Verif Require Import Base.

(** A class is (table index, bit mask), the two arguments (charsetIndex, mask) that the Go functions take. *)
Record charset := CS { csIndex : N; csMask : N }.

(** AbnfCharset.go:3 g_charsets[0] *)
Definition g_charsets0 : list N :=
 [
  167772160; 167772160; 167772160; 167772160; 167772160; 167772160; 167772160; 167772160;
  167772160; 234887168; 201331712; 176160768; 167772160; 201331712; 167772160; 167772160;
  167772160; 167772160; 167772160; 167772160; 167772160; 167772160; 167772160; 167772160;
  167772160; 167772160; 167772160; 167772160; 167772160; 167772160; 167772160; 167772160;
  243275776; 4286357504; 192946176; 234889216; 4265418752; 255860736; 4265418752; 4286357504;
  4290551808; 4290551808; 4286357504; 4286521344; 1052581888; 4286504960; 4286504960; 3724877824;
  4286505873; 4286505873; 4286505873; 4286505873; 4286505873; 4286505873; 4286505873; 4286505873;
  4286505873; 4286505873; 3485278208; 514662400; 260055040; 1052581888; 260055040; 529342464;
  247275520; 4286505818; 4286505818; 4286505818; 4286505818; 4286505818; 4286505818; 4286504986;
  4286504986; 4286504986; 4286504986; 4286504986; 4286504986; 4286504986; 4286504986; 4286504986;
  4286504986; 4286504986; 4286504986; 4286504986; 4286504986; 4286504986; 4286504986; 4286504986;
  4286504986; 4286504986; 4286504986; 3481280512; 192946176; 3481280512; 234889216; 4286357504;
  255860736; 4286505654; 4286505654; 4286505654; 4286505654; 4286505654; 4286505654; 4286504982;
  4286504982; 4286504982; 4286504982; 4286504982; 4286504982; 4286504982; 4286504982; 4286504982;
  4286504982; 4286504982; 4286504982; 4286504982; 4286504982; 4286504982; 4286504982; 4286504982;
  4286504982; 4286504982; 4286504982; 260055040; 234889216; 260055040; 4286357504; 167772160;
  8192; 8192; 8192; 8192; 8192; 8192; 8192; 8192;
  8192; 8192; 8192; 8192; 8192; 8192; 8192; 8192;
  8192; 8192; 8192; 8192; 8192; 8192; 8192; 8192;
  8192; 8192; 8192; 8192; 8192; 8192; 8192; 8192;
  8192; 8192; 8192; 8192; 8192; 8192; 8192; 8192;
  8192; 8192; 8192; 8192; 8192; 8192; 8192; 8192;
  8192; 8192; 8192; 8192; 8192; 8192; 8192; 8192;
  8192; 8192; 8192; 8192; 8192; 8192; 8192; 8192;
  201334784; 201334784; 201334784; 201334784; 201334784; 201334784; 201334784; 201334784;
  201334784; 201334784; 201334784; 201334784; 201334784; 201334784; 201334784; 201334784;
  201334784; 201334784; 201334784; 201334784; 201334784; 201334784; 201334784; 201334784;
  201334784; 201334784; 201334784; 201334784; 201334784; 201334784; 201334784; 201334784;
  201334784; 201334784; 201334784; 201334784; 201334784; 201334784; 201334784; 201334784;
  201334784; 201334784; 201334784; 201334784; 201334784; 201334784; 201334784; 201334784;
  201334784; 201334784; 201334784; 201334784; 201334784; 201334784; 201334784; 201334784;
  201334784; 201334784; 201334784; 201334784; 201334784; 201334784; 0; 0
 ].

(** AbnfCharset.go:3 g_charsets[1] *)
Definition g_charsets1 : list N :=
 [
  0; 0; 0; 0; 0; 0; 0; 0;
  0; 0; 0; 4; 0; 0; 0; 0;
  0; 0; 0; 0; 0; 0; 0; 0;
  0; 0; 0; 0; 0; 0; 0; 0;
  4; 71; 0; 0; 71; 0; 68; 71;
  223; 223; 71; 71; 4; 255; 223; 71;
  127; 127; 127; 127; 127; 127; 127; 127;
  127; 127; 71; 4; 0; 4; 0; 7;
  4; 119; 119; 119; 119; 119; 119; 103;
  103; 103; 103; 103; 103; 103; 103; 103;
  103; 103; 103; 103; 103; 103; 103; 103;
  103; 103; 103; 67; 0; 67; 0; 71;
  0; 119; 119; 119; 119; 119; 119; 103;
  103; 103; 103; 103; 103; 103; 103; 103;
  103; 103; 103; 103; 103; 103; 103; 103;
  103; 103; 103; 0; 0; 0; 71; 0;
  4; 4; 4; 4; 4; 4; 4; 4;
  4; 4; 4; 4; 4; 4; 4; 4;
  4; 4; 4; 4; 4; 4; 4; 4;
  4; 4; 4; 4; 4; 4; 4; 4;
  4; 4; 4; 4; 4; 4; 4; 4;
  4; 4; 4; 4; 4; 4; 4; 4;
  4; 4; 4; 4; 4; 4; 4; 4;
  4; 4; 4; 4; 4; 4; 4; 4;
  4; 4; 4; 4; 4; 4; 4; 4;
  4; 4; 4; 4; 4; 4; 4; 4;
  4; 4; 4; 4; 4; 4; 4; 4;
  4; 4; 4; 4; 4; 4; 4; 4;
  4; 4; 4; 4; 4; 4; 4; 4;
  4; 4; 4; 4; 4; 4; 4; 4;
  4; 4; 4; 4; 4; 4; 4; 4;
  4; 4; 4; 4; 4; 4; 0; 0
 ].

(** [charset[v] & mask != 0] for [charset = &g_charsets[charsetIndex]]. A byte is below 256, so
    the default of [nth] is never used on bytes. *)
Definition inset (cs : charset) (b : N) : bool :=
  negb (N.land (nth (N.to_nat b) (if csIndex cs =? 0 then g_charsets0 else g_charsets1) 0) (csMask cs) =? 0).

(** AbnfCharset.go:523 (index), :566 (mask), :608 (IsDigit). *)
Definition DIGIT : charset := CS 0 1.
Definition IsDigit (b : N) : bool := inset DIGIT b.

(** AbnfCharset.go:524 (index), :567 (mask), :612 (IsAlpha). *)
Definition ALPHA : charset := CS 0 2.
Definition IsAlpha (b : N) : bool := inset ALPHA b.

(** AbnfCharset.go:525 (index), :568 (mask), :616 (IsLower). *)
Definition LOWER : charset := CS 0 4.
Definition IsLower (b : N) : bool := inset LOWER b.

(** AbnfCharset.go:526 (index), :569 (mask), :620 (IsUpper). *)
Definition UPPER : charset := CS 0 8.
Definition IsUpper (b : N) : bool := inset UPPER b.

(** AbnfCharset.go:527 (index), :570 (mask), :624 (IsAlphanum). *)
Definition ALPHANUM : charset := CS 0 16.
Definition IsAlphanum (b : N) : bool := inset ALPHANUM b.

(** AbnfCharset.go:528 (index), :571 (mask), :628 (IsLowerHexAlpha). *)
Definition LOWER_HEX_ALPHA : charset := CS 0 32.
Definition IsLowerHexAlpha (b : N) : bool := inset LOWER_HEX_ALPHA b.

(** AbnfCharset.go:529 (index), :572 (mask), :632 (IsUpperHexAlpha). *)
Definition UPPER_HEX_ALPHA : charset := CS 0 64.
Definition IsUpperHexAlpha (b : N) : bool := inset UPPER_HEX_ALPHA b.

(** AbnfCharset.go:530 (index), :573 (mask), :636 (IsLowerHex). *)
Definition LOWER_HEX : charset := CS 0 128.
Definition IsLowerHex (b : N) : bool := inset LOWER_HEX b.

(** AbnfCharset.go:531 (index), :574 (mask), :640 (IsUpperHex). *)
Definition UPPER_HEX : charset := CS 0 256.
Definition IsUpperHex (b : N) : bool := inset UPPER_HEX b.

(** AbnfCharset.go:532 (index), :575 (mask), :644 (IsHex). *)
Definition HEX : charset := CS 0 512.
Definition IsHex (b : N) : bool := inset HEX b.

(** AbnfCharset.go:533 (index), :576 (mask), :648 (IsCrlfChar). *)
Definition CRLF_CHAR : charset := CS 0 1024.
Definition IsCrlfChar (b : N) : bool := inset CRLF_CHAR b.

(** AbnfCharset.go:534 (index), :577 (mask), :652 (IsWspChar). *)
Definition WSP_CHAR : charset := CS 0 2048.
Definition IsWspChar (b : N) : bool := inset WSP_CHAR b.

(** AbnfCharset.go:535 (index), :578 (mask), :656 (IsLwsChar). *)
Definition LWS_CHAR : charset := CS 0 4096.
Definition IsLwsChar (b : N) : bool := inset LWS_CHAR b.

(** AbnfCharset.go:536 (index), :579 (mask), :660 (IsUtf8Char). *)
Definition UTF8_CHAR : charset := CS 0 8192.
Definition IsUtf8Char (b : N) : bool := inset UTF8_CHAR b.

(** AbnfCharset.go:537 (index), :580 (mask), :664 (IsHostname). *)
Definition HOSTNAME : charset := CS 0 16384.
Definition IsHostname (b : N) : bool := inset HOSTNAME b.

(** AbnfCharset.go:538 (index), :581 (mask), :668 (IsUriUnreserved). *)
Definition URI_UNRESERVED : charset := CS 0 32768.
Definition IsUriUnreserved (b : N) : bool := inset URI_UNRESERVED b.

(** AbnfCharset.go:539 (index), :582 (mask), :672 (IsUriReserved). *)
Definition URI_RESERVED : charset := CS 0 65536.
Definition IsUriReserved (b : N) : bool := inset URI_RESERVED b.

(** AbnfCharset.go:540 (index), :583 (mask), :676 (IsUriScheme). *)
Definition URI_SCHEME : charset := CS 0 131072.
Definition IsUriScheme (b : N) : bool := inset URI_SCHEME b.

(** AbnfCharset.go:541 (index), :584 (mask), :680 (IsUriUric). *)
Definition URI_URIC : charset := CS 0 262144.
Definition IsUriUric (b : N) : bool := inset URI_URIC b.

(** AbnfCharset.go:542 (index), :585 (mask), :683 (IsUriUricNoSlash). *)
Definition URI_URIC_NO_SLASH : charset := CS 0 524288.
Definition IsUriUricNoSlash (b : N) : bool := inset URI_URIC_NO_SLASH b.

(** AbnfCharset.go:543 (index), :586 (mask), :687 (IsUriPchar). *)
Definition URI_PCHAR : charset := CS 0 1048576.
Definition IsUriPchar (b : N) : bool := inset URI_PCHAR b.

(** AbnfCharset.go:544 (index), :587 (mask), :691 (IsUriRegName). *)
Definition URI_REG_NAME : charset := CS 0 2097152.
Definition IsUriRegName (b : N) : bool := inset URI_REG_NAME b.

(** AbnfCharset.go:545 (index), :588 (mask), :695 (IsSipToken). *)
Definition SIP_TOKEN : charset := CS 0 4194304.
Definition IsSipToken (b : N) : bool := inset SIP_TOKEN b.

(** AbnfCharset.go:546 (index), :589 (mask), :698 (IsSipSeparators). *)
Definition SIP_SEPARATORS : charset := CS 0 8388608.
Definition IsSipSeparators (b : N) : bool := inset SIP_SEPARATORS b.

(** AbnfCharset.go:547 (index), :590 (mask), :701 (IsSipWord). *)
Definition SIP_WORD : charset := CS 0 16777216.
Definition IsSipWord (b : N) : bool := inset SIP_WORD b.

(** AbnfCharset.go:548 (index), :591 (mask), :705 (IsSipQuotedPair). *)
Definition SIP_QUOTED_PAIR : charset := CS 0 33554432.
Definition IsSipQuotedPair (b : N) : bool := inset SIP_QUOTED_PAIR b.

(** AbnfCharset.go:549 (index), :592 (mask), :709 (IsSipQuotedText). *)
Definition SIP_QUOTED_TEXT : charset := CS 0 67108864.
Definition IsSipQuotedText (b : N) : bool := inset SIP_QUOTED_TEXT b.

(** AbnfCharset.go:550 (index), :593 (mask), :713 (IsSipComment). *)
Definition SIP_COMMENT : charset := CS 0 134217728.
Definition IsSipComment (b : N) : bool := inset SIP_COMMENT b.

(** AbnfCharset.go:551 (index), :594 (mask), :717 (IsSipUser). *)
Definition SIP_USER : charset := CS 0 268435456.
Definition IsSipUser (b : N) : bool := inset SIP_USER b.

(** AbnfCharset.go:552 (index), :595 (mask), :721 (IsSipPassword). *)
Definition SIP_PASSWORD : charset := CS 0 536870912.
Definition IsSipPassword (b : N) : bool := inset SIP_PASSWORD b.

(** AbnfCharset.go:553 (index), :596 (mask), :725 (IsSipPname). *)
Definition SIP_PNAME : charset := CS 0 1073741824.
Definition IsSipPname (b : N) : bool := inset SIP_PNAME b.

(** AbnfCharset.go:554 (index), :597 (mask), :729 (IsSipPvalue). *)
Definition SIP_PVALUE : charset := CS 0 2147483648.
Definition IsSipPvalue (b : N) : bool := inset SIP_PVALUE b.

(** AbnfCharset.go:555 (index), :598 (mask), :733 (IsSipHname). *)
Definition SIP_HNAME : charset := CS 1 1.
Definition IsSipHname (b : N) : bool := inset SIP_HNAME b.

(** AbnfCharset.go:556 (index), :599 (mask), :737 (IsSipHvalue). *)
Definition SIP_HVALUE : charset := CS 1 2.
Definition IsSipHvalue (b : N) : bool := inset SIP_HVALUE b.

(** AbnfCharset.go:557 (index), :600 (mask), :741 (IsSipReasonPhrase). *)
Definition SIP_REASON_PHRASE : charset := CS 1 4.
Definition IsSipReasonPhrase (b : N) : bool := inset SIP_REASON_PHRASE b.

(** AbnfCharset.go:558 (index), :601 (mask), :745 (IsTelPhoneDigit). *)
Definition TEL_PHONE_DIGIT : charset := CS 1 8.
Definition IsTelPhoneDigit (b : N) : bool := inset TEL_PHONE_DIGIT b.

(** AbnfCharset.go:559 (index), :602 (mask), :749 (IsTelPhoneDigitHex). *)
Definition TEL_PHONE_DIGIT_HEX : charset := CS 1 16.
Definition IsTelPhoneDigitHex (b : N) : bool := inset TEL_PHONE_DIGIT_HEX b.

(** AbnfCharset.go:560 (index), :603 (mask), :753 (IsTelPname). *)
Definition TEL_PNAME : charset := CS 1 32.
Definition IsTelPname (b : N) : bool := inset TEL_PNAME b.

(** AbnfCharset.go:561 (index), :604 (mask), :757 (IsTelPvalue). *)
Definition TEL_PVALUE : charset := CS 1 64.
Definition IsTelPvalue (b : N) : bool := inset TEL_PVALUE b.

(** AbnfCharset.go:562 (index), :605 (mask), :761 (IsTelVisualSperator). *)
Definition TEL_VISUAL_SPERATOR : charset := CS 1 128.
Definition IsTelVisualSperator (b : N) : bool := inset TEL_VISUAL_SPERATOR b.
