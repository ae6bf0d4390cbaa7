(** Independent transcription of the ABNF character classes of RFC 3261 section 25.1,
    RFC 3966 section 3 and RFC 2396. Nothing here refers to the Go table. *)
From Verif Require Import Base.

Definition rng (a z b : N) : bool := (a <=? b) && (b <=? z).
Definition oneOf (s : string) (b : N) : bool := existsb (N.eqb b) (s2b s).
Arguments oneOf s%string_scope b.

Definition rfcDIGIT b := rng 48 57 b.
Definition rfcLOWER b := rng 97 122 b.
Definition rfcUPPER b := rng 65 90 b.
Definition rfcALPHA b := rfcLOWER b || rfcUPPER b.
Definition rfcAlphanum b := rfcALPHA b || rfcDIGIT b.
Definition rfcLHexAlpha b := rng 97 102 b.
Definition rfcUHexAlpha b := rng 65 70 b.
Definition rfcLHex b := rfcDIGIT b || rfcLHexAlpha b.
Definition rfcUHex b := rfcDIGIT b || rfcUHexAlpha b.
Definition rfcHEXDIG b := rfcDIGIT b || rfcLHexAlpha b || rfcUHexAlpha b.
Definition rfcWSP b := (b =? 32) || (b =? 9).
Definition rfcCRLFchar b := (b =? 13) || (b =? 10).
Definition rfcLWSchar b := rfcWSP b || rfcCRLFchar b.
(** UTF8-NONASCII is a multi-byte production: lead bytes C0-FD followed by UTF8-CONT 80-BF. *)
Definition rfcUTF8lead b := rng 192 253 b.
Definition rfcUTF8cont b := rng 128 191 b.
Definition rfcUTF8nonascii b := rfcUTF8lead b || rfcUTF8cont b.
Definition rfcTextUTF8char b := rng 33 126 b || rfcUTF8nonascii b.
(** host = alphanum, "-" and "." *)
Definition rfcHostname b := rfcAlphanum b || oneOf "-." b.
Definition rfcMark b := oneOf "-_.!~*'()" b.
Definition rfcUnreserved b := rfcAlphanum b || rfcMark b.
Definition rfcReserved b := oneOf ";/?:@&=+$," b.
Definition rfcScheme b := rfcAlphanum b || oneOf "+-." b.
Definition rfcUric b := rfcReserved b || rfcUnreserved b.
Definition rfcUricNoSlash b := rfcUnreserved b || oneOf ";?:@&=+$," b.
Definition rfcPchar b := rfcUnreserved b || oneOf ":@&=+$," b.
Definition rfcRegName b := rfcUnreserved b || oneOf "$,;:@&=+" b.
Definition rfcToken b := rfcAlphanum b || oneOf "-.!%*_+`'~" b.
Definition rfcSeparators b := oneOf "()<>@,;:\/[]?={}" b || (b =? 34) || (b =? 32) || (b =? 9).
Definition rfcWord b := rfcAlphanum b || oneOf "-.!%*_+`'~()<>:\/[]?{}" b || (b =? 34).
Definition rfcQuotedPair b := rng 0 9 b || rng 11 12 b || rng 14 127 b.
Definition rfcQdtext b := rfcLWSchar b || (b =? 33) || rng 35 91 b || rng 93 126 b || rfcUTF8nonascii b.
(** every byte that can occur inside a comment: ctext / quoted-pair / nested comment *)
Definition rfcComment b := rng 0 127 b || rfcUTF8nonascii b.
Definition rfcUser b := rfcUnreserved b || oneOf "&=+$,;?/" b.
Definition rfcPassword b := rfcUnreserved b || oneOf "&=+$," b.
Definition rfcParamUnreserved b := oneOf "[]/:&+$" b.
Definition rfcPname b := rfcParamUnreserved b || rfcUnreserved b.
Definition rfcHnvUnreserved b := oneOf "[]/?:+$" b.
Definition rfcHname b := rfcHnvUnreserved b || rfcUnreserved b.
Definition rfcReason b := rfcReserved b || rfcUnreserved b || rfcUTF8nonascii b || (b =? 32) || (b =? 9).
Definition rfcVisualSep b := oneOf "-.()" b.
Definition rfcPhoneDigit b := rfcDIGIT b || rfcVisualSep b.
Definition rfcPhoneDigitHex b := rfcHEXDIG b || oneOf "*#" b || rfcVisualSep b.
(** RFC 3966: pname = 1*(alphanum / "-"); pvalue = 1*paramchar; paramchar = param-unreserved / unreserved. *)
Definition rfcTelPname b := rfcAlphanum b || (b =? 45).
Definition rfcTelPvalue b := rfcParamUnreserved b || rfcUnreserved b.
