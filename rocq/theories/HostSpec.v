(** What a host is, independently of the parser. *)
From Verif Require Import Base Charset CharsetSpec NumSpec Host.

(** A dotted quad whose components, read modulo 2^64 as the library reads numbers, are at most 255. *)
Definition quadPart (ds : bytes) (v : N) : Prop :=
  ds <> [] /\ forallb isDec ds = true /\ decVal ds mod 18446744073709551616 = v /\ v <= 255.
Definition DottedQuad (t : bytes) (a b c d : N) : Prop := exists da db dc dd,
  t = da ++ 46 :: db ++ 46 :: dc ++ 46 :: dd /\ quadPart da a /\ quadPart db b /\ quadPart dc c /\ quadPart dd d.

(** A host name: one or more of letters, digits, "-" and ".", that is not read as an IPv4 address. *)
Definition HostNameText (n : bytes) : Prop :=
  n <> [] /\ forallb rfcHostname n = true /\ ~ (exists a b c d, DottedQuad n a b c d).

(** The assumption about Go's net package for one address: ParseIP inverts String on it, and the text consists of hexadecimal digits,
    ":" and ".". *)
Definition ipv6Char (b : N) : bool := rfcHEXDIG b || oneOf ":." b.
Definition netOK (e : env) (ip : bytes) : Prop := ipParse e (ipString e ip) = Some ip /\ forallb ipv6Char (ipString e ip) = true.

Definition wfHost (e : env) (h : host) : Prop :=
  match h with
  | HIpv4 a b c d => a < 256 /\ b < 256 /\ c < 256 /\ d < 256
  | HIpv6 ip => netOK e ip
  | HName n => HostNameText n
  | HUnknown => False
  end.
Definition wfHostPort (e : env) (h : hostport) : Prop :=
  wfHost e (hpHost h) /\ match hpPort h with Some p => p < 65536 | None => True end.

(** What may follow a host-port: not a host-name byte and not ":". *)
Definition hostEnds (k : bytes) : Prop := match k with [] => True | x :: _ => rfcHostname x = false /\ x <> 58 end.
