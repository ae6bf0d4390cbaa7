(** The languages the parsers accept, written as grammars, independently of the parsers. [XRead t v k]: the text [t], when [k] follows it, is
    read as the value [v]. The premises about [k] say where reading stops: they are part of the language because the grammars overlap
    (";x" may continue a URI or follow it). *)
From Verif Require Import Base BaseLemmas Charset CharsetSpec NumSpec LwsSpec StrSpec QuotedSpec Monad Host HostSpec Uri UriSpec Tel TelSpec GenParam GenParamSpec Addr.

(** The next byte is not [c]. *)
Definition notNext (c : N) (k : bytes) : Prop := forall k', k <> c :: k'.
(** A decimal number, read modulo 2^64. *)
Definition NumberRead (t : bytes) (n : N) (k : bytes) : Prop :=
  t <> [] /\ forallb rfcDIGIT t = true /\ stops rfcDIGIT k = true /\ n = decVal t mod 18446744073709551616.
(** A run of bytes of a class, with escapes "%" HEXDIG HEXDIG, up to a byte that cannot continue it. *)
Definition EscRead (cls : N -> bool) (t v k : bytes) : Prop := Decodes cls t v /\ endsRun cls k.
(** A run of bytes of a class. *)
Definition RunRead (cls : N -> bool) (t v k : bytes) : Prop := t <> [] /\ v = t /\ forallb cls t = true /\ stops cls k = true.

(** ** Host and port *)
Inductive HostRead (e : env) : bytes -> host -> bytes -> Prop :=
| HR6 t ip k : ~ In 93 t -> ipParse e t = Some ip -> HostRead e (91 :: t ++ [93]) (HIpv6 ip) k
| HR4 t a b c d k : DottedQuad t a b c d -> stops rfcHostname k = true -> HostRead e t (HIpv4 a b c d) k
| HRname n k : HostNameText n -> stops rfcHostname k = true -> HostRead e n (HName n) k.
Inductive HostPortRead (e : env) : bytes -> hostport -> bytes -> Prop :=
| HPhost t h k : HostRead e t h k -> notNext 58 k -> HostPortRead e t (mkhp h None) k
| HPport t h ds p k : HostRead e t h (58 :: ds ++ k) -> NumberRead ds p k -> p <= 65535 -> HostPortRead e (t ++ 58 :: ds) (mkhp h (Some p)) k.

(** ** Lists of parameters *)
(** Items separated by one byte. A separator at the very end of the input is swallowed. *)
Inductive SepRead {A} (c : N) (One : bytes -> A -> bytes -> Prop) : bytes -> list A -> bytes -> Prop :=
| SepOne t p k : One t p k -> notNext c k -> SepRead c One t [p] k
| SepEnd t p : One t p [c] -> SepRead c One (t ++ [c]) [p] []
| SepMore t p t' ps k : One t p (c :: t' ++ k) -> SepRead c One t' ps k -> SepRead c One (t ++ c :: t') (p :: ps) k.
(** A parameter of a URI: a name, or name "=" value; neither is empty. *)
Inductive ParamRead : bytes -> uparam -> bytes -> Prop :=
| PRbare t n k : EscRead rfcPname t n k -> n <> [] -> notNext 61 k -> ParamRead t (mkup n None) k
| PRval t n tv v k : EscRead rfcPname t n (61 :: tv ++ k) -> n <> [] -> EscRead rfcPname tv v k -> v <> [] -> ParamRead (t ++ 61 :: tv) (mkup n (Some v)) k.
(** A header of a URI: name "=" value; the value may be empty. At the end of the input an empty value is not seen. *)
Inductive HeaderRead : bytes -> uparam -> bytes -> Prop :=
| HRval t n tv v k : EscRead rfcHname t n (61 :: tv ++ k) -> n <> [] -> EscRead rfcHname tv v k -> tv ++ k <> [] -> HeaderRead (t ++ 61 :: tv) (mkup n (Some v)) k
| HRend t n : EscRead rfcHname t n [61] -> n <> [] -> HeaderRead (t ++ [61]) (mkup n None) [].
(** Recognised parameters: equal names up to letter case; the last one counts. *)
Definition isNamed {A} (name : A -> bytes) (n : bytes) (p : A) : bool := beq (map asciiLower (name p)) (map asciiLower n).
Definition isKnown {A} (name : A -> bytes) (names : list bytes) (p : A) : bool := existsb (fun n => isNamed name n p) names.
Definition lastNamed {A} (name : A -> bytes) (ps : list A) (n : bytes) : option A := hd_error (rev (filter (isNamed name n) ps)).
(** How the parameters in the text are distributed: those with a recognised name go to a table with one slot per name, the others stay in a list in
    their order. In an arena that is exhausted the table may be missing. *)
Inductive Sorted {A} (e : env) (on : bool) (name : A -> bytes) (names : list bytes) (ps : list A) : known A -> list A -> Prop :=
| SoOff : on = false -> Sorted e on name names ps None ps
| SoNone : on = true -> existsb (isKnown name names) ps = false -> Sorted e on name names ps None ps
| SoSome : on = true -> existsb (isKnown name names) ps = true ->
    Sorted e on name names ps (Some (map (lastNamed name ps) names)) (filter (fun p => negb (isKnown name names p)) ps)
| SoLost : on = true -> existsb (isKnown name names) ps = true -> memend e <> None ->
    Sorted e on name names ps None (filter (fun p => negb (isKnown name names p)) ps).

(** ** SIP URI *)
Inductive SipScheme : bytes -> bool -> Prop :=
| SchSip t : sameNoCase t (s2b "sip:") -> SipScheme t false
| SchSips t : sameNoCase t (s2b "sips:") -> SipScheme t true.
(** User part up to "@". It is absent only if no "@" comes before the next ">" or white space. *)
Inductive UserRead : bytes -> option bytes -> option bytes -> bytes -> Prop :=
| URnone k : noAt k -> UserRead [] None None k
| URuser t u k : Decodes rfcUser t u -> u <> [] -> UserRead (t ++ [64]) (Some u) None k
| URpass t u tp p k : Decodes rfcUser t u -> u <> [] -> Decodes rfcPassword tp p -> UserRead (t ++ 58 :: tp ++ [64]) (Some u) (Some p) k.
(** An optional part introduced by one byte. *)
Inductive OptRead {A} (c : N) (R : bytes -> list A -> bytes -> Prop) : bytes -> list A -> bytes -> Prop :=
| ORnone k : notNext c k -> OptRead c R [] [] k
| ORsome t ps k : R t ps k -> OptRead c R (c :: t) ps k.
(** What follows the scheme. *)
Inductive UriRead (e : env) (sec : bool) : bytes -> sipuri -> bytes -> Prop :=
| UrRead tu user pass th h tp ps ths hs kn others k :
    UserRead tu user pass (th ++ tp ++ ths ++ k) -> HostPortRead e th h (tp ++ ths ++ k) ->
    OptRead 59 (SepRead 59 ParamRead) tp ps (ths ++ k) -> OptRead 63 (SepRead 38 HeaderRead) ths hs k ->
    Sorted e (fSipUriKnown e) upName uriParamNames ps kn others ->
    UriRead e sec (tu ++ th ++ tp ++ ths) (mkuri sec user pass h kn others hs) k.
(** The form without parameters. *)
Inductive UriBareRead (e : env) (sec : bool) : bytes -> sipuri -> bytes -> Prop :=
| UrBare tu user pass th h k : UserRead tu user pass (th ++ k) -> HostPortRead e th h k -> UriBareRead e sec (tu ++ th) (mkuri sec user pass h None [] []) k.
Inductive SipUriRead (e : env) : bytes -> sipuri -> bytes -> Prop :=
| SipUR ts sec t u k : SipScheme ts sec -> UriRead e sec t u k -> SipUriRead e (ts ++ t) u k.

(** ** Telephone URI *)
(** "+" and digits, or hexadecimal digits, with visual separators; the separators are not kept. *)
Definition telChar (global : bool) (b : N) : bool := (if global then rfcDIGIT b else rfcHEXDIG b) || rfcVisualSep b.
Definition noSeps (t : bytes) : bytes := filter (fun b => negb (rfcVisualSep b)) t.
Inductive TelNumberRead : bytes -> bool -> bytes -> bytes -> Prop :=
| TNglobal t k : forallb (telChar true) t = true -> existsb rfcDIGIT t = true -> stops (telChar true) k = true -> TelNumberRead (43 :: t) true (43 :: noSeps t) k
| TNlocal t k : forallb (telChar false) t = true -> existsb rfcHEXDIG t = true -> stops (telChar false) k = true -> TelNumberRead t false (noSeps t) k.
(** The parameter "phone-context" is kept apart (the last one counts); it must have a value. A value starting with "+" is a number, of which the
    separators are not kept; any other is a domain. *)
Definition isContext (p : uparam) : bool := isNamed upName (s2b "phone-context") p.
Inductive ContextOf : option uparam -> option uparam -> bool -> Prop :=
| CoNone : ContextOf None None false
| CoDomain n x v : x <> 43 -> ContextOf (Some (mkup n (Some (x :: v)))) (Some (mkup n (Some (x :: v)))) true
| CoNumber n v : ContextOf (Some (mkup n (Some (43 :: v)))) (Some (mkup n (Some (43 :: noSeps v)))) false.
Inductive TelRead (e : env) : bytes -> teluri -> bytes -> Prop :=
| TlRead tn g n tp ps ctx dom kn others k :
    TelNumberRead tn g n (tp ++ k) -> OptRead 59 (SepRead 59 ParamRead) tp ps k ->
    Forall (fun p => isContext p = true -> upValue p <> None) ps -> ContextOf (hd_error (rev (filter isContext ps))) ctx dom ->
    Sorted e (fTelUriKnown e) upName telParamNames (filter (fun p => negb (isContext p)) ps) kn others ->
    TelRead e (tn ++ tp) (mktel g dom n ctx kn others) k.
Inductive TelBareRead : bytes -> teluri -> bytes -> Prop :=
| TlBare t g n k : TelNumberRead t g n k -> TelBareRead t (mktel g false n None None []) k.
Inductive TelUriRead (e : env) : bytes -> teluri -> bytes -> Prop :=
| TelUR ts t u k : TelScheme ts -> TelRead e t u k -> TelUriRead e (ts ++ t) u k.
