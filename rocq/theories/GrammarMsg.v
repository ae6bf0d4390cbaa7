(** The languages of addresses, generic parameters, start lines and headers, written as grammars like those of GrammarSpec: [XRead t v k] says that the
    text [t], when [k] follows it, is read as the value [v]. *)
From Verif Require Import Base BaseLemmas Charset CharsetSpec NumSpec LwsSpec StrSpec QuotedSpec NameSpec Monad Host HostSpec Uri UriSpec Tel TelSpec GenParam GenParamSpec Addr AddrSpec
  StartLine StartLineSpec Headers HeadersSpec GrammarSpec.

(** ** White space *)
(** Separating white space, possibly empty: at a real line end nothing is skipped (see [SWS]). *)
Definition Skip (t k : bytes) : Prop := SWS (t ++ k) k.
(** The same where a line end that is not folded is an error. *)
Inductive Blanks : bytes -> bytes -> Prop :=
| BlPlain w k : Forall wsp w -> ~ startsWsp k -> ~ startsCRLF k -> Blanks w k
| BlFold w1 w2 k : Forall wsp w1 -> w2 <> [] -> Forall wsp w2 -> ~ startsWsp k -> Blanks (w1 ++ 13 :: 10 :: w2) k.
(** A separator byte with white space around it. *)
Definition Mark (c : N) (t k : bytes) : Prop := exists a b, t = a ++ c :: b /\ Skip a (c :: b ++ k) /\ Skip b k.
(** The colon after a header name: before it only blanks. *)
Definition Colon (t k : bytes) : Prop := exists a b, t = a ++ 58 :: b /\ Forall wsp a /\ Skip b k.

(** ** Generic parameters *)
Definition TokenRead (t v k : bytes) : Prop := RunRead rfcToken t v k.
(** A quoted string, with white space before it. Of a folded line end inside the LF is stored as a second CR. *)
Inductive QuotedRead : bytes -> bytes -> bytes -> Prop :=
| QuRead a src v k : Skip a (34 :: src ++ 34 :: k) -> QText qdChar rfcWSP src v -> QuotedRead (a ++ 34 :: src ++ [34]) v k.
Inductive GenValueRead : bytes -> gvalue -> bytes -> Prop :=
| GVtoken t v k : TokenRead t v k -> GenValueRead t (GToken v) k
| GVquoted t v k : QuotedRead t v k -> GenValueRead t (GQuoted v) k
| GVbracket x k : ~ In 93 x -> GenValueRead (91 :: x ++ [93]) (GBracket (91 :: x ++ [93])) k.
(** A name, or name "=" value. White space after a bare name is swallowed, but it must not end the input. *)
Inductive GenParamRead : bytes -> gparam -> bytes -> Prop :=
| GPbare t n w k : TokenRead t n (w ++ k) -> Skip w k -> notNext 61 k -> (k = [] -> w = []) -> GenParamRead (t ++ w) (mkgp n None) k
| GPvalue t n m tv v k : TokenRead t n (m ++ tv ++ k) -> Mark 61 m (tv ++ k) -> GenValueRead tv v k -> GenParamRead (t ++ m ++ tv) (mkgp n (Some v)) k.
(** Parameters, each introduced by ";". They end where no ";" follows, possibly behind white space, which is then not swallowed; white space must not end the input. *)
Inductive GenListRead : bytes -> list gparam -> bytes -> Prop :=
| GLnil k : (k = [] \/ exists w k', k = w ++ k' /\ Skip w k' /\ k' <> [] /\ notNext 59 k') -> GenListRead [] [] k
| GLcons m t p ts ps k : Mark 59 m (t ++ ts ++ k) -> GenParamRead t p (ts ++ k) -> GenListRead ts ps k -> GenListRead (m ++ t ++ ts) (p :: ps) k.
Inductive GenParamsRead (e : env) (on : bool) (names : list bytes) : bytes -> known gparam -> list gparam -> bytes -> Prop :=
| GPSRead t ps kn others k : GenListRead t ps k -> Sorted e on gpName names ps kn others -> GenParamsRead e on names t kn others k.

(** ** Addresses *)
(** A URI after its scheme is known; [params]: whether parameters and headers belong to it. *)
Inductive AUriRead (e : env) (params : bool) : bytes -> auri -> bytes -> Prop :=
| AUsip ts sec t u k : SipScheme ts sec -> (if params then UriRead e sec t u k else UriBareRead e sec t u k) -> AUriRead e params (ts ++ t) (ASip u) k
| AUtel ts t u k : sameNoCase ts (s2b "tel:") -> (if params then TelRead e t u k else TelBareRead t u k) -> AUriRead e params (ts ++ t) (ATel u) k.
(** Tokens, each followed by white space. *)
Inductive TokensRead : bytes -> bytes -> Prop :=
| TkNil k : stops rfcToken k = true -> TokensRead [] k
| TkCons t w ts k : TokenRead t t (w ++ ts ++ k) -> Blanks w (ts ++ k) -> TokensRead ts k -> TokensRead (t ++ w ++ ts) k.
(** A display name: tokens, kept with the white space between and after them, or a quoted string (marked). *)
Inductive DisplayRead : bytes -> bool * bytes -> bytes -> Prop :=
| DRtokens t k : t <> [] -> TokensRead t k -> DisplayRead t (false, t) k
| DRquoted t v k : QuotedRead t v k -> DisplayRead t (true, v) k.
Inductive NameAddrRead (e : env) : bytes -> addr -> bytes -> Prop :=
| NAnone a tu u b k : Skip a (60 :: tu ++ 62 :: b ++ k) -> AUriRead e true tu u (62 :: b ++ k) -> Skip b k ->
    NameAddrRead e (a ++ 60 :: tu ++ 62 :: b) (mkaddr true None u) k
| NAname a td n c tu u b k : Skip a (td ++ c ++ 60 :: tu ++ 62 :: b ++ k) -> DisplayRead td n (c ++ 60 :: tu ++ 62 :: b ++ k) -> Skip c (60 :: tu ++ 62 :: b ++ k) ->
    AUriRead e true tu u (62 :: b ++ k) -> Skip b k -> NameAddrRead e (a ++ td ++ c ++ 60 :: tu ++ 62 :: b) (mkaddr true (Some n) u) k.
Inductive AddrRead (e : env) (params : bool) : bytes -> addr -> bytes -> Prop :=
| ARbare t u k : AUriRead e params t u k -> AddrRead e params t (mkaddr false None u) k
| ARname t a k : NameAddrRead e t a k -> AddrRead e params t a k.

(** ** Start line *)
(** A decimal number, read modulo [w]. *)
Definition WordRead (w : N) (t : bytes) (n : N) (k : bytes) : Prop := t <> [] /\ forallb rfcDIGIT t = true /\ stops rfcDIGIT k = true /\ n = decVal t mod w.
(** A method of the table, or any other token; "P", "IN" and "RE" at the end of the input are not read (the parser crashes). *)
Inductive MethodRead : bytes -> method -> bytes -> Prop :=
| MRknown name i k : In (name, i) methodNames -> stops rfcToken k = true -> MethodRead name (MKnown i) k
| MRother t k : TokenRead t t k -> (forall i, ~ In (t, i) methodNames) -> (k = [] -> ~ In t [s2b "P"; s2b "IN"; s2b "RE"]) -> MethodRead t (MOther t) k.
(** The version behind "SIP/". *)
Inductive VersionRead : bytes -> version -> bytes -> Prop :=
| VR20 k : stops rfcDIGIT k = true -> VersionRead (s2b "2.0") V20 k
| VRother a b k : a <> [] -> b <> [] -> forallb rfcDIGIT a = true -> forallb rfcDIGIT b = true -> stops rfcDIGIT k = true -> a ++ 46 :: b <> s2b "2.0" ->
    VersionRead (a ++ 46 :: b) (VOther (a ++ 46 :: b)) k.
(** The reason phrase: the class of the RFC, but without HTAB and with VT (11) instead. *)
Definition reasonChar (b : N) : bool := (rfcReason b && negb (b =? 9)) || (b =? 11).
Inductive StartLineRead (e : env) : bytes -> startline -> bytes -> Prop :=
| SLrequest tm m tu u ts tv v k : MethodRead tm m (32 :: tu ++ 32 :: ts ++ tv ++ 13 :: 10 :: k) -> AUriRead e true tu u (32 :: ts ++ tv ++ 13 :: 10 :: k) ->
    sameNoCase ts (s2b "SIP/") -> VersionRead tv v (13 :: 10 :: k) ->
    StartLineRead e (tm ++ 32 :: tu ++ 32 :: ts ++ tv ++ [13; 10]) (SRequest m (mkaddr false None u) v) k
| SLstatus ts tv v tc c tr r k : sameNoCase ts (s2b "SIP/") -> VersionRead tv v (32 :: tc ++ 32 :: tr ++ 13 :: 10 :: k) -> WordRead 65536 tc c (32 :: tr ++ 13 :: 10 :: k) ->
    EscRead reasonChar tr r (13 :: 10 :: k) -> StartLineRead e (ts ++ tv ++ 32 :: tc ++ 32 :: tr ++ [13; 10]) (SStatus v c r) k.

(** ** Header values *)
Inductive ProtoRead : bytes -> sentproto -> bytes -> Prop :=
| PR20 t m k : sameNoCase t (s2b "SIP/2.0") -> Mark 47 m k -> ProtoRead (t ++ m) Proto20 k
| PRother tn n m tv v m' k : TokenRead tn n (m ++ tv ++ m' ++ k) -> Mark 47 m (tv ++ m' ++ k) -> TokenRead tv v (m' ++ k) -> Mark 47 m' k ->
    (forall t x r, tn ++ m ++ tv ++ m' ++ k = t ++ x :: r -> sameNoCase t (s2b "SIP/2.0") -> rfcDIGIT x = true) -> ProtoRead (tn ++ m ++ tv ++ m') (ProtoOther n v) k.
(** Parameters of a header. *)
Definition ParamsRead (e : env) (h : hkind) : bytes -> known gparam -> list gparam -> bytes -> Prop := GenParamsRead e (recognise h e) (paramNames h).
Definition isAddrKind (h : hkind) : bool := match h with KFrom | KTo => true | _ => false end.
Definition isRouteKind (h : hkind) : bool := match h with KRoute | KRecordRoute | KPath | KServiceRoute => true | _ => false end.
Inductive ValueRead (e : env) : hkind -> bytes -> hval -> bytes -> Prop :=
| VRaddr h ta a tp kn ps k : isAddrKind h = true -> AddrRead e false ta a (tp ++ k) -> ParamsRead e h tp kn ps k -> ValueRead e h (ta ++ tp) (VAddr a kn ps) k
| VRroute h ta a tp kn ps k : isRouteKind h = true -> NameAddrRead e ta a (tp ++ k) -> ParamsRead e h tp kn ps k -> ValueRead e h (ta ++ tp) (VAddr a kn ps) k
| VRpai ta a k : AddrRead e false ta a k -> ValueRead e KPai ta (VAddr a None []) k
| VRstar a b k : Skip a (42 :: b ++ k) -> Skip b k -> ValueRead e KContact (a ++ 42 :: b) VStar k
| VRcontact s ta a tp kn ps k : Skip s (ta ++ tp ++ k) -> notNext 42 (ta ++ tp ++ k) -> AddrRead e false ta a (tp ++ k) -> ParamsRead e KContact tp kn ps k ->
    ValueRead e KContact (s ++ ta ++ tp) (VAddr a kn ps) k
| VRvia t1 p tt tr w th h tp kn ps k : ProtoRead t1 p (tt ++ w ++ th ++ tp ++ k) -> TokenRead tt tr (w ++ th ++ tp ++ k) -> Blanks w (th ++ tp ++ k) -> HostPortRead e th h (tp ++ k) ->
    ParamsRead e KVia tp kn ps k -> ValueRead e KVia (t1 ++ tt ++ w ++ th ++ tp) (VVia p tr h kn ps) k
| VRcseq t n w tm m k : WordRead 4294967296 t n (w ++ tm ++ k) -> Blanks w (tm ++ k) -> MethodRead tm m k -> ValueRead e KCSeq (t ++ w ++ tm) (VCSeq n m) k
| VRrack t r w t2 c w2 tm m k : WordRead 4294967296 t r (w ++ t2 ++ w2 ++ tm ++ k) -> Blanks w (t2 ++ w2 ++ tm ++ k) -> WordRead 4294967296 t2 c (w2 ++ tm ++ k) -> Blanks w2 (tm ++ k) ->
    MethodRead tm m k -> ValueRead e KRAck (t ++ w ++ t2 ++ w2 ++ tm) (VRAck r c m) k
| VRnum h t n k : In h [KRSeq; KExpires; KContentLength] -> WordRead 4294967296 t n k -> ValueRead e h t (VNum n) k
| VRhops t n k : WordRead 256 t n k -> ValueRead e KMaxForwards t (VNum n) k
| VRtype t m s t2 n tp kn ps k : TokenRead t m (s ++ t2 ++ tp ++ k) -> Mark 47 s (t2 ++ tp ++ k) -> TokenRead t2 n (tp ++ k) -> ParamsRead e KContentType tp kn ps k ->
    ValueRead e KContentType (t ++ s ++ t2 ++ tp) (VType m n kn ps) k
| VRdisp t d tp kn ps k : TokenRead t d (tp ++ k) -> ParamsRead e KContentDisposition tp kn ps k -> ValueRead e KContentDisposition (t ++ tp) (VDisp d kn ps) k
| VRcall t w k : RunRead callChar t w k -> notNext 64 k -> ValueRead e KCallID t (VCall w None) k
| VRcall2 t w t2 w2 k : RunRead callChar t w (64 :: t2 ++ k) -> RunRead callChar t2 w2 k -> ValueRead e KCallID (t ++ 64 :: t2) (VCall w (Some w2)) k.

(** ** Header lines *)
(** The names a header type answers to. "l", the compact form of Content-Length, is also taken by Content-Type and Content-Disposition. *)
Definition headNames (h : hkind) : list bytes :=
  match h with
  | KFrom => [s2b "From"; s2b "f"] | KTo => [s2b "To"; s2b "t"] | KVia => [s2b "Via"; s2b "v"] | KContact => [s2b "Contact"; s2b "m"] | KRoute => [s2b "Route"]
  | KRecordRoute => [s2b "Record-Route"] | KPath => [s2b "Path"] | KServiceRoute => [s2b "Service-Route"] | KPai => [s2b "P-Asserted-Identity"] | KCSeq => [s2b "CSeq"]
  | KRAck => [s2b "RAck"] | KRSeq => [s2b "RSeq"] | KExpires => [s2b "Expires"] | KMaxForwards => [s2b "Max-Forwards"] | KContentLength => [s2b "Content-Length"; s2b "l"]
  | KContentType => [s2b "Content-Type"; s2b "c"; s2b "l"] | KContentDisposition => [s2b "Content-Disposition"; s2b "l"] | KCallID => [s2b "Call-ID"; s2b "i"]
  end.
(** In these names a CR passes for the dash. *)
Definition crForDash (h : hkind) : bool := match h with KRecordRoute | KServiceRoute | KPai => true | _ => false end.
Definition HeadName (h : hkind) (t : bytes) : Prop :=
  exists name, In name (headNames h) /\ sameNoCase (map (fun x => if crForDash h && (x =? 13) then 45 else x) t) name.
Inductive LineRead (e : env) (h : hkind) : bytes -> hval -> bytes -> Prop :=
| LiRead tn tc t v k : HeadName h tn -> Colon tc (t ++ k) -> ValueRead e h t v k -> LineRead e h (tn ++ tc ++ t) v k.
