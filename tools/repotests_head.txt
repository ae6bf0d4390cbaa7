(** The repository's own unit tests, run on the model: every row of the tables in the _test.go files of /repo that still compile (written by tools/repotests.py; do not edit).
    These are tests of the model (is it a model of this code?), not proofs of a property: no claim of MANIFEST.json rests on them. *)
From Verif Require Import Base Charset Num Lws Str Monad MethodTree HeaderTree Lookup Host Uri Arena Tel GenParam Addr StartLine Headers RawHeaders Ref Msg Mem MemHistory MemEnc P18_Memory MemWorld.
From Coq Require Import String.
Open Scope N_scope.

(** The address the tests use, as the net package reads and writes it. *)
Definition address : bytes := [16; 128; 0; 0; 0; 0; 0; 0; 0; 8; 8; 0; 32; 12; 65; 122].
Definition testParse (t : bytes) : option bytes := if beq t (s2b "1080::8:800:200c:417a") || beq t (s2b "1080:0:0:0:8:800:200C:417A") then Some address else None.
(** net.IPv4(10, 1, 1, 1).To16(). *)
Definition mapped : bytes := [0; 0; 0; 0; 0; 0; 0; 0; 0; 0; 255; 255; 10; 1; 1; 1].
Definition testString (ip : bytes) : bytes := if beq ip address then s2b "1080::8:800:200c:417a" else if beq ip mapped then s2b "10.1.1.1" else [].
Definition anyNeed (_ : N) : bool := true.
(** NewContext() with NewMemAllocator(n) (8 bytes more than n), and the settings the tests change. *)
Definition ctx (n : N) : env := mkenv (Some (n + 8)) false false false false false false true false false false true false false anyNeed testParse testString.
Definition known (k : hkind) : env :=
  mkenv (Some 2056) false false (match k with KFrom => true | _ => false end) (match k with KTo => true | _ => false end) (match k with KVia => true | _ => false end)
    (match k with KContact => true | _ => false end) true (match k with KContentDisposition => true | _ => false end) false false true false false anyNeed testParse testString.
Definition nameSpace (b : bool) (e : env) : env :=
  mkenv (memend e) (fSipUriKnown e) (fTelUriKnown e) (fFromKnown e) (fToKnown e) (fViaKnown e) (fContactKnown e) (fContentTypeKnown e) (fContentDispositionKnown e) (fHeaderAsRaw e)
    (eShortName e) b (eUriNoEscape e) (eReasonNoEscape e) (eNeed e) (ipParse e) (ipString e).
Definition uriEnv (noEscape : bool) : env := mkenv (Some 10248) true false false false false false true false false false true noEscape false anyNeed testParse testString.

(** A fresh arena, filled with garbage; the position [pos] of a text is given by what is left of it. *)
Definition fresh (e : env) : arena := mkA (fun _ => 7) (match memend e with Some n => n | None => 65535 end) 8 0 0 0 0 0.
Definition at_ (r src : bytes) (pos : N) : bool := (len r + pos =? len src) && beq r (skipn (N.to_nat pos) src).
(** Create an object from the text and encode it, on the bytes of the arena and in the value layer. *)
Definition outs (e : env) (k : wkind) (ops : list op) : list (option (list (event * N))) := [memRun e (fresh e) [] ops; valRun e 8 [] ops].
Definition objCheck (e : env) (k : wkind) (r : bytes * bool * N * bytes) : bool :=
  let '(src, ok, pos, text) := r in
  forallb (fun o => match o with
    | Some [(EvNew ok' lft, _)] => negb ok && negb ok' && at_ lft src pos
    | Some [(EvNew ok' lft, _); (EvText (Some t), _)] => ok && ok' && at_ lft src pos && beq t text
    | _ => false
    end) (outs e k (ONew k src :: if ok then [OEncode 0 []] else [])).
Definition roundCheck (e : env) (k : wkind) (r : bytes * bytes) : bool :=
  forallb (fun o => match o with Some [(EvNew true _, _); (EvText (Some t), _)] => beq t (snd r) | _ => false end) (outs e k [ONew k (fst r); OEncode 0 []]).
Definition failCheck (e : env) (k : wkind) (r : bytes * N) : bool := objCheck e k (fst r, false, snd r, []).
Definition partCheck {A} (p : P A) (enc : A -> bytes) (r : bytes * bool * N * bytes) : bool :=
  let '(src, ok, pos, text) := r in
  match p (ctx 2048) (mkst src 12) with Ok v s => ok && at_ (rest s) src pos && beq (enc v) text | Fail s => negb ok && at_ (rest s) src pos | _ => false end.

Definition uintCheck (r : bytes * N * N * N) : bool :=
  let '(src, digit, num, pos) := r in match ParseUInt src with Some (n, d, lft) => (n =? digit) && (d =? num) && at_ lft src pos | None => false end.
Definition lwsCheck (f : bytes -> bytes * bool) (r : bytes * N * bool) : bool := let '(src, pos, ok) := r in at_ (fst (f src)) src pos && Bool.eqb (snd (f src)) ok.
Definition setCheck (r : (N -> bool) * bytes) : bool := forallb (fun c => Bool.eqb (fst r c) (existsb (N.eqb c) (snd r))) (map N.of_nat (seq 0 256)).
Definition escCheck (r : bytes * bool * N) : bool :=
  let '(src, ok, pos) := r in
  match paEscapable DIGIT (ctx 1024) (mkst src 8) with Ok _ s => ok && at_ (rest s) src pos | Fail s => negb ok && at_ (rest s) src pos | _ => false end.
Definition quotedCheck (r : bytes * bool * bytes) : bool :=
  let '(src, ok, text) := r in match paQuoted (ctx 2048) (mkst src 8) with Ok v _ => ok && beq (encQuoted v) text | _ => false end.
Definition quotedFails (r : bytes * N) : bool := match paQuoted (ctx 2048) (mkst (fst r) 8) with Fail s => at_ (rest s) (fst r) (snd r) | _ => false end.
Definition refCheck (r : bytes * N * N) : bool := let '(src, fin, pos) := r in let (a, b) := refParse DIGIT src in (len a =? fin) && at_ b src pos.
Definition refEscCheck (r : bytes * bool * N * N * N) : bool :=
  let '(src, ok, fin, pos, esc) := r in
  match refEscapable DIGIT 0 src with RStop n run lft => at_ lft src pos && if ok then (len run =? fin) && (n =? esc) else len run =? 0 | RBad n lft => negb ok && at_ lft src pos | RPanic => false end.
Definition schemeCheck (r : bytes * bool * N * uscheme) : bool :=
  let '(src, ok, pos, u) := r in
  match parseScheme (ctx 1024) (mkst src 18) with
  | Ok v s => ok && at_ (rest s) src pos && match v, u with USip, USip | USips, USips | UTel, UTel | UUrn, UUrn | UAbsolute, UAbsolute => true | _, _ => false end
  | Fail s => negb ok && at_ (rest s) src pos
  | _ => false
  end.
Definition gparamCheck (r : bytes * bool * N * bytes * N) : bool :=
  let '(x, t) := r in partCheck parseGenParam encGenParam x &&
  match parseGenParam (ctx 2048) (mkst (fst (fst (fst x))) 16) with
  | Ok p _ => match gpValue p with Some (GToken _) => t =? 1 | Some (GQuoted _) => t =? 2 | Some (GBracket _) => t =? 3 | None => t =? 0 end
  | _ => true
  end.
Definition gparamsCheck : bytes * bool * N * bytes -> bool := partCheck (parseGenParams 59 noKnown []) (fun tp => encGenParams 59 [] (fst tp) (snd tp)).
(** The recorded end of the number: the length of what Encode writes. *)
Definition endCheck (r : bool * bytes * N) : bool := let '(ok, text, fin) := r in negb ok || (len text =? fin).
Definition crlfCheck (r : bytes * bool * N * N) : bool :=
  let '(src, ok, begin, fin) := r in
  match FindCrlf src with Some (v, lft) => ok && beq v (firstn (N.to_nat begin) src) && at_ lft src fin | None => negb ok && (fin =? len src) end.
Definition findCheck (r : bytes * N * bool) : bool :=
  let '(src, i, ok) := r in match parseRawHeaders (ctx 2048) (mkst src 8) with Ok l _ => Bool.eqb ok (match findKnownRaw l i with Some _ => true | None => false end) | _ => false end.
Definition hostId (h : host) : N := match h with HUnknown => 0 | HIpv4 _ _ _ _ => 1 | HIpv6 _ => 2 | HName _ => 3 end.
Definition hostCheck (r : bytes * bytes * N * N) : bool :=
  let '(src, text, pos, id) := r in match parseHost (ctx 2048) (mkst src 16) with Ok h s => at_ (rest s) src pos && (hostId h =? id) && beq (encHost (ctx 2048) h) text | _ => false end.
Definition hostportCheck (r : bytes * bytes * N * N * bool * N) : bool :=
  let '(src, text, pos, id, has, port) := r in
  match parseHostPort (ctx 2048) (mkst src 16) with
  | Ok h s => at_ (rest s) src pos && (hostId (hpHost h) =? id) && beq (encHostPort (ctx 2048) h) text && match hpPort h with Some p => has && (p =? port) | None => negb has end
  | _ => false
  end.
Definition hostFails {A} (p : P A) (src : bytes) : bool := match p (ctx 2048) (mkst src 16) with Fail _ => true | _ => false end.
Definition byteCheck (r : N * bytes) : bool := beq (WriteByteAsString (fst r)) (snd r).
Definition ipv4Check (r : bytes * bytes) : bool := match fst r with [a; b; c; d] => beq (encHost (ctx 2048) (HIpv4 a b c d)) (snd r) | _ => false end.
Definition lineCheck (r : bytes * bool * bool * N * bytes) : bool :=
  let '(src, ok, req, pos, text) := r in objCheck (ctx 2048) (WKObj KStartLine) (src, ok, pos, text) &&
  match parseStartLine (ctx 2048) (mkst src 28) with Ok (SRequest _ _ _) _ => req | Ok (SStatus _ _ _) _ => negb req | _ => negb ok end.
Definition optText (o : option bytes) : bytes := match o with Some t => t | None => [] end.
Definition uriCheck (r : bytes * bytes * bytes * bytes * bool) : bool :=
  let '(src, user, pass, hp, secure) := r in
  match parseSipUri (ctx 2048) (mkst src 26) with
  | Ok u s => beq (rest s) [] && beq (optText (uUser u)) user && beq (optText (uPass u)) pass && beq (encHostPort (ctx 2048) (uHost u)) hp && Bool.eqb (uSecure u) secure
  | _ => false
  end.
Definition telCheck (r : bytes * bool * bytes * bytes * bool) : bool :=
  let '(src, global, number, context, domain) := r in
  match parseTelUri (ctx 2048) (mkst src 18) with
  | Ok u s => beq (rest s) [] && Bool.eqb (tGlobal u) global && beq (tNumber u) number && Bool.eqb (tDomain u) domain && match tContext u with Some p => beq (optText (upValue p)) context | None => beq context [] end
  | _ => false
  end.
(** The Content-Type is removed (by writing to a private field) before Encode. *)
Definition withoutType (r : bytes * bytes) : bool :=
  match (allocStruct 68 ;;; parseMsg) (ctx 10240) (mkst (fst r) 8) with
  | Ok m s => match encMsg [] (mkmsg (mStart m) (mkhset (setNth (hsCommon (mHdrs m)) 10 []) (hsRaw (mHdrs m))) (mBodies m)) (ctx 10240) s with Ok (t, _) _ => beq t (snd r) | _ => false end
  | _ => false
  end.

