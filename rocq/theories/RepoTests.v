(** The repository's own unit tests, run on the model: every row of the tables in the _test.go files of /repo that still compile (written by tools/repotests.py; do not edit).
    These are tests of the model (is it a model of this code?), not proofs of a property: no claim of MANIFEST.json rests on them. *)
From Verif Require Import Base Charset Num Lws Str Monad MethodTree HeaderTree Lookup Host Uri Arena Tel GenParam Addr StartLine Headers RawHeaders Ref Msg Mem MemHistory MemEnc P18_Memory MemWorld.
From Coq Require Import String.
Open Scope N_scope.

(** The address the tests use, as the net package reads and writes it. *)
Definition address : bytes := [16; 128; 0; 0; 0; 0; 0; 0; 0; 8; 8; 0; 32; 12; 65; 122].
Definition testParse (t : bytes) : option bytes := if beq t (s2b "1080::8:800:200c:417a") || beq t (s2b "1080:0:0:0:8:800:200C:417A") then Some address else None.
(** net.IPv4(10, 1, 1, 1).To16(). *)
Definition mapped : bytes := [0; 0; 0; 0; 0; 0; 0; 0; 0; 0; 255; 255; 10; 1; 1; 1].
Definition testString (ip : bytes) : bytes := if beq ip address then s2b "1080::8:800:200c:417a" else if beq ip mapped then s2b "10.1.1.1" else [].
Definition anyNeed (_ : N) : bool := true.
(** NewContext() with NewMemAllocator(n) (8 bytes more than n), and the settings the tests change. *)
Definition ctx (n : N) : env := mkenv (Some (n + 8)) false false false false false false true false false false true false false anyNeed testParse testString.
Definition known (k : hkind) : env :=
  mkenv (Some 2056) false false (match k with KFrom => true | _ => false end) (match k with KTo => true | _ => false end) (match k with KVia => true | _ => false end)
    (match k with KContact => true | _ => false end) true (match k with KContentDisposition => true | _ => false end) false false true false false anyNeed testParse testString.
Definition nameSpace (b : bool) (e : env) : env :=
  mkenv (memend e) (fSipUriKnown e) (fTelUriKnown e) (fFromKnown e) (fToKnown e) (fViaKnown e) (fContactKnown e) (fContentTypeKnown e) (fContentDispositionKnown e) (fHeaderAsRaw e)
    (eShortName e) b (eUriNoEscape e) (eReasonNoEscape e) (eNeed e) (ipParse e) (ipString e).
Definition uriEnv (noEscape : bool) : env := mkenv (Some 10248) true false false false false false true false false false true noEscape false anyNeed testParse testString.

(** A fresh arena, filled with garbage; the position [pos] of a text is given by what is left of it. *)
Definition fresh (e : env) : arena := mkA (fun _ => 7) (match memend e with Some n => n | None => 65535 end) 8 0 0 0 0 0.
Definition at_ (r src : bytes) (pos : N) : bool := (len r + pos =? len src) && beq r (skipn (N.to_nat pos) src).
(** Create an object from the text and encode it, on the bytes of the arena and in the value layer. *)
Definition outs (e : env) (k : wkind) (ops : list op) : list (option (list (event * N))) := [memRun e (fresh e) [] ops; valRun e 8 [] ops].
Definition objCheck (e : env) (k : wkind) (r : bytes * bool * N * bytes) : bool :=
  let '(src, ok, pos, text) := r in
  forallb (fun o => match o with
    | Some [(EvNew ok' lft, _)] => negb ok && negb ok' && at_ lft src pos
    | Some [(EvNew ok' lft, _); (EvText (Some t), _)] => ok && ok' && at_ lft src pos && beq t text
    | _ => false
    end) (outs e k (ONew k src :: if ok then [OEncode 0 []] else [])).
Definition roundCheck (e : env) (k : wkind) (r : bytes * bytes) : bool :=
  forallb (fun o => match o with Some [(EvNew true _, _); (EvText (Some t), _)] => beq t (snd r) | _ => false end) (outs e k [ONew k (fst r); OEncode 0 []]).
Definition failCheck (e : env) (k : wkind) (r : bytes * N) : bool := objCheck e k (fst r, false, snd r, []).
Definition partCheck {A} (p : P A) (enc : A -> bytes) (r : bytes * bool * N * bytes) : bool :=
  let '(src, ok, pos, text) := r in
  match p (ctx 2048) (mkst src 12) with Ok v s => ok && at_ (rest s) src pos && beq (enc v) text | Fail s => negb ok && at_ (rest s) src pos | _ => false end.

Definition uintCheck (r : bytes * N * N * N) : bool :=
  let '(src, digit, num, pos) := r in match ParseUInt src with Some (n, d, lft) => (n =? digit) && (d =? num) && at_ lft src pos | None => false end.
Definition lwsCheck (f : bytes -> bytes * bool) (r : bytes * N * bool) : bool := let '(src, pos, ok) := r in at_ (fst (f src)) src pos && Bool.eqb (snd (f src)) ok.
Definition setCheck (r : (N -> bool) * bytes) : bool := forallb (fun c => Bool.eqb (fst r c) (existsb (N.eqb c) (snd r))) (map N.of_nat (seq 0 256)).
Definition escCheck (r : bytes * bool * N) : bool :=
  let '(src, ok, pos) := r in
  match paEscapable DIGIT (ctx 1024) (mkst src 8) with Ok _ s => ok && at_ (rest s) src pos | Fail s => negb ok && at_ (rest s) src pos | _ => false end.
Definition quotedCheck (r : bytes * bool * bytes) : bool :=
  let '(src, ok, text) := r in match paQuoted (ctx 2048) (mkst src 8) with Ok v _ => ok && beq (encQuoted v) text | _ => false end.
Definition quotedFails (r : bytes * N) : bool := match paQuoted (ctx 2048) (mkst (fst r) 8) with Fail s => at_ (rest s) (fst r) (snd r) | _ => false end.
Definition refCheck (r : bytes * N * N) : bool := let '(src, fin, pos) := r in let (a, b) := refParse DIGIT src in (len a =? fin) && at_ b src pos.
Definition refEscCheck (r : bytes * bool * N * N * N) : bool :=
  let '(src, ok, fin, pos, esc) := r in
  match refEscapable DIGIT 0 src with RStop n run lft => at_ lft src pos && if ok then (len run =? fin) && (n =? esc) else len run =? 0 | RBad n lft => negb ok && at_ lft src pos | RPanic => false end.
Definition schemeCheck (r : bytes * bool * N * uscheme) : bool :=
  let '(src, ok, pos, u) := r in
  match parseScheme (ctx 1024) (mkst src 18) with
  | Ok v s => ok && at_ (rest s) src pos && match v, u with USip, USip | USips, USips | UTel, UTel | UUrn, UUrn | UAbsolute, UAbsolute => true | _, _ => false end
  | Fail s => negb ok && at_ (rest s) src pos
  | _ => false
  end.
Definition gparamCheck (r : bytes * bool * N * bytes * N) : bool :=
  let '(x, t) := r in partCheck parseGenParam encGenParam x &&
  match parseGenParam (ctx 2048) (mkst (fst (fst (fst x))) 16) with
  | Ok p _ => match gpValue p with Some (GToken _) => t =? 1 | Some (GQuoted _) => t =? 2 | Some (GBracket _) => t =? 3 | None => t =? 0 end
  | _ => true
  end.
Definition gparamsCheck : bytes * bool * N * bytes -> bool := partCheck (parseGenParams 59 noKnown []) (fun tp => encGenParams 59 [] (fst tp) (snd tp)).
(** The recorded end of the number: the length of what Encode writes. *)
Definition endCheck (r : bool * bytes * N) : bool := let '(ok, text, fin) := r in negb ok || (len text =? fin).
Definition crlfCheck (r : bytes * bool * N * N) : bool :=
  let '(src, ok, begin, fin) := r in
  match FindCrlf src with Some (v, lft) => ok && beq v (firstn (N.to_nat begin) src) && at_ lft src fin | None => negb ok && (fin =? len src) end.
Definition findCheck (r : bytes * N * bool) : bool :=
  let '(src, i, ok) := r in match parseRawHeaders (ctx 2048) (mkst src 8) with Ok l _ => Bool.eqb ok (match findKnownRaw l i with Some _ => true | None => false end) | _ => false end.
Definition hostId (h : host) : N := match h with HUnknown => 0 | HIpv4 _ _ _ _ => 1 | HIpv6 _ => 2 | HName _ => 3 end.
Definition hostCheck (r : bytes * bytes * N * N) : bool :=
  let '(src, text, pos, id) := r in match parseHost (ctx 2048) (mkst src 16) with Ok h s => at_ (rest s) src pos && (hostId h =? id) && beq (encHost (ctx 2048) h) text | _ => false end.
Definition hostportCheck (r : bytes * bytes * N * N * bool * N) : bool :=
  let '(src, text, pos, id, has, port) := r in
  match parseHostPort (ctx 2048) (mkst src 16) with
  | Ok h s => at_ (rest s) src pos && (hostId (hpHost h) =? id) && beq (encHostPort (ctx 2048) h) text && match hpPort h with Some p => has && (p =? port) | None => negb has end
  | _ => false
  end.
Definition hostFails {A} (p : P A) (src : bytes) : bool := match p (ctx 2048) (mkst src 16) with Fail _ => true | _ => false end.
Definition byteCheck (r : N * bytes) : bool := beq (WriteByteAsString (fst r)) (snd r).
Definition ipv4Check (r : bytes * bytes) : bool := match fst r with [a; b; c; d] => beq (encHost (ctx 2048) (HIpv4 a b c d)) (snd r) | _ => false end.
Definition lineCheck (r : bytes * bool * bool * N * bytes) : bool :=
  let '(src, ok, req, pos, text) := r in objCheck (ctx 2048) (WKObj KStartLine) (src, ok, pos, text) &&
  match parseStartLine (ctx 2048) (mkst src 28) with Ok (SRequest _ _ _) _ => req | Ok (SStatus _ _ _) _ => negb req | _ => negb ok end.
Definition optText (o : option bytes) : bytes := match o with Some t => t | None => [] end.
Definition uriCheck (r : bytes * bytes * bytes * bytes * bool) : bool :=
  let '(src, user, pass, hp, secure) := r in
  match parseSipUri (ctx 2048) (mkst src 26) with
  | Ok u s => beq (rest s) [] && beq (optText (uUser u)) user && beq (optText (uPass u)) pass && beq (encHostPort (ctx 2048) (uHost u)) hp && Bool.eqb (uSecure u) secure
  | _ => false
  end.
Definition telCheck (r : bytes * bool * bytes * bytes * bool) : bool :=
  let '(src, global, number, context, domain) := r in
  match parseTelUri (ctx 2048) (mkst src 18) with
  | Ok u s => beq (rest s) [] && Bool.eqb (tGlobal u) global && beq (tNumber u) number && Bool.eqb (tDomain u) domain && match tContext u with Some p => beq (optText (upValue p)) context | None => beq context [] end
  | _ => false
  end.
(** The Content-Type is removed (by writing to a private field) before Encode. *)
Definition withoutType (r : bytes * bytes) : bool :=
  match (allocStruct 68 ;;; parseMsg) (ctx 10240) (mkst (fst r) 8) with
  | Ok m s => match encMsg [] (mkmsg (mStart m) (mkhset (setNth (hsCommon (mHdrs m)) 10 []) (hsRaw (mHdrs m))) (mBodies m)) (ctx 10240) s with Ok (t, _) _ => beq t (snd r) | _ => false end
  | _ => false
  end.


(** AbnfBasic_test.go (TestParseUIntOK). *)
Definition rows_TestParseUIntOK := [
  (s2b "1234567890.abc", 1234567890, 10, 10);
  (s2b "10.40.1.1", 10, 2, 2)].
Lemma TestParseUIntOK : forallb uintCheck rows_TestParseUIntOK = true. Proof. vm_compute. reflexivity. Qed.

(** AbnfBasic_test.go (TestParseLWS1). *)
Definition rows_TestParseLWS1 := [
  ([], 0, true);
  (s2b "  " ++ [9], 3, true);
  ([13; 10] ++ s2b " " ++ [9], 4, true);
  ([13; 10; 9] ++ s2b " ", 4, true);
  ([9] ++ s2b "  " ++ [13; 10; 9] ++ s2b " ", 7, true);
  (s2b "     " ++ [9; 9; 9; 9; 9; 13; 10] ++ s2b "    ", 16, true);
  (s2b "     " ++ [9; 9; 9; 9; 9; 13; 10] ++ s2b "    xy", 16, true);
  ([9] ++ s2b "  " ++ [13; 10], 5, false);
  ([9] ++ s2b "  " ++ [13; 10] ++ s2b "ab", 5, false)].
Lemma TestParseLWS1 : forallb (lwsCheck ParseLWS) rows_TestParseLWS1 = true. Proof. vm_compute. reflexivity. Qed.

(** AbnfBasic_test.go (TestParseLWS2). *)
Definition rows_TestParseLWS2 := [
  ([], 0, true);
  (s2b "  " ++ [9], 3, true);
  ([13; 10] ++ s2b " " ++ [9], 4, true);
  ([13; 10; 9] ++ s2b " ", 4, true);
  ([9] ++ s2b "  " ++ [13; 10; 9] ++ s2b " ", 7, true);
  (s2b "     " ++ [9; 9; 9; 9; 9; 13; 10] ++ s2b "    ", 16, true);
  (s2b "     " ++ [9; 9; 9; 9; 9; 13; 10] ++ s2b "    xy", 16, true);
  ([9] ++ s2b "  " ++ [13; 10], 5, false);
  ([9] ++ s2b "  " ++ [13; 10] ++ s2b "ab", 5, false)].
Lemma TestParseLWS2 : forallb (lwsCheck ParseLWS_2) rows_TestParseLWS2 = true. Proof. vm_compute. reflexivity. Qed.

(** AbnfCharset_test.go (TestCharset). *)
Definition rows_TestCharset := [
  (IsDigit, s2b "0123456789");
  (IsAlpha, s2b "ABCDEFGHIJKLMNOPQRSTUVWXYZabcdefghijklmnopqrstuvwxyz");
  (IsLower, s2b "abcdefghijklmnopqrstuvwxyz");
  (IsUpper, s2b "ABCDEFGHIJKLMNOPQRSTUVWXYZ");
  (IsAlphanum, s2b "0123456789ABCDEFGHIJKLMNOPQRSTUVWXYZabcdefghijklmnopqrstuvwxyz");
  (IsLowerHexAlpha, s2b "abcdef");
  (IsUpperHexAlpha, s2b "ABCDEF");
  (IsLowerHex, s2b "abcdef0123456789");
  (IsUpperHex, s2b "ABCDEF0123456789");
  (IsHex, s2b "ABCDEFabcdef0123456789");
  (IsCrlfChar, [10; 13]);
  (IsWspChar, s2b " " ++ [9]);
  (IsLwsChar, s2b " " ++ [9; 10; 13]);
  (IsUtf8Char, s2b "!""#$%&'()*+,-./0123456789:;<=>?@ABCDEFGHIJKLMNOPQRSTUVWXYZ[\]^_`abcdefghijklmnopqrstuvwxyz{|}~" ++ [128; 129; 130; 131; 132; 133; 134; 135; 136; 137; 138; 139; 140; 141; 142; 143; 144; 145; 146; 147; 148; 149; 150; 151; 152; 153; 154; 155; 156; 157; 158; 159; 160; 161; 162; 163; 164; 165; 166; 167; 168; 169; 170; 171; 172; 173; 174; 175; 176; 177; 178; 179; 180; 181; 182; 183; 184; 185; 186; 187; 188; 189; 190; 191; 192; 193; 194; 195; 196; 197; 198; 199; 200; 201; 202; 203; 204; 205; 206; 207; 208; 209; 210; 211; 212; 213; 214; 215; 216; 217; 218; 219; 220; 221; 222; 223; 224; 225; 226; 227; 228; 229; 230; 231; 232; 233; 234; 235; 236; 237; 238; 239; 240; 241; 242; 243; 244; 245; 246; 247; 248; 249; 250; 251; 252; 253]);
  (IsHostname, s2b "-.0123456789ABCDEFGHIJKLMNOPQRSTUVWXYZabcdefghijklmnopqrstuvwxyz");
  (IsUriUnreserved, s2b "!'()*-.0123456789ABCDEFGHIJKLMNOPQRSTUVWXYZ_abcdefghijklmnopqrstuvwxyz~");
  (IsUriReserved, s2b "@$&+,/:;=?");
  (IsUriScheme, s2b "+-.0123456789ABCDEFGHIJKLMNOPQRSTUVWXYZabcdefghijklmnopqrstuvwxyz");
  (IsUriUric, s2b "!$&'()*+,-./0123456789:;=?@ABCDEFGHIJKLMNOPQRSTUVWXYZ_abcdefghijklmnopqrstuvwxyz~");
  (IsUriUricNoSlash, s2b "!$&'()*+,-.0123456789:;=?@ABCDEFGHIJKLMNOPQRSTUVWXYZ_abcdefghijklmnopqrstuvwxyz~");
  (IsUriPchar, s2b "!$&'()*+,-.0123456789:=@ABCDEFGHIJKLMNOPQRSTUVWXYZ_abcdefghijklmnopqrstuvwxyz~");
  (IsUriRegName, s2b "!$&'()*+,-.0123456789:;=@ABCDEFGHIJKLMNOPQRSTUVWXYZ_abcdefghijklmnopqrstuvwxyz~");
  (IsSipToken, s2b "!%'*+-.0123456789ABCDEFGHIJKLMNOPQRSTUVWXYZ_`abcdefghijklmnopqrstuvwxyz~");
  (IsSipSeparators, s2b "@ ""()[{," ++ [11] ++ s2b "\=}:;<]>?");
  (IsSipWord, s2b "!""%'()*+-.0123456789:<>?ABCDEFGHIJKLMNOPQRSTUVWXYZ[\]_`abcdefghijklmnopqrstuvwxyz{}~");
  (IsSipQuotedPair, [0; 1; 2; 3; 4; 5; 6; 7; 8; 9; 11; 12; 14; 15; 16; 17; 18; 19; 20; 21; 22; 23; 24; 25; 26; 27; 28; 29; 30; 31] ++ s2b " !""#$%&'()*+,-./0123456789:;<=>?@ABCDEFGHIJKLMNOPQRSTUVWXYZ[\]^_`abcdefghijklmnopqrstuvwxyz{|}~" ++ [127]);
  (IsSipQuotedText, [9; 10; 13] ++ s2b " !#$%&'()*+,-./0123456789:;<=>?@ABCDEFGHIJKLMNOPQRSTUVWXYZ[]^_`abcdefghijklmnopqrstuvwxyz{|}~" ++ [192; 193; 194; 195; 196; 197; 198; 199; 200; 201; 202; 203; 204; 205; 206; 207; 208; 209; 210; 211; 212; 213; 214; 215; 216; 217; 218; 219; 220; 221; 222; 223; 224; 225; 226; 227; 228; 229; 230; 231; 232; 233; 234; 235; 236; 237; 238; 239; 240; 241; 242; 243; 244; 245; 246; 247; 248; 249; 250; 251; 252; 253]);
  (IsSipComment, [0; 1; 2; 3; 4; 5; 6; 7; 8; 9; 10; 11; 12; 13; 14; 15; 16; 17; 18; 19; 20; 21; 22; 23; 24; 25; 26; 27; 28; 29; 30; 31] ++ s2b " !""#$%&'()*+,-./0123456789:;<=>?@ABCDEFGHIJKLMNOPQRSTUVWXYZ[\]^_`abcdefghijklmnopqrstuvwxyz{|}~" ++ [127; 192; 193; 194; 195; 196; 197; 198; 199; 200; 201; 202; 203; 204; 205; 206; 207; 208; 209; 210; 211; 212; 213; 214; 215; 216; 217; 218; 219; 220; 221; 222; 223; 224; 225; 226; 227; 228; 229; 230; 231; 232; 233; 234; 235; 236; 237; 238; 239; 240; 241; 242; 243; 244; 245; 246; 247; 248; 249; 250; 251; 252; 253]);
  (IsSipUser, s2b "!$&'()*+,-./0123456789;=?ABCDEFGHIJKLMNOPQRSTUVWXYZ_abcdefghijklmnopqrstuvwxyz~");
  (IsSipPassword, s2b "!$&'()*+,-.0123456789=ABCDEFGHIJKLMNOPQRSTUVWXYZ_abcdefghijklmnopqrstuvwxyz~");
  (IsSipPname, s2b "!$&'()*+-./0123456789:ABCDEFGHIJKLMNOPQRSTUVWXYZ[]_abcdefghijklmnopqrstuvwxyz~");
  (IsSipPvalue, s2b "!$&'()*+-./0123456789:ABCDEFGHIJKLMNOPQRSTUVWXYZ[]_abcdefghijklmnopqrstuvwxyz~");
  (IsSipHname, s2b "!$'()*+-./0123456789:?ABCDEFGHIJKLMNOPQRSTUVWXYZ[]_abcdefghijklmnopqrstuvwxyz~");
  (IsSipHvalue, s2b "!$'()*+-./0123456789:?ABCDEFGHIJKLMNOPQRSTUVWXYZ[]_abcdefghijklmnopqrstuvwxyz~");
  (IsSipReasonPhrase, [11] ++ s2b " !$&'()*+,-./0123456789:;=?@ABCDEFGHIJKLMNOPQRSTUVWXYZ_abcdefghijklmnopqrstuvwxyz~" ++ [128; 129; 130; 131; 132; 133; 134; 135; 136; 137; 138; 139; 140; 141; 142; 143; 144; 145; 146; 147; 148; 149; 150; 151; 152; 153; 154; 155; 156; 157; 158; 159; 160; 161; 162; 163; 164; 165; 166; 167; 168; 169; 170; 171; 172; 173; 174; 175; 176; 177; 178; 179; 180; 181; 182; 183; 184; 185; 186; 187; 188; 189; 190; 191; 192; 193; 194; 195; 196; 197; 198; 199; 200; 201; 202; 203; 204; 205; 206; 207; 208; 209; 210; 211; 212; 213; 214; 215; 216; 217; 218; 219; 220; 221; 222; 223; 224; 225; 226; 227; 228; 229; 230; 231; 232; 233; 234; 235; 236; 237; 238; 239; 240; 241; 242; 243; 244; 245; 246; 247; 248; 249; 250; 251; 252; 253]);
  (IsTelPhoneDigit, s2b "()-.0123456789");
  (IsTelPhoneDigitHex, s2b "ABCDEFabcdef()-.0123456789");
  (IsTelPname, s2b "-0123456789ABCDEFGHIJKLMNOPQRSTUVWXYZabcdefghijklmnopqrstuvwxyz");
  (IsTelPvalue, s2b "!$&'()*+-./0123456789:ABCDEFGHIJKLMNOPQRSTUVWXYZ[]_abcdefghijklmnopqrstuvwxyz~");
  (IsTelVisualSperator, s2b "()-.")].
Lemma TestCharset : forallb setCheck rows_TestCharset = true. Proof. vm_compute. reflexivity. Qed.

(** AbnfMem_test.go (TestMemParseAndAllocCStringEscapable). *)
Definition rows_TestMemParseAndAllocCStringEscapable := [
  (s2b "01234abc", true, 5);
  (s2b "56789=bc", true, 5);
  (s2b "%301234abc", true, 7);
  (s2b "%30%311234abc", true, 10);
  (s2b "%311234%30", true, 10);
  (s2b "%30%31123%3a", true, 12);
  (s2b "ad6789abc", false, 0);
  (s2b "%3c%31123%", false, 9);
  (s2b "%30%31123%F", false, 9);
  (s2b "%3x%31123%F", false, 0)].
Lemma TestMemParseAndAllocCStringEscapable : forallb escCheck rows_TestMemParseAndAllocCStringEscapable = true. Proof. vm_compute. reflexivity. Qed.

(** AbnfMem_test.go (TestMemParseAndAllocSipQuotedStringParseOK). *)
Definition rows_TestMemParseAndAllocSipQuotedStringParseOK := [
  (s2b """""", true, s2b """""");
  (s2b """User ID""", true, s2b """User ID""");
  (s2b """abc""", true, s2b """abc""");
  (s2b """abc\00""", true, s2b """abc\00""");
  (s2b " " ++ [9; 13; 10] ++ s2b " ""abc\00\""""", true, s2b """abc\00\""""");
  (s2b " " ++ [9; 13; 10; 9] ++ s2b """abc\0b""", true, s2b """abc\0b""")].
Lemma TestMemParseAndAllocSipQuotedStringParseOK : forallb quotedCheck rows_TestMemParseAndAllocSipQuotedStringParseOK = true. Proof. vm_compute. reflexivity. Qed.

(** AbnfMem_test.go (TestMemParseAndAllocSipQuotedStringNOK). *)
Definition rows_TestMemParseAndAllocSipQuotedStringNOK := [
  (s2b "abc""", 0);
  ([13; 10] ++ s2b """abc\00""", 0);
  ([13; 10] ++ s2b " ""abc\", 7);
  ([13; 10] ++ s2b " ""abc" ++ [13; 10] ++ s2b "\", 9);
  ([13; 10] ++ s2b " ""abc", 7);
  ([13; 10] ++ s2b " ""abc" ++ [226; 130; 172], 8)].
Lemma TestMemParseAndAllocSipQuotedStringNOK : forallb quotedFails rows_TestMemParseAndAllocSipQuotedStringNOK = true. Proof. vm_compute. reflexivity. Qed.

(** AbnfRef_test.go (TestAbnfRefParse). *)
Definition rows_TestAbnfRefParse := [
  (s2b "01234abc", 5, 5);
  (s2b "56789=bc", 5, 5);
  (s2b "ad6789abc", 0, 0)].
Lemma TestAbnfRefParse : forallb refCheck rows_TestAbnfRefParse = true. Proof. vm_compute. reflexivity. Qed.

(** AbnfRef_test.go (TestAbnfRefParseEscapable). *)
Definition rows_TestAbnfRefParseEscapable := [
  (s2b "01234abc", true, 5, 5, 0);
  (s2b "56789=bc", true, 5, 5, 0);
  (s2b "%301234abc", true, 7, 7, 1);
  (s2b "%30%311234abc", true, 10, 10, 2);
  (s2b "%311234%30", true, 10, 10, 2);
  (s2b "%30%31123%3a", true, 12, 12, 3);
  (s2b "ad6789abc", true, 0, 0, 0);
  (s2b "%3c%31123%", false, 10, 9, 2);
  (s2b "%30%31123%F", false, 10, 9, 2);
  (s2b "%3x%31123%F", false, 0, 0, 2)].
Lemma TestAbnfRefParseEscapable : forallb refEscCheck rows_TestAbnfRefParseEscapable = true. Proof. vm_compute. reflexivity. Qed.

(** SipAddr_test.go (TestSipAddrParseScheme). *)
Definition rows_TestSipAddrParseScheme := [
  (s2b "sip:123", true, 4, USip);
  (s2b "sIP:123", true, 4, USip);
  (s2b "sips:abc", true, 5, USips);
  (s2b "SipS:abc", true, 5, USips);
  (s2b "tel:456", true, 4, UTel);
  (s2b "tEl:456", true, 4, UTel);
  (s2b "urn:sos", true, 4, UUrn);
  (s2b "http://sos", true, 5, UAbsolute);
  (s2b "sipst://sos", true, 6, UAbsolute);
  (s2b "sipx://sos", true, 5, UAbsolute);
  ([], false, 0, UAbsolute);
  (s2b ":", false, 0, UAbsolute);
  (s2b "1sip:", false, 0, UAbsolute);
  (s2b "sip=:", false, 3, UAbsolute);
  (s2b "sips", false, 4, UAbsolute)].
Lemma TestSipAddrParseScheme : forallb schemeCheck rows_TestSipAddrParseScheme = true. Proof. vm_compute. reflexivity. Qed.

(** SipAddr_test.go (TestSipAddrParseAddrSpec). *)
Definition rows_TestSipAddrParseAddrSpec := [
  (s2b "sip:123@abc.com;ttl=10;user=phone;a;b;c;d;e?xx=yy&x1=aa", true, 55, s2b "sip:123@abc.com;ttl=10;user=phone;a;b;c;d;e?xx=yy&x1=aa");
  (s2b "sips:123:tsdd@[1080::8:800:200c:417a]:5061", true, 42, s2b "sips:123:tsdd@[1080::8:800:200c:417a]:5061");
  (s2b "tel:861234;phone-context=+123", true, 29, s2b "tel:861234;phone-context=+123")].
Lemma TestSipAddrParseAddrSpec : forallb (objCheck (nameSpace false (ctx 1024)) (WKObj (KAddr true))) rows_TestSipAddrParseAddrSpec = true. Proof. vm_compute. reflexivity. Qed.

(** SipAddr_test.go (TestSipAddrParseNameAddr). *)
Definition rows_TestSipAddrParseNameAddr := [
  (s2b "<sip:abc@a.com>", true, 15, s2b "<sip:abc@a.com>");
  (s2b "<sip:123@abc.com;ttl=10;user=phone;a;b;c;d;e?xx=yy&x1=aa>", true, 57, s2b "<sip:123@abc.com;ttl=10;user=phone;a;b;c;d;e?xx=yy&x1=aa>");
  (s2b """abc""<sips:123:tsdd@[1080::8:800:200c:417a]:5061>", true, 49, s2b """abc""<sips:123:tsdd@[1080::8:800:200c:417a]:5061>");
  (s2b "abc def ee<sip:861234;phone-context=+123>", true, 41, s2b "abc def ee<sip:861234;phone-context=+123>");
  (s2b "abc def ee<tel:861234;phone-context=+123>", true, 41, s2b "abc def ee<tel:861234;phone-context=+123>");
  (s2b """", false, 1, []);
  ([13; 10] ++ s2b "<tel:123>", false, 0, []);
  (s2b "a b@ c<tel:123>", false, 3, []);
  (s2b "<tel:", false, 5, []);
  (s2b "<tel:123", false, 8, [])].
Lemma TestSipAddrParseNameAddr : forallb (objCheck (ctx 1024) (WKObj (KAddr true))) rows_TestSipAddrParseNameAddr = true. Proof. vm_compute. reflexivity. Qed.

(** SipGenericParam_test.go (TestSipGenericParamParse). *)
Definition rows_TestSipGenericParamParse := [
  (s2b "a=[asas]", true, 8, s2b "a=[asas]", 3);
  (s2b "a=b", true, 3, s2b "a=b", 1);
  (s2b "a" ++ [13; 10; 9] ++ s2b "=" ++ [13; 10; 9] ++ s2b "b", true, 9, s2b "a=b", 1);
  (s2b "a" ++ [13; 10] ++ s2b " =" ++ [13; 10] ++ s2b " b", true, 9, s2b "a=b", 1);
  (s2b "a=""b""", true, 5, s2b "a=""b""", 2);
  (s2b "a=" ++ [13; 10; 9] ++ s2b """b""", true, 8, s2b "a=""b""", 2)].
Lemma TestSipGenericParamParse : forallb gparamCheck rows_TestSipGenericParamParse = true. Proof. vm_compute. reflexivity. Qed.

(** SipGenericParam_test.go (TestParseSipGenericParams). *)
Definition rows_TestParseSipGenericParams := [
  (s2b ";a=b", true, 4, s2b ";a=b");
  (s2b ";a=b;c", true, 6, s2b ";a=b;c");
  (s2b ";a=b;c=d", true, 8, s2b ";a=b;c=d");
  (s2b ";a=b" ++ [13; 10; 9] ++ s2b ";c=d", true, 11, s2b ";a=b;c=d");
  (s2b ";a=b" ++ [13; 10; 9] ++ s2b "; c" ++ [13; 10] ++ s2b " = d", true, 16, s2b ";a=b;c=d");
  (s2b ";a=", false, 3, []);
  (s2b ";@=", false, 1, []);
  (s2b ";a" ++ [13; 10] ++ s2b " =", false, 6, []);
  (s2b ";a=""ac", false, 6, []);
  (s2b ";a=@", false, 3, [])].
Lemma TestParseSipGenericParams : forallb gparamsCheck rows_TestParseSipGenericParams = true. Proof. vm_compute. reflexivity. Qed.

(** SipHeaderCSeq_test.go (TestSipHeaderCSeqParse). *)
Definition rows_TestSipHeaderCSeqParse := [
  (s2b "CSeq: 1234 INVITE", true, 17, s2b "CSeq: 1234 INVITE");
  (s2b " CSeq: ", false, 0, []);
  (s2b "CSeq2: ", false, 0, []);
  (s2b "CSeq: ", false, 6, []);
  (s2b "CSeq: 1234", false, 10, []);
  (s2b "CSeq: 1234 " ++ [13; 10] ++ s2b "INVITE", false, 13, [])].
Lemma TestSipHeaderCSeqParse : forallb (objCheck (ctx 2048) (WKObj (KHdr KCSeq))) rows_TestSipHeaderCSeqParse = true. Proof. vm_compute. reflexivity. Qed.

(** SipHeaderCallId_test.go (TestSipHeaderCallIDParse). *)
Definition rows_TestSipHeaderCallIDParse := [
  (s2b "Call-ID: abc123@a.com", true, 21, s2b "Call-ID: abc123@a.com");
  (s2b "i: abc123", true, 9, s2b "Call-ID: abc123");
  (s2b "caLL-iD: abc123" ++ [13; 10], true, 15, s2b "Call-ID: abc123");
  (s2b " Call-ID: abc123@", false, 0, []);
  (s2b "Call-ID1: abc123@", false, 0, []);
  (s2b "Call-ID: abc123@", false, 16, []);
  (s2b "Call-ID: @abc", false, 9, [])].
Lemma TestSipHeaderCallIDParse : forallb (objCheck (ctx 2048) (WKObj (KHdr KCallID))) rows_TestSipHeaderCallIDParse = true. Proof. vm_compute. reflexivity. Qed.

(** SipHeaderContact_test.go (TestSipHeaderContactParse). *)
Definition rows_TestSipHeaderContactParse := [
  (s2b "Contact: *", true, 10, s2b "Contact: *");
  (s2b "Contact: sip:abc@a.com;tag=1", true, 28, s2b "Contact: sip:abc@a.com;tag=1");
  (s2b "m: <sip:abc@a.com;user=ip>;tag=1", true, 32, s2b "Contact: <sip:abc@a.com;user=ip>;tag=1");
  (s2b "cOntact: abc<sip:abc@a.com;user=ip>;q=1;expires=3600", true, 52, s2b "Contact: abc<sip:abc@a.com;user=ip>;q=1;expires=3600");
  (s2b "Contact: tel:+12358;tag=123", true, 27, s2b "Contact: tel:+12358;tag=123");
  (s2b " Contact: <sip:abc@a.com>;tag=1", false, 0, s2b "0");
  (s2b "Contact1: <sip:abc@a.com>;tag=1", false, 0, []);
  (s2b "Contact: ", false, 9, [])].
Lemma TestSipHeaderContactParse : forallb (objCheck (nameSpace false (ctx 2048)) (WKObj (KHdr KContact))) rows_TestSipHeaderContactParse = true. Proof. vm_compute. reflexivity. Qed.

(** SipHeaderContact_test.go (TestSipHeaderContactParse2). *)
Definition rows_TestSipHeaderContactParse2 := [
  (s2b "cOntact: abc<sip:abc@a.com;user=ip>;q=1;expires=3600", true, 52, s2b "Contact: abc<sip:abc@a.com;user=ip>;expires=3600;q=1")].
Lemma TestSipHeaderContactParse2 : forallb (objCheck (nameSpace false (known KContact)) (WKObj (KHdr KContact))) rows_TestSipHeaderContactParse2 = true. Proof. vm_compute. reflexivity. Qed.

(** SipHeaderContentDisposition_test.go (TestSipHeaderContentDispositionParse). *)
Definition rows_TestSipHeaderContentDispositionParse := [
  (s2b "Content-Disposition: session", true, 28, s2b "Content-Disposition: session");
  (s2b "contenT-dispOsitioN: early-session", true, 34, s2b "Content-Disposition: early-session");
  (s2b " Content-Disposition: abc", false, 0, []);
  (s2b "Content-Disposition2: abc", false, 0, []);
  (s2b "Content-Disposition: ", false, 21, []);
  (s2b "Content-Disposition: @", false, 21, [])].
Lemma TestSipHeaderContentDispositionParse : forallb (objCheck (ctx 2048) (WKObj (KHdr KContentDisposition))) rows_TestSipHeaderContentDispositionParse = true. Proof. vm_compute. reflexivity. Qed.

(** SipHeaderContentDisposition_test.go (TestSipHeaderContentDispositionParse2). *)
Definition rows_TestSipHeaderContentDispositionParse2 := [
  (s2b "Content-Disposition: session;abc;handling=optional", true, 50, s2b "Content-Disposition: session;handling=optional;abc")].
Lemma TestSipHeaderContentDispositionParse2 : forallb (objCheck (known KContentDisposition) (WKObj (KHdr KContentDisposition))) rows_TestSipHeaderContentDispositionParse2 = true. Proof. vm_compute. reflexivity. Qed.

(** SipHeaderContentLength_test.go (TestSipHeaderContentLengthParse). *)
Definition rows_TestSipHeaderContentLengthParse := [
  (s2b "Content-Length: 1234", true, 20, s2b "Content-Length:       1234");
  (s2b "contenT-LengtH: 1234", true, 20, s2b "Content-Length:       1234");
  (s2b "l: 1234", true, 7, s2b "Content-Length:       1234");
  (s2b " Content-Lengt: 1234", false, 0, []);
  (s2b "Content-Lengt: 1234", false, 0, []);
  (s2b "Content-Length: ", false, 16, []);
  (s2b "Content-Length: a123", false, 16, [])].
Lemma TestSipHeaderContentLengthParse : forallb (objCheck (ctx 2048) (WKObj (KHdr KContentLength))) rows_TestSipHeaderContentLengthParse = true. Proof. vm_compute. reflexivity. Qed.

(** SipHeaderContentLength_test.go (TestSipHeaderContentLengthParse). *)
Definition rows_TestSipHeaderContentLengthParse_end := [
  (true, s2b "Content-Length:       1234", 26);
  (true, s2b "Content-Length:       1234", 26);
  (true, s2b "Content-Length:       1234", 26);
  (false, [], 0);
  (false, [], 0);
  (false, [], 0);
  (false, [], 0)].
Lemma TestSipHeaderContentLengthParse_end : forallb endCheck rows_TestSipHeaderContentLengthParse_end = true. Proof. vm_compute. reflexivity. Qed.

(** SipHeaderContentType_test.go (TestSipHeaderContentTypeParse). *)
Definition rows_TestSipHeaderContentTypeParse := [
  (s2b "Content-Type: application/sdp", true, 29, s2b "Content-Type: application/sdp");
  (s2b "conteNt-TypE: application/sdp", true, 29, s2b "Content-Type: application/sdp");
  (s2b "c: message/sip", true, 14, s2b "Content-Type: message/sip");
  (s2b " Content-Type: abc", false, 0, []);
  (s2b "Content-Type2: abc", false, 0, []);
  (s2b "Content-Type: ", false, 14, []);
  (s2b "Content-Type: abc", false, 17, []);
  (s2b "Content-Type: abc/", false, 18, [])].
Lemma TestSipHeaderContentTypeParse : forallb (objCheck (ctx 2048) (WKObj (KHdr KContentType))) rows_TestSipHeaderContentTypeParse = true. Proof. vm_compute. reflexivity. Qed.

(** SipHeaderContentType_test.go (TestSipHeaderContentTypeParse2). *)
Definition rows_TestSipHeaderContentTypeParse2 := [
  (s2b "Content-Type: application/sdp;abc;boundary=123", true, 46, s2b "Content-Type: application/sdp;boundary=123;abc")].
Lemma TestSipHeaderContentTypeParse2 : forallb (objCheck (known KContentType) (WKObj (KHdr KContentType))) rows_TestSipHeaderContentTypeParse2 = true. Proof. vm_compute. reflexivity. Qed.

(** SipHeaderExpires_test.go (TestSipHeaderExpiresParse). *)
Definition rows_TestSipHeaderExpiresParse := [
  (s2b "Expires: 1234", true, 13, s2b "Expires: 1234");
  (s2b "expIreS: 1234", true, 13, s2b "Expires: 1234");
  (s2b " Expires: 1234", false, 0, []);
  (s2b "Expire: 1234", false, 0, []);
  (s2b "Expires: ", false, 9, []);
  (s2b "Expires: a123", false, 9, [])].
Lemma TestSipHeaderExpiresParse : forallb (objCheck (ctx 2048) (WKObj (KHdr KExpires))) rows_TestSipHeaderExpiresParse = true. Proof. vm_compute. reflexivity. Qed.

(** SipHeaderFrom_test.go (TestSipHeaderFromParse). *)
Definition rows_TestSipHeaderFromParse := [
  (s2b "From: sip:abc@a.com;tag=1", true, 25, s2b "From: sip:abc@a.com;tag=1");
  (s2b "f: <sip:abc@a.com;user=ip>;tag=1", true, 32, s2b "From: <sip:abc@a.com;user=ip>;tag=1");
  (s2b "frOm: abc<sip:abc@a.com;user=ip>;tag=1", true, 38, s2b "From: abc<sip:abc@a.com;user=ip>;tag=1");
  (s2b " From: <sip:abc@a.com>;tag=1", false, 0, []);
  (s2b "From1: <sip:abc@a.com>;tag=1", false, 0, []);
  (s2b "From: ", false, 6, [])].
Lemma TestSipHeaderFromParse : forallb (objCheck (nameSpace false (ctx 2048)) (WKObj (KHdr KFrom))) rows_TestSipHeaderFromParse = true. Proof. vm_compute. reflexivity. Qed.

(** SipHeaderFrom_test.go (TestSipHeaderFromParse2). *)
Definition rows_TestSipHeaderFromParse2 := [
  (s2b "From: sip:abc@a.com;abc;tag=1", true, 29, s2b "From: <sip:abc@a.com>;tag=1;abc")].
Lemma TestSipHeaderFromParse2 : forallb (objCheck (known KFrom) (WKObj (KHdr KFrom))) rows_TestSipHeaderFromParse2 = true. Proof. vm_compute. reflexivity. Qed.

(** SipHeaderMaxForwards_test.go (TestSipHeaderMaxForwardsParse). *)
Definition rows_TestSipHeaderMaxForwardsParse := [
  (s2b "Max-Forwards: 123", true, 17, s2b "Max-Forwards: 123");
  (s2b "max-foRwardS: 123", true, 17, s2b "Max-Forwards: 123");
  (s2b " Max-Forwards: 123", false, 0, []);
  (s2b "Max-Forwards2: 123", false, 0, []);
  (s2b "Max-Forwards: ", false, 14, []);
  (s2b "Max-Forwards: a123", false, 14, [])].
Lemma TestSipHeaderMaxForwardsParse : forallb (objCheck (ctx 2048) (WKObj (KHdr KMaxForwards))) rows_TestSipHeaderMaxForwardsParse = true. Proof. vm_compute. reflexivity. Qed.

(** SipHeaderPAssertedIdentity_test.go (TestSipHeaderPAssertedIdentityParse). *)
Definition rows_TestSipHeaderPAssertedIdentityParse := [
  (s2b "P-Asserted-Identity: sip:abc@a.com", true, 34, s2b "P-Asserted-Identity: <sip:abc@a.com>");
  (s2b "p-AssErted-IdeNtity: <sip:abc@a.com;user=ip>", true, 44, s2b "P-Asserted-Identity: <sip:abc@a.com;user=ip>");
  (s2b "P-Asserted-Identity: abc<sip:abc@a.com;user=ip>", true, 47, s2b "P-Asserted-Identity: abc<sip:abc@a.com;user=ip>");
  (s2b "P-Asserted-Identity: <tel:+12358;tag=123>", true, 41, s2b "P-Asserted-Identity: <tel:+12358;tag=123>");
  (s2b " P-Asserted-Identity: <sip:abc@a.com>", false, 0, []);
  (s2b "P-Asserted-Identity1: sip:abc@a.com", false, 0, []);
  (s2b "P-Asserted-Identity: ", false, 21, [])].
Lemma TestSipHeaderPAssertedIdentityParse : forallb (objCheck (ctx 2048) (WKObj (KHdr KPai))) rows_TestSipHeaderPAssertedIdentityParse = true. Proof. vm_compute. reflexivity. Qed.

(** SipHeaderPath_test.go (TestSipHeaderPathParse). *)
Definition rows_TestSipHeaderPathParse := [
  (s2b "Path: <sip:abc@a.com>;tag=1", true, 27, s2b "Path: <sip:abc@a.com>;tag=1");
  (s2b "pAtH: <sip:abc@a.com;user=ip>;tag=1", true, 35, s2b "Path: <sip:abc@a.com;user=ip>;tag=1");
  (s2b "Path: abc<sip:abc@a.com;user=ip>;tag=1", true, 38, s2b "Path: abc<sip:abc@a.com;user=ip>;tag=1");
  (s2b "Path: <tel:+12358;tag=123>", true, 26, s2b "Path: <tel:+12358;tag=123>");
  (s2b " Path: <sip:abc@a.com>;tag=1", false, 0, []);
  (s2b "Path: sip:abc@a.com;tag=1", false, 9, []);
  (s2b "Path1: <sip:abc@a.com>;tag=1", false, 0, []);
  (s2b "Path: ", false, 6, [])].
Lemma TestSipHeaderPathParse : forallb (objCheck (ctx 2048) (WKObj (KHdr KPath))) rows_TestSipHeaderPathParse = true. Proof. vm_compute. reflexivity. Qed.

(** SipHeaderRAck_test.go (TestSipHeaderRAckParse). *)
Definition rows_TestSipHeaderRAckParse := [
  (s2b "RAck: 1234 123 INVITE", true, 21, s2b "RAck: 1234 123 INVITE");
  (s2b "rAcK: 1234 123 INVITE", true, 21, s2b "RAck: 1234 123 INVITE");
  (s2b " RAck: ", false, 0, []);
  (s2b "RAck2: ", false, 0, []);
  (s2b "RAck: ", false, 6, []);
  (s2b "RAck: 1234", false, 10, []);
  (s2b "RAck: 1234 " ++ [13; 10] ++ s2b "INVITE", false, 13, [])].
Lemma TestSipHeaderRAckParse : forallb (objCheck (ctx 2048) (WKObj (KHdr KRAck))) rows_TestSipHeaderRAckParse = true. Proof. vm_compute. reflexivity. Qed.

(** SipHeaderRSeq_test.go (TestSipHeaderRSeqParse). *)
Definition rows_TestSipHeaderRSeqParse := [
  (s2b "RSeq: 1234", true, 10, s2b "RSeq: 1234");
  (s2b "rSeQ: 1234", true, 10, s2b "RSeq: 1234");
  (s2b " RSeq: 1234", false, 0, []);
  (s2b "RSe: 1234", false, 0, []);
  (s2b "RSeq: ", false, 6, []);
  (s2b "RSeq: a123", false, 6, [])].
Lemma TestSipHeaderRSeqParse : forallb (objCheck (ctx 2048) (WKObj (KHdr KRSeq))) rows_TestSipHeaderRSeqParse = true. Proof. vm_compute. reflexivity. Qed.

(** SipHeaderRecordRoute_test.go (TestSipHeaderRecordRouteParse). *)
Definition rows_TestSipHeaderRecordRouteParse := [
  (s2b "Record-Route: <sip:abc@a.com>;tag=1", true, 35, s2b "Record-Route: <sip:abc@a.com>;tag=1");
  (s2b "REcord-roUte: <sip:abc@a.com;user=ip>;tag=1", true, 43, s2b "Record-Route: <sip:abc@a.com;user=ip>;tag=1");
  (s2b "Record-Route: abc<sip:abc@a.com;user=ip>;tag=1", true, 46, s2b "Record-Route: abc<sip:abc@a.com;user=ip>;tag=1");
  (s2b "Record-Route: <tel:+12358;tag=123>", true, 34, s2b "Record-Route: <tel:+12358;tag=123>");
  (s2b " Record-Route: <sip:abc@a.com>;tag=1", false, 0, []);
  (s2b "Record-Route: sip:abc@a.com;tag=1", false, 17, []);
  (s2b "Record-Route1: <sip:abc@a.com>;tag=1", false, 0, []);
  (s2b "Record-Route: ", false, 14, [])].
Lemma TestSipHeaderRecordRouteParse : forallb (objCheck (ctx 2048) (WKObj (KHdr KRecordRoute))) rows_TestSipHeaderRecordRouteParse = true. Proof. vm_compute. reflexivity. Qed.

(** SipHeaderRoute_test.go (TestSipHeaderRouteParse). *)
Definition rows_TestSipHeaderRouteParse := [
  (s2b "Route: <sip:abc@a.com>;tag=1", true, 28, s2b "Route: <sip:abc@a.com>;tag=1");
  (s2b "routE: <sip:abc@a.com;user=ip>;tag=1", true, 36, s2b "Route: <sip:abc@a.com;user=ip>;tag=1");
  (s2b "Route: abc<sip:abc@a.com;user=ip>;tag=1", true, 39, s2b "Route: abc<sip:abc@a.com;user=ip>;tag=1");
  (s2b "Route: <tel:+12358;tag=123>", true, 27, s2b "Route: <tel:+12358;tag=123>");
  (s2b " Route: <sip:abc@a.com>;tag=1", false, 0, []);
  (s2b "Route: sip:abc@a.com;tag=1", false, 10, []);
  (s2b "Route1: <sip:abc@a.com>;tag=1", false, 0, []);
  (s2b "Route: ", false, 7, [])].
Lemma TestSipHeaderRouteParse : forallb (objCheck (ctx 2048) (WKObj (KHdr KRoute))) rows_TestSipHeaderRouteParse = true. Proof. vm_compute. reflexivity. Qed.

(** SipHeaderServiceRoute_test.go (TestSipHeaderServiceRouteParse). *)
Definition rows_TestSipHeaderServiceRouteParse := [
  (s2b "Service-Route: <sip:abc@a.com>;tag=1", true, 36, s2b "Service-Route: <sip:abc@a.com>;tag=1");
  (s2b "Service-roUte: <sip:abc@a.com;user=ip>;tag=1", true, 44, s2b "Service-Route: <sip:abc@a.com;user=ip>;tag=1");
  (s2b "Service-Route: abc<sip:abc@a.com;user=ip>;tag=1", true, 47, s2b "Service-Route: abc<sip:abc@a.com;user=ip>;tag=1");
  (s2b "Service-Route: <tel:+12358;tag=123>", true, 35, s2b "Service-Route: <tel:+12358;tag=123>");
  (s2b " Service-Route: <sip:abc@a.com>;tag=1", false, 0, s2b "0");
  (s2b "Service-Route: sip:abc@a.com;tag=1", false, 18, s2b "0");
  (s2b "Service-Route1: <sip:abc@a.com>;tag=1", false, 0, []);
  (s2b "Service-Route: ", false, 15, [])].
Lemma TestSipHeaderServiceRouteParse : forallb (objCheck (ctx 2048) (WKObj (KHdr KServiceRoute))) rows_TestSipHeaderServiceRouteParse = true. Proof. vm_compute. reflexivity. Qed.

(** SipHeaderTo_test.go (TestSipHeaderToParse). *)
Definition rows_TestSipHeaderToParse := [
  (s2b "To: sip:abc@a.com;tag=1", true, 23, s2b "To: sip:abc@a.com;tag=1");
  (s2b "t: <sip:abc@a.com;user=ip>;tag=1", true, 32, s2b "To: <sip:abc@a.com;user=ip>;tag=1");
  (s2b "tO: abc<sip:abc@a.com;user=ip>;tag=1", true, 36, s2b "To: abc<sip:abc@a.com;user=ip>;tag=1");
  (s2b " To: <sip:abc@a.com>;tag=1", false, 0, []);
  (s2b "To1: <sip:abc@a.com>;tag=1", false, 0, []);
  (s2b "To: ", false, 4, [])].
Lemma TestSipHeaderToParse : forallb (objCheck (nameSpace false (ctx 2048)) (WKObj (KHdr KTo))) rows_TestSipHeaderToParse = true. Proof. vm_compute. reflexivity. Qed.

(** SipHeaderTo_test.go (TestSipHeaderToParse2). *)
Definition rows_TestSipHeaderToParse2 := [
  (s2b "To: sip:abc@a.com;xxx;tag=1", true, 27, s2b "To: <sip:abc@a.com>;tag=1;xxx")].
Lemma TestSipHeaderToParse2 : forallb (objCheck (known KTo) (WKObj (KHdr KTo))) rows_TestSipHeaderToParse2 = true. Proof. vm_compute. reflexivity. Qed.

(** SipHeaderVia_test.go (TestSipHeaderViaParse). *)
Definition rows_TestSipHeaderViaParse := [
  (s2b "Via: SIP/2.0/UDP 10.4.1.1:5070;branch=123", true, 41, s2b "Via: SIP/2.0/UDP 10.4.1.1:5070;branch=123");
  (s2b "Via: SIP/2/UDP 10.4.1.1:5070;branch=123", true, 39, s2b "Via: SIP/2/UDP 10.4.1.1:5070;branch=123");
  (s2b "Via: SIP " ++ [13; 10; 9] ++ s2b "/" ++ [13; 10] ++ s2b " 2.0" ++ [9] ++ s2b "/ UDP " ++ [13; 10; 9] ++ s2b "10.4.1.1:5070;branch=123", true, 53, s2b "Via: SIP/2.0/UDP 10.4.1.1:5070;branch=123");
  (s2b " Via: SIP/2.0/UDP 10.4.1.1:5070;branch=123", false, 0, []);
  (s2b "Via2: SIP/2.0/UDP 10.4.1.1:5070;branch=123", false, 0, []);
  (s2b "Via: SIP/2.0UDP 10.4.1.1:5070;branch=123", false, 12, []);
  (s2b "Via: SIP/2.0/@ 10.4.1.1:5070;branch=123", false, 13, []);
  (s2b "Via: SIP/2.0/UDP" ++ [13; 10] ++ s2b "10.4.1.1:5070;branch=123", false, 18, []);
  (s2b "Via:", false, 4, [])].
Lemma TestSipHeaderViaParse : forallb (objCheck (ctx 2048) (WKObj (KHdr KVia))) rows_TestSipHeaderViaParse = true. Proof. vm_compute. reflexivity. Qed.

(** SipHeaderVia_test.go (TestSipHeaderViaParse2). *)
Definition rows_TestSipHeaderViaParse2 := [
  (s2b "Via: SIP/2.0/UDP 10.4.1.1:5070;xxx;ttl=1;branch=123", true, 51, s2b "Via: SIP/2.0/UDP 10.4.1.1:5070;branch=123;ttl=1;xxx")].
Lemma TestSipHeaderViaParse2 : forallb (objCheck (known KVia) (WKObj (KHdr KVia))) rows_TestSipHeaderViaParse2 = true. Proof. vm_compute. reflexivity. Qed.

(** SipHeaders_test.go (TestFindCrlfRFC3261). *)
Definition rows_TestFindCrlfRFC3261 := [
  (s2b "122334545" ++ [13; 10], true, 9, 11);
  (s2b "122334545" ++ [13; 10] ++ s2b "adsad", true, 9, 11);
  (s2b "122334545" ++ [10], true, 9, 10);
  (s2b "122334545" ++ [10] ++ s2b "adsad", true, 9, 10);
  (s2b "122334545", false, 9, 9);
  (s2b "122334545" ++ [13], false, 10, 10);
  (s2b "122334545" ++ [13; 10] ++ s2b " ", false, 12, 12);
  (s2b "122334545" ++ [13; 10; 9], false, 12, 12);
  ([13], false, 1, 1);
  ([10], true, 0, 1);
  ([], false, 0, 0)].
Lemma TestFindCrlfRFC3261 : forallb crlfCheck rows_TestFindCrlfRFC3261 = true. Proof. vm_compute. reflexivity. Qed.

(** SipHeaders_test.go (TestParseRawHeadersOk). *)
Definition rows_TestParseRawHeadersOk := [
  (s2b "From: test" ++ [13; 10] ++ s2b "To: test" ++ [13; 10] ++ s2b "Call-ID: test" ++ [13; 10], s2b "From: test" ++ [13; 10] ++ s2b "To: test" ++ [13; 10] ++ s2b "Call-ID: test" ++ [13; 10])].
Lemma TestParseRawHeadersOk : forallb (roundCheck (ctx 2048) WKRaws) rows_TestParseRawHeadersOk = true. Proof. vm_compute. reflexivity. Qed.

(** SipHeaders_test.go (TestFindRawHeaders). *)
Definition rows_TestFindRawHeaders := [
  (s2b "From: test" ++ [13; 10] ++ s2b "To: test" ++ [13; 10] ++ s2b "Call-ID: test" ++ [13; 10], SIP_HDR_CALL_ID, true);
  (s2b "From: test" ++ [13; 10] ++ s2b "To: test" ++ [13; 10] ++ s2b "Call-ID: test" ++ [13; 10], SIP_HDR_CSEQ, false)].
Lemma TestFindRawHeaders : forallb findCheck rows_TestFindRawHeaders = true. Proof. vm_compute. reflexivity. Qed.

(** SipHostPort_test.go (TestSipHostPortParseHostOk). *)
Definition rows_TestSipHostPortParseHostOk := [
  (s2b "10.43.12.14", s2b "10.43.12.14", 11, 1);
  (s2b "10.43.12.14!", s2b "10.43.12.14", 11, 1);
  (s2b "10.43.12.14ab", s2b "10.43.12.14ab", 13, 3);
  (s2b "10.43.12.14.", s2b "10.43.12.14.", 12, 3);
  (s2b "10.43.12.14-", s2b "10.43.12.14-", 12, 3);
  (s2b "10.43.ab", s2b "10.43.ab", 8, 3);
  (s2b "10.43.1", s2b "10.43.1", 7, 3);
  (s2b "10.43!", s2b "10.43", 5, 3);
  (s2b "[1080:0:0:0:8:800:200C:417A]ab", s2b "[1080::8:800:200c:417a]", 28, 2);
  (s2b "ab-c.com", s2b "ab-c.com", 8, 3)].
Lemma TestSipHostPortParseHostOk : forallb hostCheck rows_TestSipHostPortParseHostOk = true. Proof. vm_compute. reflexivity. Qed.

(** SipHostPort_test.go (TestSipHostPortParseHostNOk). *)
Definition rows_TestSipHostPortParseHostNOk := [
  ([]);
  (s2b "!10.43.12.14");
  (s2b "[12");
  (s2b "[12!]")].
Lemma TestSipHostPortParseHostNOk : forallb (hostFails parseHost) rows_TestSipHostPortParseHostNOk = true. Proof. vm_compute. reflexivity. Qed.

(** SipHostPort_test.go (TestSipHostPortParseOk). *)
Definition rows_TestSipHostPortParseOk := [
  (s2b "10.43.12.14", s2b "10.43.12.14", 11, 1, false, 0);
  (s2b "10.43.12.14!", s2b "10.43.12.14", 11, 1, false, 0);
  (s2b "10.43.12.14:5000", s2b "10.43.12.14:5000", 16, 1, true, 5000);
  (s2b "10.43.1:65535", s2b "10.43.1:65535", 13, 3, true, 65535);
  (s2b "[1080:0:0:0:8:800:200C:417A]:0ab", s2b "[1080::8:800:200c:417a]:0", 30, 2, true, 0);
  (s2b "[1080:0:0:0:8:800:200C:417A]", s2b "[1080::8:800:200c:417a]", 28, 2, false, 0);
  (s2b "ab-c.com:123", s2b "ab-c.com:123", 12, 3, true, 123)].
Lemma TestSipHostPortParseOk : forallb hostportCheck rows_TestSipHostPortParseOk = true. Proof. vm_compute. reflexivity. Qed.

(** SipHostPort_test.go (TestSipHostPortParseNOk). *)
Definition rows_TestSipHostPortParseNOk := [
  ([]);
  (s2b "!10.43.12.14");
  (s2b "[12");
  (s2b "[12!]");
  (s2b "abd:");
  (s2b "abc:123456")].
Lemma TestSipHostPortParseNOk : forallb (hostFails parseHostPort) rows_TestSipHostPortParseNOk = true. Proof. vm_compute. reflexivity. Qed.

(** SipHostPort_test.go (TestWriteByteAsString). *)
Definition rows_TestWriteByteAsString := [
  (0, s2b "0");
  (1, s2b "1");
  (9, s2b "9");
  (99, s2b "99");
  (109, s2b "109");
  (255, s2b "255")].
Lemma TestWriteByteAsString : forallb byteCheck rows_TestWriteByteAsString = true. Proof. vm_compute. reflexivity. Qed.

(** SipHostPort_test.go (TestSipHostPortWriteIpv4AsString). *)
Definition rows_TestSipHostPortWriteIpv4AsString := [
  ([255; 254; 253; 252], s2b "255.254.253.252");
  ([255; 0; 0; 252], s2b "255.0.0.252");
  ([0; 0; 0; 252], s2b "0.0.0.252")].
Lemma TestSipHostPortWriteIpv4AsString : forallb ipv4Check rows_TestSipHostPortWriteIpv4AsString = true. Proof. vm_compute. reflexivity. Qed.

(** SipMethod_test.go (TestSipMethodParse). *)
Definition rows_TestSipMethodParse := [
  (s2b "INVITE: sip:abc@a.com", true, 6, s2b "INVITE");
  (s2b "PRACK: sip:abc@a.com", true, 5, s2b "PRACK");
  (s2b "UPDATE: sip:abc@a.com", true, 6, s2b "UPDATE");
  (s2b "INFO: sip:abc@a.com", true, 4, s2b "INFO");
  (s2b "ACK: sip:abc@a.com", true, 3, s2b "ACK");
  (s2b "BYE: sip:abc@a.com", true, 3, s2b "BYE");
  (s2b "REGISTER: sip:abc@a.com", true, 8, s2b "REGISTER");
  (s2b "SUBSCRIBE: sip:abc@a.com", true, 9, s2b "SUBSCRIBE");
  (s2b "NOTIFY: sip:abc@a.com", true, 6, s2b "NOTIFY");
  (s2b "REFER: sip:abc@a.com", true, 5, s2b "REFER");
  (s2b "OPTIONS: sip:abc@a.com", true, 7, s2b "OPTIONS");
  (s2b "MESSAGE: sip:abc@a.com", true, 7, s2b "MESSAGE");
  (s2b "PUBLISH: sip:abc@a.com", true, 7, s2b "PUBLISH");
  (s2b "INVITE1: sip:abc@a.com", true, 7, s2b "INVITE1");
  (s2b "iNVITE: sip:abc@a.com", true, 6, s2b "iNVITE")].
Lemma TestSipMethodParse : forallb (partCheck parseMethod encMethod) rows_TestSipMethodParse = true. Proof. vm_compute. reflexivity. Qed.

(** SipStartLine_test.go (TestSipStartLineParse). *)
Definition rows_TestSipStartLineParse := [
  (s2b "INVITE sip:123@a.com SIP/2.0" ++ [13; 10], true, true, 30, s2b "INVITE sip:123@a.com SIP/2.0" ++ [13; 10]);
  (s2b "SIP/2.0 200 OK" ++ [13; 10], true, false, 16, s2b "SIP/2.0 200 OK" ++ [13; 10]);
  (s2b "SIP/2.0 200 OK xx" ++ [13; 10], true, false, 19, s2b "SIP/2.0 200 OK xx" ++ [13; 10]);
  (s2b "SIP/2.0 200 " ++ [13; 10], true, false, 14, s2b "SIP/2.0 200 " ++ [13; 10]);
  (s2b "SIP/2.0 200 %23" ++ [13; 10], true, false, 17, s2b "SIP/2.0 200 %23" ++ [13; 10]);
  (s2b " INVITE sip:123@a.com SIP/2.0" ++ [13; 10], false, true, 0, []);
  (s2b "INVITE", false, true, 6, []);
  (s2b "INVITE@ sip:123@a.com SIP/2.0" ++ [13; 10], false, true, 6, []);
  (s2b "INVITE sip: SIP/2.0" ++ [13; 10], false, true, 11, []);
  (s2b "INVITE sip:123@a.com", false, true, 20, []);
  (s2b "INVITE sip:123@a.com@ SIP/2.0" ++ [13; 10], false, true, 20, []);
  (s2b "INVITE sip:123@a.com pSIP/2.0" ++ [13; 10], false, true, 21, []);
  (s2b "INVITE sip:123@a.com SIP/2.0", false, true, 28, []);
  (s2b "INVITE sip:123@a.com SIP/2.0" ++ [10], false, true, 28, []);
  (s2b "INVITE sip:123@a.com SIP/2.0" ++ [13], false, true, 28, []);
  (s2b "INVITE sip:123@a.com SIP/2.0" ++ [13] ++ s2b "t", false, true, 28, []);
  (s2b "INVITE sip:123@a.com SIP/2.0t" ++ [10], false, true, 28, []);
  (s2b "pSIP/2.0 200 OK" ++ [13; 10], false, true, 4, []);
  (s2b "SIP/2.0", false, false, 7, []);
  (s2b "SIP/2.0&", false, false, 7, []);
  (s2b "SIP/2.0 ", false, false, 8, []);
  (s2b "SIP/2.0 a", false, false, 8, []);
  (s2b "SIP/2.0 123", false, false, 11, []);
  (s2b "SIP/2.0 12a", false, false, 10, []);
  (s2b "SIP/2.0 123 ", false, false, 12, []);
  (s2b "SIP/2.0 123 X", false, false, 13, []);
  (s2b "SIP/2.0 123 X" ++ [13], false, false, 13, []);
  (s2b "SIP/2.0 123 X" ++ [10], false, false, 13, [])].
Lemma TestSipStartLineParse : forallb lineCheck rows_TestSipStartLineParse = true. Proof. vm_compute. reflexivity. Qed.

(** SipUri_test.go (TestSipUriParseOK). *)
Definition rows_TestSipUriParseOK := [
  (s2b "sip:123@abc.com;ttl=10;user=phone;a;b;c;d;e?xx=yy&x1=aa", s2b "123", [], s2b "abc.com", false);
  (s2b "Sip:123:tsdd@[1080::8:800:200c:417a]:5061", s2b "123", s2b "tsdd", s2b "[1080::8:800:200c:417a]:5061", false);
  (s2b "sip:123:@10.43.12.14", s2b "123", [], s2b "10.43.12.14", false);
  (s2b "sip:123:@10.43.12.14;x1", s2b "123", [], s2b "10.43.12.14", false);
  (s2b "sip:%23123%31:@10.43.12.14", s2b "#1231", [], s2b "10.43.12.14", false);
  (s2b "sips:123@abc.com;ttl=10;user=phone;a;b;c;d;e?xx=yy&x1=aa", s2b "123", [], s2b "abc.com", true);
  (s2b "sips:123:tsdd@[1080::8:800:200c:417a]:5061", s2b "123", s2b "tsdd", s2b "[1080::8:800:200c:417a]:5061", true);
  (s2b "sips:123:@10.43.12.14", s2b "123", [], s2b "10.43.12.14", true);
  (s2b "sips:%23123%31:@10.43.12.14", s2b "#1231", [], s2b "10.43.12.14", true);
  (s2b "sip:abc@biloxi.com;transport=tcp;method=REGISTER", s2b "abc", [], s2b "biloxi.com", false)].
Lemma TestSipUriParseOK : forallb uriCheck rows_TestSipUriParseOK = true. Proof. vm_compute. reflexivity. Qed.

(** SipUri_test.go (TestSipUriParseNOK). *)
Definition rows_TestSipUriParseNOK := [
  (s2b "sipx:@abc.com", 0);
  (s2b "sip:@abc.com", 4);
  (s2b "sip::asas@abc.com", 4);
  (s2b "sip:#123@abc.com", 4);
  (s2b "sip:123:2#@abc.com", 9);
  (s2b "sip:123:2@abc.com;;", 18);
  (s2b "sip:123:2@abc.com;", 18);
  (s2b "sip:123:2@abc.com;a=;", 20);
  (s2b "sip:123:2@abc.com;ttl=10?q", 26);
  (s2b "sip:123:2@abc.com;a=b?", 22);
  (s2b "sip:123:2@abc.com;a=b?@", 22);
  (s2b "sip:123:2@abc.com;a=b?c", 23)].
Lemma TestSipUriParseNOK : forallb (failCheck (ctx 4096) (WKObj KSipUri)) rows_TestSipUriParseNOK = true. Proof. vm_compute. reflexivity. Qed.

(** SipUri_test.go (TestSipUriEncode). *)
Definition rows_TestSipUriEncode := [
  (s2b "sip:123@abc.com;ttl=10;user=phone;a;b;c;d;e?xx=yy&x1=aa", s2b "sip:123@abc.com;ttl=10;user=phone;a;b;c;d;e?xx=yy&x1=aa");
  (s2b "sip:123:tsdd@[1080::8:800:200c:417a]:5061", s2b "sip:123:tsdd@[1080::8:800:200c:417a]:5061");
  (s2b "sip:123:@10.43.12.14", s2b "sip:123:@10.43.12.14");
  (s2b "sip:123@10.43.12.14;method=INVITE", s2b "sip:123@10.43.12.14;method=INVITE");
  (s2b "sip:%23123%31:@10.43.12.14", s2b "sip:%231231:@10.43.12.14");
  (s2b "sip:abc@biloxi.com;transport=tcp;method=REGISTER", s2b "sip:abc@biloxi.com;transport=tcp;method=REGISTER")].
Lemma TestSipUriEncode : forallb (roundCheck (ctx 10240) (WKObj KSipUri)) rows_TestSipUriEncode = true. Proof. vm_compute. reflexivity. Qed.

(** SipUri_test.go (TestSipUriEncode2). *)
Definition rows_TestSipUriEncode2 := [
  (s2b "sip:123@abc.com;ttl=10;user=phone;a;b;c;d;e?xx=yy&x1=aa", s2b "sip:123@abc.com;user=phone;ttl=10;a;b;c;d;e?xx=yy&x1=aa");
  (s2b "sip:123:tsdd@[1080::8:800:200c:417a]:5061", s2b "sip:123:tsdd@[1080::8:800:200c:417a]:5061");
  (s2b "sip:123:@10.43.12.14", s2b "sip:123:@10.43.12.14");
  (s2b "sip:123@10.43.12.14;method=INVITE", s2b "sip:123@10.43.12.14;method=INVITE");
  (s2b "sip:%23123%31:@10.43.12.14", s2b "sip:%231231:@10.43.12.14");
  (s2b "sip:abc@biloxi.com;transport=tcp;method=REGISTER", s2b "sip:abc@biloxi.com;transport=tcp;method=REGISTER")].
Lemma TestSipUriEncode2 : forallb (roundCheck (uriEnv false) (WKObj KSipUri)) rows_TestSipUriEncode2 = true. Proof. vm_compute. reflexivity. Qed.

(** SipUri_test.go (TestSipUriEncode3). *)
Definition rows_TestSipUriEncode3 := [
  (s2b "sip:123@abc.com;ttl=10;user=phone;a;b;c;d;e?xx=yy&x1=aa", s2b "sip:123@abc.com;user=phone;ttl=10;a;b;c;d;e?xx=yy&x1=aa");
  (s2b "sip:123:tsdd@[1080::8:800:200c:417a]:5061", s2b "sip:123:tsdd@[1080::8:800:200c:417a]:5061");
  (s2b "sip:123:@10.43.12.14", s2b "sip:123:@10.43.12.14");
  (s2b "sip:123@10.43.12.14;method=INVITE", s2b "sip:123@10.43.12.14;method=INVITE");
  (s2b "sip:%23123%31:@10.43.12.14", s2b "sip:#1231:@10.43.12.14");
  (s2b "sip:abc@biloxi.com;transport=tcp;method=REGISTER", s2b "sip:abc@biloxi.com;transport=tcp;method=REGISTER")].
Lemma TestSipUriEncode3 : forallb (roundCheck (uriEnv true) (WKObj KSipUri)) rows_TestSipUriEncode3 = true. Proof. vm_compute. reflexivity. Qed.

(** SipVersion_test.go (TestSipVersionParse). *)
Definition rows_TestSipVersionParse := [
  (s2b "Sip/2.0", true, 7, s2b "SIP/2.0");
  (s2b "Sip/22.10", true, 9, s2b "SIP/22.10");
  (s2b "Si", false, 0, []);
  (s2b "Sip", false, 0, []);
  (s2b "abc/2.0", false, 0, []);
  (s2b "Sip/a.b", false, 4, []);
  (s2b "Sip/20^b", false, 6, []);
  (s2b "Sip/20.b", false, 7, []);
  (s2b "Sip/.b0", false, 4, []);
  (s2b "sip" ++ [9] ++ s2b "/.b", false, 0, []);
  (s2b "sip " ++ [9] ++ s2b "/.b", false, 0, [])].
Lemma TestSipVersionParse : forallb (partCheck parseVersion encVersion) rows_TestSipVersionParse = true. Proof. vm_compute. reflexivity. Qed.

(** TelUri_test.go (TestTelUriParseOK). *)
Definition rows_TestTelUriParseOK := [
  (s2b "tel:+861234", true, s2b "+861234", [], false);
  (s2b "tel:+86-12.(34)", true, s2b "+861234", [], false);
  (s2b "tel:861234;phone-context=+123", false, s2b "861234", s2b "+123", false);
  (s2b "tel:861234;phone-context=+123", false, s2b "861234", s2b "+123", false);
  (s2b "tel:861234;phone-context=a.com", false, s2b "861234", s2b "a.com", true);
  (s2b "tel:86-1.2(34);phone-context=a.com", false, s2b "861234", s2b "a.com", true)].
Lemma TestTelUriParseOK : forallb telCheck rows_TestTelUriParseOK = true. Proof. vm_compute. reflexivity. Qed.

(** TelUri_test.go (TestTelUriParseNOK). *)
Definition rows_TestTelUriParseNOK := [
  (s2b "tel:.-()", 8)].
Lemma TestTelUriParseNOK : forallb (failCheck (ctx 2048) (WKObj KTelUri)) rows_TestTelUriParseNOK = true. Proof. vm_compute. reflexivity. Qed.

(** TelUri_test.go (TestTelUriEncode). *)
Definition rows_TestTelUriEncode := [
  (s2b "tel:+861234", s2b "tel:+861234");
  (s2b "tel:+861234;phonex=+123", s2b "tel:+861234;phonex=+123");
  (s2b "tel:861234;phone-context=+123", s2b "tel:861234;phone-context=+123");
  (s2b "tel:861234;x1=5;y;phone-context=+1-2.3(56);zz", s2b "tel:861234;phone-context=+12356;x1=5;y;zz");
  (s2b "tel:861234;x1=5;y;phone-context=abc.com;zz", s2b "tel:861234;phone-context=abc.com;x1=5;y;zz")].
Lemma TestTelUriEncode : forallb (roundCheck (ctx 10240) (WKObj KTelUri)) rows_TestTelUriEncode = true. Proof. vm_compute. reflexivity. Qed.

(** SipMsg_test.go (TestSipMsgParseWithoutBody). *)
Definition rows_TestSipMsgParseWithoutBody := [
  (s2b "INVITE sip:123@a.com SIP/2.0" ++ [13; 10] ++ s2b "From: sip:abc@a.com;tag=1" ++ [13; 10] ++ s2b "Allow: a, b" ++ [13; 10] ++ s2b "Content-Length: 123" ++ [13; 10; 13; 10], true, 93, s2b "INVITE sip:123@a.com SIP/2.0" ++ [13; 10] ++ s2b "From: <sip:abc@a.com>;tag=1" ++ [13; 10] ++ s2b "Content-Length:        123" ++ [13; 10] ++ s2b "Allow: a, b" ++ [13; 10; 13; 10]);
  (s2b "INVITE sip:123@a.com SIP/2.0" ++ [13; 10] ++ s2b "From: sip:abc@a.com;tag=1" ++ [13; 10] ++ s2b "Allow: a, b" ++ [13; 10; 13; 10], true, 72, s2b "INVITE sip:123@a.com SIP/2.0" ++ [13; 10] ++ s2b "From: <sip:abc@a.com>;tag=1" ++ [13; 10] ++ s2b "Content-Length:          0" ++ [13; 10] ++ s2b "Allow: a, b" ++ [13; 10; 13; 10]);
  (s2b "INVITE sip:123@a.com SIP/2.0" ++ [13; 10] ++ s2b "Via: SIP/2.0/UDP 10.189.156.16:5061;branch=z9hG4bK123, SIP/2.0/UDP 10.189.156.16:5062;branch=z9hG4bK124" ++ [13; 10] ++ s2b " , SIP/2.0/UDP 10.189.156.16:5064;branch=z9hG4bK126" ++ [13; 10] ++ s2b "Allow: a, b" ++ [13; 10] ++ s2b "Via: SIP/2.0/UDP 10.189.156.16:5063;branch=z9hG4bK125" ++ [13; 10] ++ s2b "From: sip:abc@a.com;tag=1" ++ [13; 10; 13; 10], true, 285, s2b "INVITE sip:123@a.com SIP/2.0" ++ [13; 10] ++ s2b "Via: SIP/2.0/UDP 10.189.156.16:5061;branch=z9hG4bK123, SIP/2.0/UDP 10.189.156.16:5062;branch=z9hG4bK124, SIP/2.0/UDP 10.189.156.16:5064;branch=z9hG4bK126, SIP/2.0/UDP 10.189.156.16:5063;branch=z9hG4bK125" ++ [13; 10] ++ s2b "From: <sip:abc@a.com>;tag=1" ++ [13; 10] ++ s2b "Content-Length:          0" ++ [13; 10] ++ s2b "Allow: a, b" ++ [13; 10; 13; 10]);
  (s2b " INVITE sip:123@a.com SIP/2.0" ++ [13; 10], false, 0, []);
  (s2b "INVITE sip:123@a.com SIP/2.0" ++ [13; 10], false, 30, []);
  (s2b "INVITE sip:123@a.com SIP/2.0" ++ [13; 10] ++ s2b "Via:", false, 34, [])].
Lemma TestSipMsgParseWithoutBody : forallb (objCheck (ctx 10240) WKMsg) rows_TestSipMsgParseWithoutBody = true. Proof. vm_compute. reflexivity. Qed.

(** SipMsg_test.go (TestSipMsgParseWithOneBody). *)
Definition rows_TestSipMsgParseWithOneBody := [
  (s2b "INVITE sip:6135000@24.15.255.4 SIP/2.0" ++ [13; 10] ++ s2b "Content-Length: 10" ++ [13; 10] ++ s2b "Via: SIP/2.0/UDP 24.15.255.101:5060" ++ [13; 10] ++ s2b "From: ""User ID"" <sip:6140000@24.15.255.4>;tag=dab70900252036d7134be-4ec05abe" ++ [13; 10] ++ s2b "To: <sip:6135000@24.15.255.4>" ++ [13; 10] ++ s2b "Call-ID: 0009b7da-0352000f-30a69b83-0e7b53d6@24.15.255.101" ++ [13; 10] ++ s2b "CSeq: 101 INVITE" ++ [13; 10] ++ s2b "Content-Disposition: render" ++ [13; 10] ++ s2b "Content-XYZ: abc, def" ++ [13; 10] ++ s2b "Content-XYZ: 123" ++ [13; 10] ++ s2b "Content-Encoding: gzip, tar" ++ [13; 10] ++ s2b "Contact: sip:6140000@24.15.255.101:5060" ++ [13; 10] ++ s2b "Content-Type: application/sdp" ++ [13; 10; 13; 10] ++ s2b "1234567890",
   s2b "INVITE sip:6135000@24.15.255.4 SIP/2.0" ++ [13; 10] ++ s2b "Via: SIP/2.0/UDP 24.15.255.101:5060" ++ [13; 10] ++ s2b "Contact: <sip:6140000@24.15.255.101:5060>" ++ [13; 10] ++ s2b "From: ""User ID""<sip:6140000@24.15.255.4>;tag=dab70900252036d7134be-4ec05abe" ++ [13; 10] ++ s2b "To: <sip:6135000@24.15.255.4>" ++ [13; 10] ++ s2b "Call-ID: 0009b7da-0352000f-30a69b83-0e7b53d6@24.15.255.101" ++ [13; 10] ++ s2b "Content-Length:         10" ++ [13; 10] ++ s2b "CSeq: 101 INVITE" ++ [13; 10] ++ s2b "Content-Type: application/sdp" ++ [13; 10] ++ s2b "Content-Disposition: render" ++ [13; 10] ++ s2b "Content-XYZ: abc, def" ++ [13; 10] ++ s2b "Content-XYZ: 123" ++ [13; 10] ++ s2b "Content-Encoding: gzip, tar" ++ [13; 10; 13; 10] ++ s2b "1234567890")].
Lemma TestSipMsgParseWithOneBody : forallb (roundCheck (ctx 10240) WKMsg) rows_TestSipMsgParseWithOneBody = true. Proof. vm_compute. reflexivity. Qed.

(** SipMsg_test.go (TestSipMsgParseWithMultiBody). *)
Definition rows_TestSipMsgParseWithMultiBody := [
  (s2b "INVITE sip:6135000@24.15.255.4 SIP/2.0" ++ [13; 10] ++ s2b "Content-Length: 10" ++ [13; 10] ++ s2b "Via: SIP/2.0/UDP 24.15.255.101:5060" ++ [13; 10] ++ s2b "From: ""User ID"" <sip:6140000@24.15.255.4>;tag=dab70900252036d7134be-4ec05abe" ++ [13; 10] ++ s2b "To: <sip:6135000@24.15.255.4>" ++ [13; 10] ++ s2b "Call-ID: 0009b7da-0352000f-30a69b83-0e7b53d6@24.15.255.101" ++ [13; 10] ++ s2b "CSeq: 101 INVITE" ++ [13; 10] ++ s2b "Contact: sip:6140000@24.15.255.101:5060" ++ [13; 10] ++ s2b "Content-Type: multipart/mixed;boundary=simple-boundary" ++ [13; 10; 13; 10] ++ s2b "--simple-boundarypadding" ++ [13; 10] ++ s2b "Content-Encoding: gzip, tar" ++ [13; 10; 13; 10] ++ s2b "1234567890" ++ [13; 10] ++ s2b "--simple-boundarypadding" ++ [13; 10] ++ s2b "Content-XYZ: abc, def" ++ [13; 10; 13; 10] ++ s2b "abcsdfsdfsf" ++ [13; 10] ++ s2b "--simple-boundary--",
   s2b "INVITE sip:6135000@24.15.255.4 SIP/2.0" ++ [13; 10] ++ s2b "Via: SIP/2.0/UDP 24.15.255.101:5060" ++ [13; 10] ++ s2b "Contact: <sip:6140000@24.15.255.101:5060>" ++ [13; 10] ++ s2b "From: ""User ID""<sip:6140000@24.15.255.4>;tag=dab70900252036d7134be-4ec05abe" ++ [13; 10] ++ s2b "To: <sip:6135000@24.15.255.4>" ++ [13; 10] ++ s2b "Call-ID: 0009b7da-0352000f-30a69b83-0e7b53d6@24.15.255.101" ++ [13; 10] ++ s2b "Content-Length:        138" ++ [13; 10] ++ s2b "CSeq: 101 INVITE" ++ [13; 10] ++ s2b "Content-Type: multipart/mixed;boundary=simple-boundary" ++ [13; 10] ++ s2b "MIME-Version: 1.0" ++ [13; 10; 13; 10] ++ s2b "--simple-boundary" ++ [13; 10] ++ s2b "Content-Encoding: gzip, tar" ++ [13; 10; 13; 10] ++ s2b "1234567890" ++ [13; 10] ++ s2b "--simple-boundary" ++ [13; 10] ++ s2b "Content-XYZ: abc, def" ++ [13; 10; 13; 10] ++ s2b "abcsdfsdfsf" ++ [13; 10] ++ s2b "--simple-boundary--")].
Lemma TestSipMsgParseWithMultiBody : forallb (roundCheck (ctx 10240) WKMsg) rows_TestSipMsgParseWithMultiBody = true. Proof. vm_compute. reflexivity. Qed.

(** SipMsg_test.go (TestSipMsgParseWithMultiBodyRemoveContentType). *)
Definition rows_TestSipMsgParseWithMultiBodyRemoveContentType := [
  (s2b "INVITE sip:6135000@24.15.255.4 SIP/2.0" ++ [13; 10] ++ s2b "Content-Length: 10" ++ [13; 10] ++ s2b "Via: SIP/2.0/UDP 24.15.255.101:5060" ++ [13; 10] ++ s2b "From: ""User ID"" <sip:6140000@24.15.255.4>;tag=dab70900252036d7134be-4ec05abe" ++ [13; 10] ++ s2b "To: <sip:6135000@24.15.255.4>" ++ [13; 10] ++ s2b "Call-ID: 0009b7da-0352000f-30a69b83-0e7b53d6@24.15.255.101" ++ [13; 10] ++ s2b "CSeq: 101 INVITE" ++ [13; 10] ++ s2b "Contact: sip:6140000@24.15.255.101:5060" ++ [13; 10] ++ s2b "Content-Type: multipart/mixed;boundary=simple-boundary" ++ [13; 10; 13; 10] ++ s2b "--simple-boundarypadding" ++ [13; 10] ++ s2b "Content-Encoding: gzip, tar" ++ [13; 10; 13; 10] ++ s2b "1234567890" ++ [13; 10] ++ s2b "--simple-boundarypadding" ++ [13; 10] ++ s2b "Content-XYZ: abc, def" ++ [13; 10; 13; 10] ++ s2b "abcsdfsdfsf" ++ [13; 10] ++ s2b "--simple-boundary--",
   s2b "INVITE sip:6135000@24.15.255.4 SIP/2.0" ++ [13; 10] ++ s2b "Via: SIP/2.0/UDP 24.15.255.101:5060" ++ [13; 10] ++ s2b "Contact: <sip:6140000@24.15.255.101:5060>" ++ [13; 10] ++ s2b "From: ""User ID""<sip:6140000@24.15.255.4>;tag=dab70900252036d7134be-4ec05abe" ++ [13; 10] ++ s2b "To: <sip:6135000@24.15.255.4>" ++ [13; 10] ++ s2b "Call-ID: 0009b7da-0352000f-30a69b83-0e7b53d6@24.15.255.101" ++ [13; 10] ++ s2b "Content-Length:        186" ++ [13; 10] ++ s2b "CSeq: 101 INVITE" ++ [13; 10] ++ s2b "Content-Type: multipart/mixed;boundary=""sip-unique-boundary-aasdasdewfd""" ++ [13; 10] ++ s2b "MIME-Version: 1.0" ++ [13; 10; 13; 10] ++ s2b "--sip-unique-boundary-aasdasdewfd" ++ [13; 10] ++ s2b "Content-Encoding: gzip, tar" ++ [13; 10; 13; 10] ++ s2b "1234567890" ++ [13; 10] ++ s2b "--sip-unique-boundary-aasdasdewfd" ++ [13; 10] ++ s2b "Content-XYZ: abc, def" ++ [13; 10; 13; 10] ++ s2b "abcsdfsdfsf" ++ [13; 10] ++ s2b "--sip-unique-boundary-aasdasdewfd--")].
Lemma TestSipMsgParseWithMultiBodyRemoveContentType : forallb withoutType rows_TestSipMsgParseWithMultiBodyRemoveContentType = true. Proof. vm_compute. reflexivity. Qed.

(** ** The tests without a table *)
Definition allocCheck (r : N * N * bool) : bool := let '(size, n, ok) := r in (Capacity (Init size) =? size) && Bool.eqb (negb (fst (Alloc n (Init size)) =? NILPTR)) ok.
(** AbnfMem_test.go (TestMemAllocatorAlloc, TestMemAllocatorAllocEx). *)
Lemma TestMemAllocatorAlloc : forallb allocCheck [(200, 1, true); (200, 199, true); (100, 0, false)] = true. Proof. vm_compute. reflexivity. Qed.
Lemma TestMemAllocatorAllocEx : map (fun n => let '(p, k, _) := AllocEx n (Init 200) in (negb (p =? NILPTR), k)) [1; 2] = [(true, 1); (true, 2)]. Proof. vm_compute. reflexivity. Qed.
(** AbnfMem_test.go (TestMemAllocatorUsed): used, allocNum and allocNumOk after each request, then FreePart and FreeAll. *)
Fixpoint allocAll (ns : list N) (a : arena) : list (bool * N * N * N) * arena :=
  match ns with
  | [] => ([], a)
  | n :: ns' => let (p, a') := Alloc n a in let (l, a'') := allocAll ns' a' in ((negb (p =? NILPTR), Used a', allocNum a', allocNumOk a') :: l, a'')
  end.
Lemma TestMemAllocatorUsed :
  let (l, a) := allocAll [101; 203; 0; 21; 1] (Init 1000) in
  l = [(true, 101, 1, 1); (true, 304, 2, 2); (false, 304, 3, 2); (true, 325, 4, 3); (true, 326, 5, 4)] /\ freeAllNum a = 0 /\ freePartNum a = 0 /\
  Used (FreePart 100 a) = 100 /\ Used (FreePart 200 (FreePart 100 a)) = 100 /\ Used (FreeAll a) = 0.
Proof. vm_compute. repeat split. Qed.
(** AbnfBasic_test.go (TestEncodeUIntWithWidth, TestAllocCString1, TestAllocCStringWithUnescape). *)
Lemma TestEncodeUIntWithWidth : EncodeUIntWithWidth 123 10%Z = Some (s2b "       123"). Proof. vm_compute. reflexivity. Qed.
Definition stored (o : ares) : option bytes := match o with AOk p a _ => readCString a p | _ => None end.
Lemma TestAllocCString1 : stored (AllocCString (s2b "0123456%37%38%39") (Init 10240)) = Some (s2b "0123456%37%38%39"). Proof. vm_compute. reflexivity. Qed.
Lemma TestAllocCStringWithUnescape : stored (AllocCStringWithUnescapeNum (s2b "0123456%37%38%39") 3 (Init 10240)) = Some (s2b "0123456789"). Proof. vm_compute. reflexivity. Qed.
(** AbnfPtr_test.go (TestAbnfPtrCStringEqualNoCase). *)
Lemma TestAbnfPtrCStringEqualNoCase : match stored (ParseAndAllocCStringEscapable SIP_PNAME (Init 10240) (s2b "user")) with Some t => CStringEqualNoCase t (s2b "user") = Some true | None => False end.
Proof. vm_compute. reflexivity. Qed.
(** SipHeadersIndex_test.go (TestGetSipHeaderIndex): every name of the table, as it is, in lower case and in upper case. *)
Definition lower (c : N) : N := if (65 <=? c) && (c <=? 90) then c + 32 else c.
Definition upper (c : N) : N := if (97 <=? c) && (c <=? 122) then c - 32 else c.
Lemma TestGetSipHeaderIndex : forallb (fun q => forallb (fun t => match GetSipHeaderIndex t with Some (i, _) => i =? fst q | None => false end)
  [hiName (snd q); map lower (hiName (snd q)); map upper (hiName (snd q))]) headerInfos = true.
Proof. vm_compute. reflexivity. Qed.
(** SipHostPort_test.go (TestSipHostPortUnknownString, TestSipHostPortIpv4String, TestSipHostPortIpv6String, TestSipHostPortHostnameString). *)
Lemma TestSipHostPortString :
  map (encHostPort (ctx 1024)) [mkhp HUnknown None; mkhp (HIpv4 10 1 1 1) None; mkhp (HIpv6 mapped) None; mkhp (HName (s2b "abc.com")) None] = [s2b "unknown host"; s2b "10.1.1.1"; s2b "[10.1.1.1]"; s2b "abc.com"].
Proof. vm_compute. reflexivity. Qed.
