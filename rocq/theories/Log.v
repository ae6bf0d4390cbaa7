(** The errors recorded in context.Errors: the parsers with their calls of AddError. The results are those of the value layer (LogProofs.v); only the
    log is new. *)
From Verif Require Import Base Charset Num Lws Str Monad MethodTree HeaderTree Lookup Host Uri Tel GenParam Addr StartLine Headers RawHeaders Msg.

(** AbnfError.go:8-15 (type AbnfError) inside one parse: the unread input at the recorded position, and the description. *)
Record err := mkerr { eAt : bytes; eText : string }.
(** A parser together with the errors it adds (oldest first): AbnfContext.go:70-73 (Context.AddError), AbnfError.go:60-62 (AbnfErrors.Add). *)
Definition L A := env -> st -> res A * list err.

(** A call that adds no error. *)
Definition silent {A} (p : P A) : L A := fun e s => (p e s, []).
Definition bindL {A B} (p : L A) (f : A -> L B) : L B := fun e s =>
  match p e s with
  | (Ok a s', l) => let '(r, l') := f a e s' in (r, l ++ l')
  | (Fail s', l) => (Fail s', l)
  | (Panic, l) => (Panic, l)
  | (Loop, l) => (Loop, l)
  end.
Notation "x <+ p ;+ q" := (bindL p (fun x => q)) (at level 61, p at next level, right associativity).
Notation "p ;+> q" := (bindL p (fun _ => q)) (at level 61, right associativity).
Definition retL {A} (a : A) : L A := silent (ret a).
Definition onRestL {A} (f : bytes -> L A) : L A := fun e s => f (rest s) e s.
Definition gotoL (r : bytes) : L unit := silent (goto r).
Definition withEnvL {A} (f : env -> L A) : L A := fun e s => f e e s.
(** [if !ok { context.AddError(context.parsePos, d); return false }]. *)
Definition orErr {A} (d : string) (p : L A) : L A := fun e s =>
  match p e s with (Fail s', l) => (Fail s', l ++ [mkerr (rest s') d]) | x => x end.
(** [context.AddError(context.parsePos, d); return false]. *)
Definition failL {A} (d : string) : L A := orErr d (silent pfail).
Fixpoint iterL {A B} (fuel : nat) (body : A -> L (A + B)) (a : A) : L B :=
  match fuel with
  | O => fun _ _ => (Loop, [])
  | S f => x <+ body a ;+ match x with inl a' => iterL f body a' | inr b => retL b end
  end.
Definition loopL {A B} (body : A -> L (A + B)) (a : A) : L B :=
  fun e s => iterL (S (List.length (rest s))) body a e s.
(** The position is put back, the errors stay. *)
Definition orRestoreL {A} (p q : L A) : L A := fun e s =>
  match p e s with (Fail s', l) => let '(r, l') := q e (mkst (rest s) (used s')) in (r, l ++ l') | x => x end.
Definition contIfL {A} (c : N) (a : A) : L (A + A) := silent (contIf c a).
Definition sepLoopL {A} (c : N) (one : A -> L A) (a0 : A) : L A :=
  loopL (fun a => onRestL (fun r => match r with [] => retL (inr a) | _ => bindL (one a) (contIfL c) end)) a0.

(** ** Strings *)
(** AbnfMem.go:134-177 (ParseAndAllocCString): the "no mem" and "empty" errors are recorded after the run, although the position stays in front of it. *)
Definition paCStringL (cs : charset) : L bytes := fun e s =>
  let u := used s + 2 in
  if negb (ltMem e u) then (Fail s, [mkerr (rest s) "no mem"]) else
  let '(tok, r) := span (inset cs) (rest s) in
  if negb (fits e u (len tok)) then (Panic, []) else
  match tok with
  | [] => (Fail s, [mkerr r "empty"])
  | _ => if negb (ltMem e (u + len tok)) then (Fail s, [mkerr r "no mem"]) else (Ok tok (mkst r (u + len tok)), [])
  end.
(** AbnfMem.go:237-298 (ParseAndAllocCStringFromPos). *)
Definition paCStringFromPosL (mid : bytes) (cs : charset) : L bytes := fun e s =>
  let u := used s + 2 in
  let pre := firstn (List.length (rest s) - List.length mid) (rest s) in
  if negb (beq pre []) && negb (ltMem e (u + len pre)) then (Fail s, [mkerr (rest s) "no mem"]) else
  if negb (ltMem e (u + len pre)) then (Fail (mkst mid (used s)), [mkerr mid "no mem"]) else
  let '(tok, r) := span (inset cs) mid in
  if negb (fits e (u + len pre) (len tok)) then (Panic, []) else
  match pre ++ tok with
  | [] => (Fail (mkst r (used s)), [mkerr r "empty"])
  | _ => if negb (ltMem e (u + len pre + len tok)) then (Fail (mkst r (used s)), [mkerr r "no mem"])
         else (Ok (pre ++ tok) (mkst r (u + len pre + len tok)), [])
  end.
(** AbnfMem.go:179-235 (ParseAndAllocTelNumberRemoveVisualSeperator). *)
Definition paTelNumberL (cs : charset) : L bytes := fun e s =>
  let u := used s + 2 in
  if negb (ltMem e u) then (Fail s, [mkerr (rest s) "no mem"]) else
  let '(plus, r0) := match rest s with x :: r => if x =? 43 then ([43], r) else ([], rest s) | [] => ([], rest s) end in
  let '(run, r) := span (inset cs) r0 in
  let num := filter (fun v => negb (IsTelVisualSperator v)) run in
  let tok := plus ++ num in
  if negb (fits e u (len tok)) then (Panic, []) else
  match num with
  | [] => (Fail (mkst r (used s)), [mkerr r "tel uri number empty"])
  | _ => if negb (ltMem e (u + len tok)) then (Fail (mkst r (used s)), [mkerr r "no mem for tel uri number"]) else (Ok tok (mkst r (u + len tok)), [])
  end.
(** The double loop of AbnfMem.go:340-454 (ParseAndAllocCStringEscapable) with its errors ("reach end after '%'", "not HEX after '%'", "no mem" at the "%"). *)
Fixpoint escLoopL (cs : charset) (e : env) (u : N) (r : bytes) : escOut * list err :=
  match r with
  | [] => (EStop [] [], [])
  | v :: r1 =>
      if inset cs v then
        if ltMem e u then let '(o, l) := escLoopL cs e (u + 1) r1 in (escCons v o, l) else (EPanic, [])
      else if v =? 37 then
        match r1 with
        | v1 :: v2 :: r2 =>
            if negb (IsHex v1) || negb (IsHex v2) then (EBad r, [mkerr r "not HEX after '%'"])
            else if ltMem e u then let '(o, l) := escLoopL cs e (u + 1) r2 in (escCons (unescapeToByte v1 v2) o, l) else (ENoMem, [mkerr r "no mem"])
        | _ => (EBad r, [mkerr r "reach end after '%'"])
        end
      else (EStop [] r, [])
  end.
(** AbnfMem.go:340-454 (ParseAndAllocCStringEscapable). *)
Definition paEscapableL (cs : charset) : L bytes := fun e s =>
  let u := used s + 2 in
  if negb (ltMem e u) then (Fail s, [mkerr (rest s) "no mem"]) else
  match escLoopL cs e u (rest s) with
  | (EPanic, l) => (Panic, l)
  | (ENoMem, l) => (Fail s, l)
  | (EBad r, l) => (Fail (mkst r (used s)), l)
  | (EStop [] r, l) => (Fail s, [mkerr r "empty"])
  | (EStop tok r, l) => if negb (ltMem e (u + len tok)) then (Fail s, [mkerr r "no mem"]) else (Ok tok (mkst r (u + len tok)), l)
  end.
(** AbnfMem.go:456-554 (ParseAndAllocCStringEscapableEnableEmpty). *)
Definition paEscapableEmptyL (cs : charset) : L bytes := fun e s =>
  let u := used s + 2 in
  if negb (ltMem e u) then (Fail s, [mkerr (rest s) "no mem"]) else
  match escLoopL cs e u (rest s) with
  | (EPanic, l) => (Panic, l)
  | (ENoMem, l) => (Fail s, l)
  | (EBad r, l) => (Fail (mkst r (used s)), l)
  | (EStop tok r, l) => if negb (ltMem e (u + len tok)) then (Fail s, [mkerr r "no mem"]) else (Ok tok (mkst r (u + len tok)), l)
  end.
(** The loop of AbnfMem.go:566-639 (ParseAndAllocSipQuotedString). *)
Fixpoint qLoopL (fuel : nat) (e : env) (u U : N) (r : bytes) : qOut * list err :=
  match fuel with
  | O => (QLoop, [])
  | S f =>
    match r with
    | [] => (QFail [] U, [mkerr [] "no DQUOTE for quoted-string end"])
    | v :: r1 =>
        if v =? 34 then (QOk [] r1, [])
        else if IsLwsChar v then
          match copyLWS e u r with
          | None => (QPanic, [])
          | Some (w, r', true) => let '(o, l) := qLoopL f e (u + len w) (u + len w) r' in (qApp w o, l)
          | Some (w, r', false) => (QFail r' (u + len w), [mkerr r' "wrong LWS in quoted-string"])
          end
        else if IsSipQuotedText v then
          if ltMem e u then let '(o, l) := qLoopL f e (u + 1) U r1 in (qApp [v] o, l) else (QPanic, [])
        else if v =? 92 then
          match r1 with
          | [] => (QFail r U, [mkerr r "no char after '\' in quoted-string"])
          | x :: r2 => if leMem e (u + 2) then let '(o, l) := qLoopL f e (u + 2) U r2 in (qApp [v; x] o, l) else (QPanic, [])
          end
        else (QFail r U, [mkerr r "not qdtext or quoted-pair in quoted-string"])
    end
  end.
(** AbnfMem.go:566-639 (ParseAndAllocSipQuotedString). *)
Definition paQuotedL : L bytes := fun e s =>
  let r0 := ParseSWS_2 (rest s) in
  match r0 with
  | [] => (Panic, [])
  | x :: r1 =>
      if negb (x =? 34) then (Fail (mkst r0 (used s)), [mkerr r0 "no DQUOTE for quoted-string begin"]) else
      match qLoopL (S (List.length r1)) e (used s + 2) (used s) r1 with
      | (QLoop, l) => (Loop, l)
      | (QPanic, l) => (Panic, l)
      | (QFail r U, l) => (Fail (mkst r U), l)
      | (QOk tok r, l) => if negb (leMem e (used s + 2)) then (Panic, l) else (Ok tok (mkst r (used s + 2 + len tok)), l)
      end
  end.

(** ** White space and marks *)
(** The error of a failed scan: one text at the end of the input, another one otherwise. *)
Definition errEnd {A} (dEnd dOther : string) (p : L A) : L A := fun e s =>
  match p e s with (Fail s', l) => (Fail s', l ++ [mkerr (rest s') (match rest s' with [] => dEnd | _ => dOther end)]) | x => x end.
(** AbnfBasic.go:324-350 (ParseHcolon). *)
Definition hcolonL : L unit := errEnd "HCOLON parse: reach end before ':'" "HCOLON parse: no ':' after *( SP / HTAB )" (silent pHcolon).
(** AbnfBasic.go:432-453 (ParseSWSMark). *)
Definition swsMarkL (m : N) : L unit := errEnd "reach end before mark for SWSMark" "not expected mark after SWS for SWSMark" (silent (pSWSMark m)).
(** AbnfBasic.go:379-399 (ParseSWSMarkCanOmmit): it fails only at the end of the input. *)
Definition swsMarkCanOmmitL (m : N) : L bool := orErr "reach end before mark for SWSMark" (silent (pSWSMarkCanOmmit m)).
(** AbnfBasic.go:637-663 (ParseLeftAngleQuote): three texts. *)
Definition leftAngleL : L unit := onRestL (fun r => match r with
  | [] => orErr "LAQUOT parse: reach end at begining" (silent pLeftAngleQuote)
  | _ => errEnd "LAQUOT parse: reach end before '<'" "LAQUOT parse: no '<'" (silent pLeftAngleQuote)
  end).
(** AbnfBasic.go:703-719 (ParseRightAngleQuote). *)
Definition rightAngleL : L unit := errEnd "reach end at begining for RAQUOT" "no '>' for RAQUOT" (silent pRightAngleQuote).

(** ** Hosts *)
(** SipHostPort.go:200-227 (SipHostPort.parseIpv6). *)
Definition parseIpv6L : L host := onRestL (fun r =>
  let '(txt, r1) := span (fun x => negb (x =? 93)) r in
  gotoL r1 ;+>
  match r1 with
  | [] => failL "sip-host parse: no ""]"" for ipv6-reference"
  | _ :: r2 => withEnvL (fun e => match ipParse e txt with
      | None => failL "sip-host parse: parse ipv6 failed"
      | Some ip => orErr "sip-host parse: no mem for ipv6" (silent (allocStruct 16)) ;+> (gotoL r2 ;+> retL (HIpv6 ip))
      end)
  end).
(** SipHostPort.go:279-313 (SipHostPort.parseHostname). *)
Definition parseHostnameL : L host := n <+ paCStringL HOSTNAME ;+ retL (HName n).
(** SipHostPort.go:168-198 (SipHostPort.ParseHost): SipHostPort.go:229-277 (SipHostPort.parseIpv4) adds nothing. *)
Definition parseHostL : L host := onRestL (fun r => match r with
  | [] => failL "sip-hostport parse: reach end at beginning"
  | x :: r1 =>
      if x =? 91 then gotoL r1 ;+> parseIpv6L
      else if IsAlpha x then parseHostnameL
      else match parseIpv4 r with
           | None => parseHostnameL
           | Some (a, b, c, d, r2) => gotoL r2 ;+> (orErr "sip-host parse: no mem for ipv4" (silent (allocStruct 4)) ;+> retL (HIpv4 a b c d))
           end
  end).
(** SipHostPort.go:133-166 (SipHostPort.ParseWithoutInit). *)
Definition parseHostPortL : L hostport :=
  h <+ orErr "sip-hostport parse: parse host failed" parseHostL ;+
  onRestL (fun r => match r with
    | x :: r1 => if x =? 58 then gotoL r1 ;+> (n <+ orErr "sip-hostport parse: parse port failed after "":""" (silent pUInt) ;+
                                              if 65535 <? n then failL "sip-hostport parse: port wrong range "":""" else retL (mkhp h (Some n)))
                 else retL (mkhp h None)
    | [] => retL (mkhp h None)
    end).

(** ** URIs *)
(** UriParam.go:77-106 (UriParam.Parse). *)
Definition parseUriParamL (cn cv : charset) : L uparam :=
  n <+ orErr "parse uri pname failed" (paEscapableL cn) ;+
  onRestL (fun r => match r with
    | x :: r1 => if x =? 61 then gotoL r1 ;+> (v <+ orErr "parse uri pvalue failed" (paEscapableL cv) ;+ retL (mkup n (Some v))) else retL (mkup n None)
    | [] => retL (mkup n None)
    end).
(** UriParam.go:149-191 (ParseUriParamsEx), UriParam.go:108-147 (ParseUriParams). *)
Definition uriParamOneL {S} (cn cv : charset) (set : S -> uparam -> P S) (a : S) : L S :=
  orErr "no mem for uri param" (silent (allocStruct 6)) ;+> (p <+ parseUriParamL cn cv ;+ silent (set a p)).
Definition parseUriParamsL {S} (cn cv : charset) (set : S -> uparam -> P S) (a : S) : L S :=
  onRestL (fun r => match r with [] => failL "reach end after ';' for uri params" | _ => sepLoopL 59 (uriParamOneL cn cv set) a end).
(** UriHeader.go:41-79 (UriHeader.Parse). *)
Definition parseUriHeaderL : L uparam :=
  n <+ orErr "parse sip hname failed" (paEscapableL SIP_HNAME) ;+
  onRestL (fun r => match r with
    | x :: r1 => if x =? 61
        then gotoL r1 ;+> match r1 with [] => retL (mkup n None) | _ => v <+ orErr "parse uti hvalue failed" (paEscapableEmptyL SIP_HVALUE) ;+ retL (mkup n (Some v)) end
        else failL "no '=' after hname"
    | [] => failL "reach end after hname"
    end).
(** UriHeader.go:81-120 (ParseUriHeaders). *)
Definition uriHeaderOneL (a : list uparam) : L (list uparam) :=
  orErr "no mem for uri headers" (silent (allocStruct 6)) ;+> (h <+ parseUriHeaderL ;+ retL (a ++ [h])).
Definition parseUriHeadersL : L (list uparam) :=
  onRestL (fun r => match r with [] => failL "reach end after ';' for uri headers" | _ => sepLoopL 38 uriHeaderOneL [] end).
(** SipUri.go:324-345 (SipUri.parsePassword). *)
Definition parsePasswordL : L (option bytes) := onRestL (fun r => match r with
  | x :: r1 => if x =? 58
      then gotoL r1 ;+> match r1 with
                        | [] => failL "reach end after ':' for password"
                        | _ => v <+ orErr "parse password value failed" (paEscapableEmptyL SIP_PASSWORD) ;+ retL (Some v)
                        end
      else retL None
  | [] => silent panic
  end).
(** SipUri.go:283-322 (SipUri.parseUserinfo). *)
Definition parseUserinfoL : L (option bytes * option bytes) := onRestL (fun r =>
  if findUserinfo r then
    u <+ orErr "parse user failed" (paEscapableL SIP_USER) ;+
    onRestL (fun r1 => match r1 with
      | [] => failL "reach end after user"
      | _ => pw <+ orErr "parse password failed" parsePasswordL ;+
             onRestL (fun r2 => match r2 with
               | x :: r3 => if x =? 64 then gotoL r3 ;+> retL (Some u, pw) else failL "no '@' after password"
               | [] => failL "reach end after password, and no '@'"
               end)
      end)
  else retL (None, None)).
(** SipUri.go:219-264 (SipUri.ParseAfterSchemeWithoutInit). *)
Definition parseUriAfterSchemeL (secure : bool) : L sipuri :=
  up <+ orErr "parse user-info failed" parseUserinfoL ;+
  h <+ orErr "parse hostport failed" parseHostPortL ;+
  onRestL (fun r => match r with
    | [] => retL (mkuri secure (fst up) (snd up) h None [] [])
    | x :: r1 =>
        kp <+ (if x =? 59 then gotoL r1 ;+> orErr "parse sip uri params failed" (parseUriParamsL SIP_PNAME SIP_PVALUE sipUriSet (None, [])) else retL (None, [])) ;+
        onRestL (fun r2 => match r2 with
          | y :: r3 => if y =? 63
              then gotoL r3 ;+> (hs <+ orErr "parse sip uri headers failed" parseUriHeadersL ;+ retL (mkuri secure (fst up) (snd up) h (fst kp) (snd kp) hs))
              else retL (mkuri secure (fst up) (snd up) h (fst kp) (snd kp) [])
          | [] => retL (mkuri secure (fst up) (snd up) h (fst kp) (snd kp) [])
          end)
    end).
(** SipUri.go:266-281 (SipUri.ParseAfterSchemeWithoutParam): no text of its own for the user part. *)
Definition parseUriAfterSchemeNoParamL (secure : bool) : L sipuri :=
  up <+ parseUserinfoL ;+ h <+ orErr "parse hostport failed" parseHostPortL ;+ retL (mkuri secure (fst up) (snd up) h None [] []).
(** SipUri.go:206-213 (SipUri.ParseWithoutInit) with SipUri.go:450-466 (SipUri.parseScheme). *)
Definition parseSipUriL : L sipuri := s <+ orErr "not sip-uri nor sips-uri" (silent parseSipScheme) ;+ parseUriAfterSchemeL s.

(** TelUri.go:189-211 (TelUri.parseNumber) with TelUri.go:213-220 (TelUri.parseGlobalNumber) and TelUri.go:222-229 (TelUri.parseLocalNumber). *)
Definition parseTelNumberL : L (bool * bytes) := onRestL (fun r => match r with
  | [] => failL "no number after ""tel:"""
  | x :: _ => if x =? 43 then n <+ orErr "parse global-number failed for tel uri" (paTelNumberL TEL_PHONE_DIGIT) ;+ retL (true, n)
              else n <+ orErr "parse local-number failed for tel uri" (paTelNumberL TEL_PHONE_DIGIT_HEX) ;+ retL (false, n)
  end).
(** TelUri.go:161-183 (TelUri.ParseAfterSchemeWithoutInit). *)
Definition parseTelAfterSchemeL : L teluri :=
  gn <+ orErr "parse number failed" parseTelNumberL ;+
  onRestL (fun r => match r with
    | x :: r1 => if x =? 59
        then gotoL r1 ;+> (a <+ orErr "parse tel uri params failed" (parseUriParamsL SIP_PNAME SIP_PVALUE telSet ((None, false), (None, []))) ;+
                           retL (mktel (fst gn) (snd (fst a)) (snd gn) (fst (fst a)) (fst (snd a)) (snd (snd a))))
        else retL (mktel (fst gn) false (snd gn) None None [])
    | [] => retL (mktel (fst gn) false (snd gn) None None [])
    end).
(** TelUri.go:185-187 (TelUri.ParseAfterSchemeWithoutParam). *)
Definition parseTelAfterSchemeNoParamL : L teluri := gn <+ parseTelNumberL ;+ retL (mktel (fst gn) false (snd gn) None None []).
(** TelUri.go:148-155 (TelUri.ParseWithoutInit): a wrong scheme is not reported (TelUri.go:231-253 (TelUri.parseScheme)). *)
Definition parseTelUriL : L teluri := silent parseTelScheme ;+> parseTelAfterSchemeL.

(** ** Parameters *)
(** SipGenericParam.go:101-141 (SipGenericParam.ParseValue). *)
Definition parseGenValueL : L gvalue := onRestL (fun r => match r with
  | [] => failL "empty gen-value"
  | v :: _ =>
      if IsSipToken v then t <+ paCStringL SIP_TOKEN ;+ retL (GToken t)
      else if (v =? 34) || IsLwsChar v then t <+ paQuotedL ;+ retL (GQuoted t)
      else if v =? 91 then
        match cutAfter 93 r with
        | None => failL "no ']' for ipv6 for gen-value"
        | Some (tok, r') => t <+ orErr "not mem for gen-value" (silent (paSlice tok r')) ;+ retL (GBracket t)
        end
      else failL "not token nor quoted-string nor ipv6 for gen-value"
  end).
(** SipGenericParam.go:70-99 (SipGenericParam.Parse). *)
Definition parseGenParamL : L gparam :=
  n <+ orErr "parse generic-name failed" (paEscapableL SIP_TOKEN) ;+
  onRestL (fun r => match r with
    | [] => retL (mkgp n None)
    | v :: _ =>
        if negb (v =? 61) && negb (IsLwsChar v) then retL (mkgp n None)
        else m <+ swsMarkCanOmmitL 61 ;+ if m : bool then x <+ parseGenValueL ;+ retL (mkgp n (Some x)) else retL (mkgp n None)
    end).
(** One round of the loop of SipGenericParam.go:171-222 (ParseSipGenericParams). *)
Definition gpBodyL (sep : N) (set : known gparam * list gparam -> gparam -> P (known gparam * list gparam)) (a : known gparam * list gparam)
  : L ((known gparam * list gparam) + (known gparam * list gparam)) := onRestL (fun r => match r with
  | [] => retL (inr a)
  | x :: _ =>
      if IsOnlyCRLF r then retL (inr a)
      else if negb (x =? sep) && negb (IsLwsChar x) then retL (inr a)
      else match ParseSWSMarkCanOmmit sep r with
           | (r', _, false) => gotoL r' ;+> failL "reach end before mark for SWSMark"
           | (_, false, true) => retL (inr a)
           | (r', true, true) => gotoL r' ;+> (orErr "no mem for sip generic-param" (silent (allocStruct 8)) ;+> (p <+ parseGenParamL ;+ a' <+ silent (set a p) ;+ retL (inl a')))
           end
  end).
(** SipGenericParam.go:171-222 (ParseSipGenericParams). *)
Definition parseGenParamsL (sep : N) (on : env -> bool) (names : list bytes) : L (known gparam * list gparam) :=
  loopL (gpBodyL sep (fun a p => withEnv (fun e => addParam (on e) names gpName a p))) (None, []).

(** ** Addresses *)
(** The last part of SipAddr.go:299-384 (SipAddr.ParseScheme): only the string parser reports. *)
Definition otherSchemeL : L uscheme := onRestL (fun r => match r with
  | [] => silent pfail
  | x :: _ =>
      if IsAlpha x then
        paCStringL URI_SCHEME ;+>
        onRestL (fun r1 => match r1 with
          | [] => silent pfail
          | y :: r2 => if negb (y =? 58) then silent pfail else gotoL r2 ;+> retL UAbsolute
          end)
      else silent pfail
  end).
(** SipAddr.go:299-384 (SipAddr.ParseScheme). *)
Definition parseSchemeL : L uscheme := onRestL (fun r => match r with
  | a :: b :: c :: d :: r4 =>
      if lc a 115 && (lc b 105 && lc c 112) && (d =? 58) then gotoL r4 ;+> retL USip
      else if lc a 115 && (lc b 105 && lc c 112) && lc d 115 then
        match r4 with
        | [] => gotoL [] ;+> silent pfail
        | x :: r5 => if x =? 58 then gotoL r5 ;+> retL USips else otherSchemeL
        end
      else if lc a 116 && (lc b 101 && lc c 108) && (d =? 58) then gotoL r4 ;+> retL UTel
      else if lc a 117 && (lc b 114 && lc c 110) && (d =? 58) then gotoL r4 ;+> retL UUrn
      else otherSchemeL
  | _ => otherSchemeL
  end).
(** SipAddr.go:197-239 (SipAddr.parsAddrSpecAfterScheme): an unsupported scheme is not reported. *)
Definition parseSpecL (params : bool) (s : uscheme) : L auri :=
  match s with
  | USip => orErr "no mem for new sip uri" (silent (allocStruct 18)) ;+> (u <+ (if params then parseUriAfterSchemeL false else parseUriAfterSchemeNoParamL false) ;+ retL (ASip u))
  | USips => orErr "no mem for new sips uri" (silent (allocStruct 18)) ;+> (u <+ (if params then parseUriAfterSchemeL true else parseUriAfterSchemeNoParamL true) ;+ retL (ASip u))
  | UTel => orErr "no mem for new tel uri" (silent (allocStruct 10)) ;+> (t <+ (if params then parseTelAfterSchemeL else parseTelAfterSchemeNoParamL) ;+ retL (ATel t))
  | UUrn | UAbsolute => silent pfail
  end.
(** SipAddr.go:265-297 (SipAddr.parseTokens). *)
Definition parseTokensL : L bytes := onRestL (fun r0 =>
  orErr "wrong LWS for display-name" (silent (loopP tokensBody tt)) ;+> orErr "no mem for display-name" (silent (storeSince r0))).
(** SipAddr.go:245-263 (SipAddr.parseDisplayName). *)
Definition parseDisplayNameL : L (bool * bytes) := onRestL (fun r => match r with
  | [] => retL (false, [])
  | x :: _ => if IsSipToken x then n <+ parseTokensL ;+ retL (false, n) else n <+ paQuotedL ;+ retL (true, n)
  end).
(** SipAddr.go:136-179 (SipAddr.ParseNameAddrWithoutInit). *)
Definition parseNameAddrL : L addr :=
  silent pSWS ;+> (
  n <+ onRestL (fun r => match r with
    | [] => failL "no value for sip addr"
    | x :: r1 => if negb (x =? 60) then n <+ parseDisplayNameL ;+ leftAngleL ;+> retL (Some n) else gotoL r1 ;+> retL None
    end) ;+
  s <+ parseSchemeL ;+ u <+ parseSpecL true s ;+ rightAngleL ;+> retL (mkaddr true n u)).
(** SipAddr.go:115-134 (SipAddr.ParseWithoutInit). *)
Definition parseAddrL (params : bool) : L addr := onRestL (fun r => match r with
  | [] => failL "no value for sip addr"
  | x :: _ =>
      if (x =? 60) || (x =? 34) then parseNameAddrL
      else o <+ orRestoreL (s <+ parseSchemeL ;+ retL (inl s)) (a <+ parseNameAddrL ;+ retL (inr a)) ;+
           match o with inl s => u <+ parseSpecL params s ;+ retL (mkaddr false None u) | inr a => retL a end
  end).
(** SipAddr.go:181-195 (SipAddr.parsAddrSpecWithoutInit). *)
Definition parseAddrSpecL : L addr := s <+ parseSchemeL ;+ u <+ parseSpecL true s ;+ retL (mkaddr false None u).

(** ** Start lines *)
(** SipMethod.go:65-79 (SipMethod.Parse). *)
Definition parseMethodL : L method := onRestL (fun r => match GetSipMethodIndex r with
  | None => silent panic
  | Some (i, mid) => if i =? SIP_METHOD_UNKNOWN then t <+ paCStringFromPosL mid SIP_TOKEN ;+ retL (MOther t) else gotoL mid ;+> retL (MKnown i)
  end).
(** The part of SipVersion.go:59-101 (SipVersion.ParseAfterStart) after the test for "2.0". *)
Definition versionDigitsL (r : bytes) : L version :=
  let '(major, r1) := span (inset DIGIT) r in
  match major with
  | [] => failL "no marjor for SIP-Version "
  | _ => match r1 with
         | [] => silent panic
         | x :: mid =>
             if negb (x =? 46) then gotoL r1 ;+> failL "no '.' after major for SIP-Version"
             else t <+ orErr "parse minor failed for SIP-Version " (paCStringFromPosL mid DIGIT) ;+
                  onRestL (fun r2 => if Nat.leb (List.length mid) (List.length r2) then failL "no minor for SIP-Version " else retL (VOther t))
         end
  end.
(** SipVersion.go:59-101 (SipVersion.ParseAfterStart). *)
Definition parseVersionAfterL : L version := onRestL (fun r => match r with
  | [] => silent panic
  | a :: r1 => if a =? 50 then
      match r1 with
      | [] => silent panic
      | b :: r2 => if b =? 46 then
          match r2 with
          | [] => silent panic
          | c :: r3 => if c =? 48 then
              match r3 with
              | [] => gotoL r3 ;+> retL V20
              | d :: _ => if negb (IsDigit d) then gotoL r3 ;+> retL V20 else versionDigitsL r
              end else versionDigitsL r
          end else versionDigitsL r
      end else versionDigitsL r
  end).
(** SipVersion.go:49-57 (SipVersion.Parse) with SipVersion.go:103-118 (SipVersion.ParseStart). *)
Definition parseVersionL : L version :=
  onRestL (fun r => match versionStart r with Some r4 => gotoL r4 ;+> parseVersionAfterL | None => failL "parse start of SIP-Version failed" end).
(** A single expected byte, with the two texts. *)
Definition expectL (c : N) (dEnd dOther : string) : L unit := errEnd dEnd dOther (silent (expect c)).
(** SipStartLine.go:96-146 (SipStartLine.ParseRequestLine): the text for a wrong Request-URI says Method. *)
Definition parseRequestLineL : L startline :=
  m <+ orErr "wrong Method for Request-Line" parseMethodL ;+
  expectL 32 "reach end after Method for Request-Line" "no SP after Method for Request-Line" ;+> (
  a <+ orErr "wrong Method for Request-Line" parseAddrSpecL ;+
  expectL 32 "reach end after Request-URI for Request-Line" "no SP after Request-URI for Request-Line" ;+> (
  v <+ orErr "wrong SIP-Version for Request-Line" parseVersionL ;+
  orErr "no CRLF for Request-Line" (silent pCRLF) ;+> retL (SRequest m a v))).
(** SipStartLine.go:163-215 (SipStartLine.ParseStatusLineAfterVersionStart): the texts after the code are those after the version. *)
Definition parseStatusLineL : L startline :=
  v <+ orErr "wrong SIP-Version for Status-Line" parseVersionAfterL ;+
  expectL 32 "reach end after SIP-Version for Status-Line" "no SP after SIP-Version for Status-Line" ;+> (
  c <+ orErr "wrong Status-Code for Status-Line" (silent (pUIntW 65536)) ;+
  expectL 32 "reach end after SIP-Version for Status-Line" "no SP after SIP-Version for Status-Line" ;+> (
  t <+ orErr "wrong Reason-Phrase for Status-Line" (paEscapableEmptyL SIP_REASON_PHRASE) ;+
  orErr "no CRLF for Status-Line" (silent pCRLF) ;+> retL (SStatus v c t))).
(** SipStartLine.go:82-88 (SipStartLine.ParseWithoutInit). *)
Definition parseStartLineL : L startline := onRestL (fun r => match versionStart r with Some r4 => gotoL r4 ;+> parseStatusLineL | None => parseRequestLineL end).

(** ** Header values *)
(** The header name in the texts of a header type. *)
Definition hLabel (k : hkind) : string :=
  match k with
  | KFrom => "From" | KTo => "To" | KVia => "Via" | KContact => "Contact" | KRoute => "Route" | KRecordRoute => "Record-Route"
  | KPath => "Path" | KServiceRoute => "Service-Route" | KPai => "P-Asserted-Identity" | KCSeq => "CSeq" | KRAck => "RAck"
  | KRSeq => "RSeq" | KExpires => "Expires" | KMaxForwards => "Max-Forwards" | KContentLength => "Content-Length"
  | KContentType => "Content-Type" | KContentDisposition => "Content-Disposition" | KCallID => "Call-ID"
  end%string.
(** The texts of Max-Forwards and Content-Length speak of CSeq, except the one about memory. *)
Definition hLabel2 (k : hkind) : string := match k with KMaxForwards | KContentLength => "CSeq" | _ => hLabel k end%string.
Definition hText (before : string) (label : string) : string := (before ++ " for " ++ label ++ " header")%string.
(** The parameters of a header. *)
Definition parseParamsL (k : hkind) : L (known gparam * list gparam) :=
  orErr (hText "parse generic-params failed" (hLabel k)) (parseGenParamsL 59 (knownOn k) (knownNames k)).
(** SipHeaderVia.go:196-250 (SipHeaderVia.parseSentProtocol). *)
Definition otherProtocolL : L sentproto :=
  orErr (hText "no mem for sent-protocol" "Via") (silent (allocStruct 4)) ;+> (
  n <+ orErr (hText "wrong protocol-name" "Via") (paCStringL SIP_TOKEN) ;+
  orErr (hText "wrong SLASH after protocol-name" "Via") (swsMarkL 47) ;+> (
  v <+ orErr (hText "wrong protocol-version" "Via") (paCStringL SIP_TOKEN) ;+
  orErr (hText "wrong SLASH after protocol-version" "Via") (swsMarkL 47) ;+> retL (ProtoOther n v))).
Definition parseSentProtocolL : L sentproto := onRestL (fun r => match r with
  | a :: b :: c :: d :: x :: y :: z :: ((w :: _) as r7) =>
      if lc a 115 && lc b 105 && lc c 112 && (d =? 47) && (x =? 50) && (y =? 46) && (z =? 48) && negb (IsDigit w)
      then gotoL r7 ;+> (orErr (hText "wrong SLASH after protocol-version" "Via") (swsMarkL 47) ;+> retL Proto20)
      else otherProtocolL
  | _ => otherProtocolL
  end).
(** SipHeaderFrom.go:104-122 (SipHeaderFrom.ParseValueWithoutInit), SipHeaderTo.go:102-120 (SipHeaderTo.ParseValueWithoutInit). *)
Definition parseFromToL (k : hkind) : L hval :=
  a <+ orErr (hText "parse sip-addr failed" (hLabel k)) (parseAddrL false) ;+ tp <+ parseParamsL k ;+ retL (VAddr a (fst tp) (snd tp)).
(** SipHeaderVia.go:161-194 (SipHeaderVia.ParseValueWithoutInit). *)
Definition parseViaL : L hval :=
  p <+ orErr (hText "parse sent-protocol failed" "Via") parseSentProtocolL ;+
  t <+ orErr (hText "wrong transport" "Via") (paCStringL SIP_TOKEN) ;+
  orErr (hText "wrong LWS after transport" "Via") (silent pLWS) ;+> (
  h <+ orErr (hText "wrong sent-by" "Via") parseHostPortL ;+
  tp <+ parseParamsL KVia ;+ retL (VVia p t h (fst tp) (snd tp))).
(** SipHeaderContact.go:166-200 (SipHeaderContact.ParseValueWithoutInit). *)
Definition parseContactL : L hval :=
  silent pSWS ;+> onRestL (fun r => match r with
    | [] => failL (hText "empty hvalue" "Contact")
    | x :: r1 => if x =? 42 then gotoL r1 ;+> (silent pSWS ;+> retL VStar) else parseFromToL KContact
    end).
(** SipHeaderRoute.go:77-95 (SipHeaderRoute.ParseValueWithoutInit), SipHeaderRecordRoute.go:77-95 (SipHeaderRecordRoute.ParseValueWithoutInit),
    SipHeaderPath.go:77-95 (SipHeaderPath.ParseValueWithoutInit), SipHeaderServiceRoute.go:77-95 (SipHeaderServiceRoute.ParseValueWithoutInit). *)
Definition parseRouteL (k : hkind) : L hval :=
  a <+ orErr (hText "parse sip-addr failed" (hLabel k)) parseNameAddrL ;+ tp <+ parseParamsL k ;+ retL (VAddr a (fst tp) (snd tp)).
(** SipHeaderPAssertedIdentity.go:74-82 (SipHeaderPAssertedIdentity.ParseValueWithoutInit). *)
Definition parsePaiL : L hval := a <+ orErr (hText "parse sip-addr failed" (hLabel KPai)) (parseAddrL false) ;+ retL (VAddr a None []).
(** SipHeaderCSeq.go:75-99 (SipHeaderCSeq.ParseValueWithoutInit). *)
Definition parseCSeqL : L hval :=
  n <+ orErr (hText "parse num failed" "CSeq") (silent (pUIntW two32)) ;+
  orErr (hText "parse LWS failed" "CSeq") (silent pLWS) ;+> (
  m <+ orErr (hText "parse Method failed" "CSeq") parseMethodL ;+ retL (VCSeq n m)).
(** SipHeaderRAck.go:80-120 (SipHeaderRAck.ParseValueWithoutInit). *)
Definition parseRAckL : L hval :=
  r <+ orErr (hText "parse rseq failed" "RAck") (silent (pUIntW two32)) ;+
  orErr (hText "parse LWS failed after rseq" "RAck") (silent pLWS) ;+> (
  c <+ orErr (hText "parse cseq failed" "RAck") (silent (pUIntW two32)) ;+
  orErr (hText "parse LWS failed after cseq" "RAck") (silent pLWS) ;+> (
  m <+ orErr (hText "parse Method failed" "RAck") parseMethodL ;+ retL (VRAck r c m))).
(** SipHeaderRSeq.go:72-83 (SipHeaderRSeq.ParseValueWithoutInit), SipHeaderExpires.go:72-83 (SipHeaderExpires.ParseValueWithoutInit),
    SipHeaderMaxForwards.go:72-83 (SipHeaderMaxForwards.ParseValueWithoutInit), SipHeaderContentLength.go:74-85 (SipHeaderContentLength.ParseValueWithoutInit). *)
Definition parseNumL (k : hkind) (w : N) : L hval := n <+ orErr (hText "parse num failed" (hLabel2 k)) (silent (pUIntW w)) ;+ retL (VNum n).
(** SipHeaderContentType.go:116-145 (SipHeaderContentType.ParseValueWithoutInit). *)
Definition parseContentTypeL : L hval :=
  m <+ orErr (hText "parse m-type failed" "Content-Type") (paCStringL SIP_TOKEN) ;+
  orErr (hText "wrong SLASH after protocol-name" "Content-Type") (swsMarkL 47) ;+> (
  s <+ orErr (hText "parse m-subtype failed" "Content-Type") (paCStringL SIP_TOKEN) ;+
  tp <+ parseParamsL KContentType ;+ retL (VType m s (fst tp) (snd tp))).
(** SipHeaderContentDisposition.go:110-128 (SipHeaderContentDisposition.ParseValueWithoutInit). *)
Definition parseContentDispositionL : L hval :=
  d <+ orErr (hText "parse disp-type failed" "Content-Disposition") (paCStringL SIP_TOKEN) ;+ tp <+ parseParamsL KContentDisposition ;+ retL (VDisp d (fst tp) (snd tp)).
(** SipHeaderCallID.go:77-98 (SipHeaderCallID.ParseValueWithoutInit). *)
Definition parseCallIDL : L hval :=
  w <+ orErr (hText "parse id1 failed" "Call-ID") (paCStringL SIP_WORD) ;+
  onRestL (fun r => match r with
    | x :: r1 => if x =? 64 then gotoL r1 ;+> (w2 <+ orErr (hText "parse id2 failed" "Call-ID") (paCStringL SIP_WORD) ;+ retL (VCall w (Some w2))) else retL (VCall w None)
    | [] => retL (VCall w None)
    end).
(** ParseValueWithoutInit of each type. *)
Definition parseHValL (k : hkind) : L hval :=
  match k with
  | KFrom | KTo => parseFromToL k
  | KVia => parseViaL
  | KContact => parseContactL
  | KRoute | KRecordRoute | KPath | KServiceRoute => parseRouteL k
  | KPai => parsePaiL
  | KCSeq => parseCSeqL
  | KRAck => parseRAckL
  | KRSeq | KExpires | KContentLength => parseNumL k two32
  | KMaxForwards => parseNumL k two8
  | KContentType => parseContentTypeL
  | KContentDisposition => parseContentDispositionL
  | KCallID => parseCallIDL
  end.
(** SipHeaderFrom.go:203-211 (ParseSipFrom) and the functions of the same shape in the other files. *)
Definition parseSipXL (k : hkind) : L hval :=
  orErr (hText "no mem" (hLabel k)) (silent (allocStruct (hvalSize k))) ;+> parseHValL k.
(** SipHeaderFrom.go:83-97 (SipHeaderFrom.ParseWithoutInit) and the methods of the same shape. *)
Definition parseHeaderL (k : hkind) : L hval :=
  orErr (hText "parse header-name failed" (hLabel2 k)) (silent (parseHName k)) ;+> (
  orErr (hText "parse HCOLON failed" (hLabel2 k)) hcolonL ;+> parseHValL k).

(** ** Header blocks *)
(** SipHeaders.go:173-196 (ParseHeaderName). *)
Definition parseHeaderNameL : L (option bytes * N) := onRestL (fun r => match GetSipHeaderIndex r with
  | None => silent panic
  | Some (i, mid) =>
      n <+ (if i =? SIP_HDR_UNKNOWN then t <+ paCStringFromPosL mid SIP_TOKEN ;+ retL (Some t) else gotoL mid ;+> retL None) ;+
      orErr "parsed HCOLON failed when parsing aip header name" hcolonL ;+> retL (n, i)
  end).
(** One round of the loops of SipHeaders.go:84-118 (ParseRawHeaders) and SipHeaders.go:51-82 (ParseHeaders); [name] is the way a wrong name is reported. *)
Definition headersBodyL {A} (name : L (option bytes * N)) (hdr : A -> option bytes -> N -> L A) (a : A) : L (A + A) := onRestL (fun r => match r with
  | [] => retL (inr a)
  | x :: r1 =>
      if IsCRLF r then gotoL (tl r1) ;+> retL (inr a)
      else ni <+ name ;+ (a' <+ hdr a (fst ni) (snd ni) ;+ retL (inl a'))
  end).
(** SipHeaders.go:84-118 (ParseRawHeaders). *)
Definition parseRawHeadersL : L (list raw) :=
  loopL (headersBodyL parseHeaderNameL (fun a n i => silent (h <- rawHeader n i ;; ret (a ++ [h])))) [].
(** One round of the loop over the comma-separated values in SipHeaders.go:198-259 (parseKnownHeader): the error of a failed ParseSWSMarkCanOmmit stays when the line ends there. *)
Definition multiBodyL (k : hkind) (set : hset -> hval -> hset) (st : hset * hval) : L ((hset * hval) + hset) := onRestL (fun r => match r with
  | [] => retL (inr (set (fst st) (snd st)))
  | _ :: r1 =>
      let a := set (fst st) (snd st) in
      if IsOnlyCRLF r then gotoL (tl r1) ;+> retL (inr a)
      else match ParseSWSMarkCanOmmit 44 r with
           | (r', true, true) => gotoL r' ;+> (v <+ parseSipXL k ;+ retL (inl (a, v)))
           | (r', _, false) => fun e s => let '(x, l) := (silent pCRLF ;+> retL (inr a)) e s in (x, mkerr r' "reach end before mark for SWSMark" :: l)
           | _ => silent pCRLF ;+> retL (inr a)
           end
  end).
(** SipHeaders.go:198-259 (parseKnownHeader) and SipHeaders.go:261-281 (parseUnknownHeader): a missing line end and a lack of memory are not reported. *)
Definition oneHeaderL (o : owner) (a : hset) (n : option bytes) (i : N) : L hset := withEnvL (fun e =>
  match needParse o e i with
  | Some (k, multi) =>
      v <+ parseSipXL k ;+
      if multi : bool then loopL (multiBodyL k (setCommon o i true)) (a, v)
      else silent pCRLF ;+> retL (setCommon o i false a v)
  | None => silent (h <- rawHeader n i ;; ret (addRaw a h))
  end).
(** SipHeaders.go:51-82 (ParseHeaders). *)
Definition parseHeadersL (o : owner) : L hset := loopL (headersBodyL (orErr "parsed header name failed" parseHeaderNameL) (oneHeaderL o)) (emptyHdrs o).

(** ** Messages *)
(** SipMsg.go:465-499 (SipMsg.ParseSingleBody). *)
Definition parseSingleBodyL (h : hset) : L (list body) := onRestL (fun r =>
  let size := match contentLengthOf h with Some (VNum n) => N.min n (len r) | _ => 0 end in
  if size =? 0 then retL [] else
  orErr "no mem for sip single msg-body" (silent (allocStruct 16)) ;+> (
  d <+ orErr "no mem for sip single msg-body value" (silent (allocCString (firstn (N.to_nat size) r))) ;+ retL [mkbody (emptyHdrs OBody) d])).
(** One round of the loop of SipMsg.go:652-724 (SipMsg.ParseMultiBody): the end of the input right after a delimiter is not reported. *)
Definition multipartBodyL (delimiter : bytes) (bs : list body) : L (list body + list body) := onRestL (fun r => match r with
  | [] => silent pfail
  | [_] => failL "reach end without close-delimiter for sip multi msg-body"
  | x :: y :: r2 =>
      if (x =? 45) || (y =? 45) then gotoL r2 ;+> retL (inr bs)
      else match FindCrlf r with
           | None => gotoL [] ;+> failL "no CRLF after dash-bounday for sip multi msg-body"
           | Some (_, r1) =>
               gotoL r1 ;+> (orErr "no mem for sip msg body when parsing sip multi msg-body" (silent (allocStruct 16)) ;+> (
               h <+ orErr "parsed headers failed for sip multi msg-body" (parseHeadersL OBody) ;+
               onRestL (fun r3 => match splitAt delimiter r3 with
                 | None => failL "no delimiter after body for sip multi msg-body"
                 | Some (d, r4) => o <+ silent (attempt (allocCString d)) ;+ gotoL r4 ;+> retL (inl (bs ++ [mkbody h (match o with Some t => t | None => [] end)]))
                 end)))
           end
  end).
(** SipMsg.go:652-724 (SipMsg.ParseMultiBody). *)
Definition parseMultiBodyL (b : bytes) : L (list body) := onRestL (fun r =>
  match stripPrefix (45 :: 45 :: b) r with
  | None => failL "no first dash-bounday for sip multi msg-body"
  | Some r' => gotoL r' ;+> loopL (multipartBodyL (13 :: 10 :: 45 :: 45 :: b)) []
  end).
(** SipMsg.go:441-463 (SipMsg.ParseMsgBody). *)
Definition parseMsgBodyL (h : hset) : L (list body) :=
  match contentTypeOf h with
  | None => retL []
  | Some v =>
      match v with
      | VType m _ _ _ =>
          match CStringEqualNoCase m (s2b "multipart") with
          | None => silent panic
          | Some true => match boundaryParam v with
                         | None => failL "no boundary for multipart body"
                         | Some p => parseMultiBodyL (match gvalueText (gpValue p) with Some b => b | None => [] end)
                         end
          | Some false => parseSingleBodyL h
          end
      | _ => retL []
      end
  end.
(** The four texts of SipMsg.go:411-439 (SipMsg.Parse). *)
Definition textStart : string := "parse start-line failed for sip msg".
Definition textNoHeaders : string := "no headers for sip msg failed".
Definition textHeaders : string := "parse headers failed for sip msg".
Definition textBody : string := "parse msg body failed for sip msg".
(** SipMsg.go:411-439 (SipMsg.Parse). *)
Definition parseMsgL : L msg :=
  l <+ orErr textStart parseStartLineL ;+
  onRestL (fun r => match r with
    | [] => failL textNoHeaders
    | _ => h <+ orErr textHeaders (parseHeadersL OMsg) ;+ bs <+ orErr textBody (parseMsgBodyL h) ;+ retL (mkmsg l h bs)
    end).

(** SipHeaderContentType.go:198-231 (SipHeaderContentType.SetBoundary) when there is no boundary parameter, with SipGenericParam.go:143-151 (SipGenericParam.SetNameAsString)
    and SipGenericParam.go:153-162 (SipGenericParam.SetValueQuotedString). *)
Definition setBoundaryL (v : hval) : L (hval * bytes) :=
  match v with
  | VType m s t ps =>
      (match t with None => orErr "no mem for known-params when set bounadry for Content-Type" (silent (allocStruct 2)) | Some _ => retL tt end) ;+> (
      orErr "no mem for generic-param when set bounadry for Content-Type" (silent (allocStruct 8)) ;+> (
      n <+ orErr "add boundary-name failed for Content-Type" (orErr "not mem for gen-name when set gen-name" (silent (allocCString (s2b "boundary")))) ;+
      b <+ orErr "add boundary-name failed for Content-Type" (orErr "not mem for gen-value when set gen-value as quoted-string" (silent (allocCString defaultBoundary))) ;+
      retL (VType m s (Some [Some (mkgp n (Some (GQuoted b)))]) ps, b)))
  | _ => silent pfail
  end.
(** SipMsg.go:256-291 (SipMsg.FindOrCreateBoundary): a boundary parameter without a value is not reported here. *)
Definition findOrCreateBoundaryL (h : hset) : L (hset * bytes) :=
  v <+ match contentTypeOf h with
       | Some v => retL v
       | None => orErr "no mem for creating Content-Type" (silent (allocStruct 8)) ;+> (
                 m <+ orErr "no mem for main-type when creating Content-Type" (silent (allocCString (s2b "multipart"))) ;+
                 s <+ orErr "no mem for sub-type when creating Content-Type" (silent (allocCString (s2b "mixed"))) ;+ retL (VType m s None []))
       end ;+
  vb <+ match boundaryParam v with
        | Some p => match gvalueText (gpValue p) with Some b => retL (v, b) | None => silent pfail end
        | None => orErr "set boundary failed when creating Content-Type" (setBoundaryL v)
        end ;+
  retL (mkhset (setNth (hsCommon h) 10 [fst vb]) (hsRaw h), snd vb).
(** The Content-Length created by SipMsg.go:194-254 (SipMsg.Encode). *)
Definition ensureLengthL (h : hset) : L hset :=
  match contentLengthOf h with
  | Some _ => retL h
  | None => orErr "no mem for creating Content-Length for sip msg encode" (silent (allocStruct 8)) ;+> retL (mkhset (setNth (hsCommon h) 7 [VNum 0]) (hsRaw h))
  end.
(** SipMsg.go:194-254 (SipMsg.Encode). *)
Definition encMsgL (pre : bytes) (m : msg) : L (bytes * msg) := withEnvL (fun e =>
  h1 <+ ensureLengthL (mHdrs m) ;+
  hb <+ (if hasMulti m then orErr "find or create boundary failed for sip msg encode" (findOrCreateBoundaryL h1) else retL (h1, [])) ;+
  let h := fst hb in
  let head := pre ++ encStartLine e (mStart m) ++ encHdrs OMsg e h ++
    (if hasMulti m then match getHeaderByIndex h SIP_HDR_MIME_VERSION with None => s2b "MIME-Version: 1.0" ++ CRLF | Some _ => [] end else []) ++ CRLF in
  match mBodies m with
  | [] => retL (head, mkmsg (mStart m) h [])
  | bs =>
      let text := if hasMulti m then encMultipart e (snd hb) bs else encSingle bs in
      retL (patch (head ++ text) (lengthEnd e (pre ++ encStartLine e (mStart m)) h) (encUInt (len text)),
            mkmsg (mStart m) h (if hasMulti m then map fixLength bs else bs))
  end).
