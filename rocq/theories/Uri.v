(** UriParam.go, UriHeader.go, SipUri.go. Value layer; a NIL string is [None]. Objects left behind by a failed parse are not modelled. *)
From Verif Require Import Base Charset Num Lws Str Monad Host.

(** UriParam.go:13-17 (type UriParam) and UriHeader.go:8-12 (type UriHeader). *)
Record uparam := mkup { upName : bytes; upValue : option bytes }.

(** UriParam.go:77-106 (UriParam.Parse). *)
Definition parseUriParam (cn cv : charset) : P uparam :=
  n <- paEscapable cn ;;
  onRest (fun r => match r with
    | x :: r1 => if x =? 61 then goto r1 ;;; (v <- paEscapable cv ;; ret (mkup n (Some v))) else ret (mkup n None)
    | [] => ret (mkup n None)
    end).
(** UriParam.go:149-191 (ParseUriParamsEx), [set] being what is done with each parameter. UriParam.go:108-147 (ParseUriParams) is the instance where every parameter
    is appended. The first parse after ";" requires input; a trailing ";" is accepted. *)
Definition uriParamOne {S} (cn cv : charset) (set : S -> uparam -> P S) (a : S) : P S :=
  allocStruct 6 ;;; (p <- parseUriParam cn cv ;; set a p).
Definition parseUriParams {S} (cn cv : charset) (set : S -> uparam -> P S) (a : S) : P S :=
  onRest (fun r => match r with [] => pfail | _ => sepLoop 59 (uriParamOne cn cv set) a end).

(** UriHeader.go:41-79 (UriHeader.Parse): "=" is required, but a value that would be empty because the input ends stays NIL. *)
Definition parseUriHeader : P uparam :=
  n <- paEscapable SIP_HNAME ;;
  onRest (fun r => match r with
    | x :: r1 => if x =? 61
        then goto r1 ;;; match r1 with [] => ret (mkup n None) | _ => v <- paEscapableEmpty SIP_HVALUE ;; ret (mkup n (Some v)) end
        else pfail
    | [] => pfail
    end).
(** UriHeader.go:81-120 (ParseUriHeaders). *)
Definition uriHeaderOne (a : list uparam) : P (list uparam) :=
  allocStruct 6 ;;; (h <- parseUriHeader ;; ret (a ++ [h])).
Definition parseUriHeaders : P (list uparam) :=
  onRest (fun r => match r with [] => pfail | _ => sepLoop 38 uriHeaderOne [] end).

(** SipUri.go:60-70 (type SipUri). *)
Record sipuri := mkuri {
  uSecure : bool; uUser : option bytes; uPass : option bytes; uHost : hostport;
  uKnown : known uparam; uParams : list uparam; uHeaders : list uparam }.
(** SipUri.go g_SipUriKnownParamInfo. *)
Definition sipUriKnownNames : list bytes := [s2b "user"; s2b "transport"; s2b "lr"; s2b "method"; s2b "maddr"; s2b "ttl"].

(** SipUri.go:347-356 (findUserinfo). *)
Fixpoint findUserinfo (r : bytes) : bool :=
  match r with
  | [] => false
  | v :: r' => if v =? 64 then true else if (v =? 62) || IsLwsChar v then false else findUserinfo r'
  end.
(** SipUri.go:324-345 (SipUri.parsePassword): [src[parsePos]] is in range, the caller has tested it. *)
Definition parsePassword : P (option bytes) := onRest (fun r => match r with
  | x :: r1 => if x =? 58
      then goto r1 ;;; match r1 with [] => pfail | _ => v <- paEscapableEmpty SIP_PASSWORD ;; ret (Some v) end
      else ret None
  | [] => panic
  end).
(** SipUri.go:283-322 (SipUri.parseUserinfo). *)
Definition parseUserinfo : P (option bytes * option bytes) := onRest (fun r =>
  if findUserinfo r then
    u <- paEscapable SIP_USER ;;
    onRest (fun r1 => match r1 with
      | [] => pfail
      | _ => pw <- parsePassword ;;
             onRest (fun r2 => match r2 with
               | x :: r3 => if x =? 64 then goto r3 ;;; ret (Some u, pw) else pfail
               | [] => pfail
               end)
      end)
  else ret (None, None)).
(** SipUri.go:164-191 (SipUri.SetKnownParams) (under ParseSetSipUriKnownParam). *)
Definition sipUriSet (a : known uparam * list uparam) (p : uparam) : P (known uparam * list uparam) :=
  withEnv (fun e => addParam (fSipUriKnown e) sipUriKnownNames upName a p).
(** SipUri.go:219-264 (SipUri.ParseAfterSchemeWithoutInit). *)
Definition parseUriAfterScheme (secure : bool) : P sipuri :=
  up <- parseUserinfo ;;
  h <- parseHostPort ;;
  onRest (fun r => match r with
    | [] => ret (mkuri secure (fst up) (snd up) h None [] [])
    | x :: r1 =>
        kp <- (if x =? 59 then goto r1 ;;; parseUriParams SIP_PNAME SIP_PVALUE sipUriSet (None, []) else ret (None, [])) ;;
        onRest (fun r2 => match r2 with
          | y :: r3 => if y =? 63
              then goto r3 ;;; (hs <- parseUriHeaders ;; ret (mkuri secure (fst up) (snd up) h (fst kp) (snd kp) hs))
              else ret (mkuri secure (fst up) (snd up) h (fst kp) (snd kp) [])
          | [] => ret (mkuri secure (fst up) (snd up) h (fst kp) (snd kp) [])
          end)
    end).
(** SipUri.go:266-281 (SipUri.ParseAfterSchemeWithoutParam). *)
Definition parseUriAfterSchemeNoParam (secure : bool) : P sipuri :=
  up <- parseUserinfo ;; h <- parseHostPort ;; ret (mkuri secure (fst up) (snd up) h None [] []).
(** [x | 0x20 == c]. *)
Definition lc (x c : N) : bool := N.lor x 32 =? c.
(** SipUri.go:450-466 (SipUri.parseScheme) with SipUri.go:468-470 (hasSipPrefixNoCase) and SipUri.go:472-475 (hasSipsPrefixNoCase): the secure flag. *)
Definition parseSipScheme : P bool := onRest (fun r => match r with
  | a :: b :: c :: d :: r1 =>
      if lc a 115 && lc b 105 && lc c 112 then
        if d =? 58 then goto r1 ;;; ret false else
        match r1 with
        | x :: r2 => if lc d 115 && (x =? 58) then goto r2 ;;; ret true else pfail
        | [] => pfail
        end
      else pfail
  | _ => pfail
  end).
(** SipUri.go:206-213 (SipUri.ParseWithoutInit). *)
Definition parseSipUri : P sipuri := s <- parseSipScheme ;; parseUriAfterScheme s.

(** ** Encoding *)
(** The choice made by EncodeUriNoEscape. *)
Definition escUri (e : env) (cs : charset) (b : bytes) : bytes := if eUriNoEscape e then b else escape cs b.
(** UriParam.go:46-56 (UriParam.EncodeValue). *)
Definition encUriValue (e : env) (cv : charset) (v : option bytes) : bytes :=
  match v with Some b => 61 :: escUri e cv b | None => [] end.
(** UriParam.go:34-44 (UriParam.Encode) and UriHeader.go:22-39 (UriHeader.Encode) (names of parsed parameters are never NIL). *)
Definition encUriParam (e : env) (cn cv : charset) (p : uparam) : bytes :=
  escUri e cn (upName p) ++ encUriValue e cv (upValue p).
(** UriParam.go:193-206 (EncodeUriParams). *)
Definition encUriParams (e : env) (cn cv : charset) (ps : list uparam) : bytes :=
  flat_map (fun p => 59 :: encUriParam e cn cv p) ps.
(** UriHeader.go:122-133 (EncodeUriHeaders). *)
Fixpoint encUriHeaders (e : env) (hs : list uparam) : bytes :=
  match hs with
  | [] => []
  | [h] => encUriParam e SIP_HNAME SIP_HVALUE h
  | h :: hs' => encUriParam e SIP_HNAME SIP_HVALUE h ++ 38 :: encUriHeaders e hs'
  end.
(** SipUri.go:147-162 (SipUri.EncodeKnownParams). *)
Definition encUriKnown (e : env) (cv : charset) (names : list bytes) (t : known uparam) : bytes :=
  encKnown names (fun n p => 59 :: n ++ encUriValue e cv (upValue p)) t.
(** SipUri.go:97-145 (SipUri.Encode). *)
Definition encSipUri (e : env) (u : sipuri) : bytes :=
  (if uSecure u then s2b "sips:" else s2b "sip:") ++
  match uUser u with
  | Some n => escUri e SIP_USER n ++ match uPass u with Some p => 58 :: escUri e SIP_PASSWORD p | None => [] end ++ [64]
  | None => []
  end ++
  encHostPort e (uHost u) ++
  encUriKnown e SIP_PVALUE sipUriKnownNames (uKnown u) ++
  encUriParams e SIP_PNAME SIP_PVALUE (uParams u) ++
  match uHeaders u with [] => [] | hs => 63 :: encUriHeaders e hs end.
