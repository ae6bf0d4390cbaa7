(** What SipHostPort.Parse, SipUri.Parse and SipStartLine.Parse have stored when they fail. *)
From Verif Require Import Base Charset Num Lws Str Monad MethodTree HeaderTree Lookup Host Uri Tel GenParam Addr StartLine Headers RawHeaders Msg Left.

(** SipHostPort.go:133-166 (SipHostPort.ParseWithoutInit): a host that was read stays when the port is wrong; type and address of a wrong one are not set. *)
Definition leftHostPort (e : env) (s : st) : hostport := match parseHost e s with Ok h _ => mkhp h None | _ => mkhp HUnknown None end.
(** SipUri.go:283-345 (SipUri.parseUserinfo, SipUri.parsePassword): the user is set when something follows it. *)
Definition leftUserinfo (e : env) (s : st) : option bytes * option bytes :=
  match paEscapable SIP_USER e s with
  | Ok u s1 => match rest s1 with
               | [] => (None, None)
               | _ => match parsePassword e s1 with Ok pw _ => (Some u, pw) | _ => (Some u, None) end
               end
  | _ => (None, None)
  end.
(** UriParam.go:149-191 (ParseUriParamsEx): the list is given up, the table of the recognised parameters stays as it was in front of the wrong parameter. *)
Definition leftKnown (cn cv : charset) : env -> st -> known uparam :=
  leftLoop (fun kl => onRest (fun r => match r with [] => ret (inr kl) | _ => bind (uriParamOne cn cv sipUriSet kl) (contIf 59) end)) (fun kl _ _ => fst kl) (None, []).
(** SipUri.go:219-264 (SipUri.ParseAfterSchemeWithoutInit): the list of headers is given up. *)
Definition leftAfterScheme (b : bool) (e : env) (s : st) : sipuri :=
  match parseUserinfo e s with
  | Ok up s1 =>
      match parseHostPort e s1 with
      | Ok h s2 =>
          match rest s2 with
          | x :: r =>
              if x =? 59 then
                match parseUriParams SIP_PNAME SIP_PVALUE sipUriSet (None, []) e (mkst r (used s2)) with
                | Ok kp _ => mkuri b (fst up) (snd up) h (fst kp) (snd kp) []
                | _ => mkuri b (fst up) (snd up) h (leftKnown SIP_PNAME SIP_PVALUE e (mkst r (used s2))) [] []
                end
              else mkuri b (fst up) (snd up) h None [] []
          | [] => mkuri b (fst up) (snd up) h None [] []
          end
      | _ => mkuri b (fst up) (snd up) (leftHostPort e s1) None [] []
      end
  | _ => mkuri b (fst (leftUserinfo e s)) (snd (leftUserinfo e s)) (mkhp HUnknown None) None [] []
  end.
(** SipUri.go:201-213 (SipUri.Parse, SipUri.ParseWithoutInit). *)
Definition leftUri (e : env) (s : st) : sipuri :=
  match parseSipScheme e s with
  | Ok b s1 => leftAfterScheme b e s1
  | _ => mkuri false None None (mkhp HUnknown None) None [] []
  end.

(** TelUri.go:161-183 (TelUri.ParseAfterSchemeWithoutInit): the number stays, the list of parameters is given up; the context and the table stay as they were in front of
    the wrong parameter. *)
Definition leftTelLoop : env -> st -> (option uparam * bool) * known uparam :=
  leftLoop (fun v => onRest (fun r => match r with [] => ret (inr v) | _ => bind (uriParamOne SIP_PNAME SIP_PVALUE telSet v) (contIf 59) end))
    (fun v _ _ => (fst v, fst (snd v))) ((None, false), (None, [])).
Definition leftTelAfterScheme (e : env) (s : st) : teluri :=
  match parseTelNumber e s with
  | Ok gn s1 =>
      match rest s1 with
      | x :: r => if x =? 59 then let l := leftTelLoop e (mkst r (used s1)) in mktel (fst gn) (snd (fst l)) (snd gn) (fst (fst l)) (snd l) []
                  else mktel (fst gn) false (snd gn) None None []
      | [] => mktel (fst gn) false (snd gn) None None []
      end
  | _ => mktel false false [] None None []
  end.
(** TelUri.go:143-155 (TelUri.Parse, TelUri.ParseWithoutInit). *)
Definition leftTelUri (e : env) (s : st) : teluri :=
  match parseTelScheme e s with Ok _ s1 => leftTelAfterScheme e s1 | _ => mktel false false [] None None [] end.
