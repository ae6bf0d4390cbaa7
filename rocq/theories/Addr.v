(** SipAddr.go. Value layer. *)
From Verif Require Import Base Charset Num Lws Str Monad Host Uri Tel GenParam.

(** SipAddr.go:22-29 (type SipAddr). [aName]: the display name, with the quoted flag; [aAngle]: [addrType == ABNF_SIP_NAME_ADDR]. The [scheme]
    string, set when the scheme is none of the known ones and read by nobody, is not kept (its allocation is). *)
Inductive auri := ASip (u : sipuri) | ATel (t : teluri).
Record addr := mkaddr { aAngle : bool; aName : option (bool * bytes); aUri : auri }.

(** The values of [uriType]. *)
Inductive uscheme := USip | USips | UTel | UUrn | UAbsolute.
(** The last part of SipAddr.go:299-384 (SipAddr.ParseScheme), from its start position. *)
Definition otherScheme : P uscheme := onRest (fun r => match r with
  | [] => pfail
  | x :: _ =>
      if IsAlpha x then
        paCString URI_SCHEME ;;;
        onRest (fun r1 => match r1 with
          | [] => pfail
          | y :: r2 => if negb (y =? 58) then pfail else goto r2 ;;; ret UAbsolute
          end)
      else pfail
  end).
(** SipAddr.go:299-384 (SipAddr.ParseScheme). *)
Definition parseScheme : P uscheme := onRest (fun r => match r with
  | a :: b :: c :: d :: r4 =>
      if lc a 115 && (lc b 105 && lc c 112) && (d =? 58) then goto r4 ;;; ret USip
      else if lc a 115 && (lc b 105 && lc c 112) && lc d 115 then
        match r4 with
        | [] => goto [] ;;; pfail
        | x :: r5 => if x =? 58 then goto r5 ;;; ret USips else otherScheme
        end
      else if lc a 116 && (lc b 101 && lc c 108) && (d =? 58) then goto r4 ;;; ret UTel
      else if lc a 117 && (lc b 114 && lc c 110) && (d =? 58) then goto r4 ;;; ret UUrn
      else otherScheme
  | _ => otherScheme
  end).
(** SipAddr.go:197-239 (SipAddr.parsAddrSpecAfterScheme). *)
Definition parseSpec (params : bool) (s : uscheme) : P auri :=
  match s with
  | USip => allocStruct 18 ;;; u <- (if params then parseUriAfterScheme false else parseUriAfterSchemeNoParam false) ;; ret (ASip u)
  | USips => allocStruct 18 ;;; u <- (if params then parseUriAfterScheme true else parseUriAfterSchemeNoParam true) ;; ret (ASip u)
  | UTel => allocStruct 10 ;;; t <- (if params then parseTelAfterScheme else parseTelAfterSchemeNoParam) ;; ret (ATel t)
  | UUrn | UAbsolute => pfail
  end.
(** One round of the loop of SipAddr.go:265-297 (SipAddr.parseTokens). *)
Definition tokensBody (_ : unit) : P (unit + unit) := onRest (fun r => match r with
  | [] => ret (inr tt)
  | x :: _ =>
      if negb (IsSipToken x) then ret (inr tt)
      else match ParseLWS (snd (span (inset SIP_TOKEN) r)) with
           | (r1, true) => goto r1 ;;; ret (inl tt)
           | (_, false) => pfail
           end
  end).
(** Store what was consumed since [r0]. *)
Definition storeSince (r0 : bytes) : P bytes := onRest (fun r1 => allocCString (firstn (List.length r0 - List.length r1) r0)).
(** SipAddr.go:265-297 (SipAddr.parseTokens). *)
Definition parseTokens : P bytes := onRest (fun r0 => loopP tokensBody tt ;;; storeSince r0).
(** SipAddr.go:245-263 (SipAddr.parseDisplayName) (never called at the end of the input). *)
Definition parseDisplayName : P (bool * bytes) := onRest (fun r => match r with
  | [] => ret (false, [])
  | x :: _ => if IsSipToken x then n <- parseTokens ;; ret (false, n) else n <- paQuoted ;; ret (true, n)
  end).
(** SipAddr.go:136-179 (SipAddr.ParseNameAddrWithoutInit). *)
Definition parseNameAddr : P addr :=
  pSWS ;;;
  n <- onRest (fun r => match r with
    | [] => pfail
    | x :: r1 => if negb (x =? 60) then n <- parseDisplayName ;; pLeftAngleQuote ;;; ret (Some n) else goto r1 ;;; ret None
    end) ;;
  s <- parseScheme ;; u <- parseSpec true s ;; pRightAngleQuote ;;; ret (mkaddr true n u).
(** SipAddr.go:115-134 (SipAddr.ParseWithoutInit). *)
Definition parseAddr (params : bool) : P addr := onRest (fun r => match r with
  | [] => pfail
  | x :: _ =>
      if (x =? 60) || (x =? 34) then parseNameAddr
      else o <- orRestore (s <- parseScheme ;; ret (inl s)) (a <- parseNameAddr ;; ret (inr a)) ;;
           match o with inl s => u <- parseSpec params s ;; ret (mkaddr false None u) | inr a => ret a end
  end).
(** SipAddr.go:181-195 (SipAddr.parsAddrSpecWithoutInit) (the argument is ignored there). *)
Definition parseAddrSpec : P addr := s <- parseScheme ;; u <- parseSpec true s ;; ret (mkaddr false None u).

(** The switch shared by SipAddr.go:55-83 (SipAddr.Encode). *)
Definition encAUri (e : env) (u : auri) : bytes := match u with ASip x => encSipUri e x | ATel t => encTelUri e t end.
(** SipAddr.go:55-83 (SipAddr.Encode). *)
Definition encAddr (e : env) (a : addr) : bytes :=
  if aAngle a || eNameSpace e
  then match aName a with Some (true, n) => encQuoted n | Some (false, n) => n | None => [] end ++ 60 :: encAUri e (aUri a) ++ [62]
  else encAUri e (aUri a).
(** SipAddr.go:85-94 (SipAddr.EncodeAddrSpec): nothing is written for a telephone URI. *)
Definition encAddrSpec (e : env) (a : addr) : bytes := match aUri a with ASip x => encSipUri e x | ATel _ => [] end.
