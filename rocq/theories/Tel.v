(** TelUri.go. Value layer. *)
From Verif Require Import Base Charset Num Lws Str Monad Host Uri.

(** TelUri.go:44-51 (type TelUri): a NIL context is [None]. *)
Record teluri := mktel { tGlobal : bool; tDomain : bool; tNumber : bytes; tContext : option uparam; tKnown : known uparam; tParams : list uparam }.
(** TelUri.go:27-30 (g_TelUriKnownParamInfo). *)
Definition telKnownNames : list bytes := [s2b "isub"; s2b "ext"].

(** TelUri.go:108-141 (TelUri.SetKnownParams): a NIL value of the context is an empty slice, whose element 0 does not exist. *)
Definition telSet (a : (option uparam * bool) * (known uparam * list uparam)) (p : uparam) : P ((option uparam * bool) * (known uparam * list uparam)) :=
  if equalNoCase (upName p) (s2b "phone-context") then
    match upValue p with
    | Some (x :: v) => if negb (x =? 43) then ret ((Some p, true), snd a)
                       else ret ((Some (mkup (upName p) (Some (removeVisual (x :: v)))), false), snd a)
    | _ => panic
    end
  else b <- withEnv (fun e => addParam (fTelUriKnown e) telKnownNames upName (snd a) p) ;; ret (fst a, b).
(** TelUri.go:189-211 (TelUri.parseNumber) with TelUri.go:213-220 (TelUri.parseGlobalNumber) and TelUri.go:222-229 (TelUri.parseLocalNumber). *)
Definition parseTelNumber : P (bool * bytes) := onRest (fun r => match r with
  | [] => pfail
  | x :: _ => if x =? 43 then n <- paTelNumber TEL_PHONE_DIGIT ;; ret (true, n) else n <- paTelNumber TEL_PHONE_DIGIT_HEX ;; ret (false, n)
  end).
(** TelUri.go:161-183 (TelUri.ParseAfterSchemeWithoutInit): the parameters are read with the SIP URI classes. *)
Definition parseTelAfterScheme : P teluri :=
  gn <- parseTelNumber ;;
  onRest (fun r => match r with
    | x :: r1 => if x =? 59
        then goto r1 ;;; (a <- parseUriParams SIP_PNAME SIP_PVALUE telSet ((None, false), (None, [])) ;;
                          ret (mktel (fst gn) (snd (fst a)) (snd gn) (fst (fst a)) (fst (snd a)) (snd (snd a))))
        else ret (mktel (fst gn) false (snd gn) None None [])
    | [] => ret (mktel (fst gn) false (snd gn) None None [])
    end).
(** TelUri.go:185-187 (TelUri.ParseAfterSchemeWithoutParam). *)
Definition parseTelAfterSchemeNoParam : P teluri := gn <- parseTelNumber ;; ret (mktel (fst gn) false (snd gn) None None []).
(** TelUri.go:231-253 (TelUri.parseScheme): the fourth byte is compared after setting bit 0x20 (so 0x1a passes for ":"). *)
Definition parseTelScheme : P unit := onRest (fun r => match r with
  | a :: b :: c :: d :: r1 => if lc a 116 && lc b 101 && lc c 108 && lc d 58 then goto r1 else pfail
  | _ => pfail
  end).
(** TelUri.go:148-155 (TelUri.ParseWithoutInit). *)
Definition parseTelUri : P teluri := parseTelScheme ;;; parseTelAfterScheme.

(** TelUri.go:73-89 (TelUri.Encode) with TelUri.go:91-106 (TelUri.EncodeKnownParams): the context of a global number is not written. *)
Definition encTelUri (e : env) (t : teluri) : bytes :=
  s2b "tel:" ++ tNumber t ++
  (if tGlobal t then [] else match tContext t with Some p => s2b ";phone-context" ++ encUriValue e TEL_PVALUE (upValue p) | None => [] end) ++
  encUriKnown e TEL_PVALUE telKnownNames (tKnown t) ++
  encUriParams e TEL_PNAME TEL_PVALUE (tParams t).
