(** context.Errors over a sequence of calls, and its rendering. *)
From Verif Require Import Base Charset Num Lws Str Monad Host Uri Tel GenParam Addr StartLine Headers RawHeaders Msg Log.

(** AbnfError.go:8-15 (type AbnfError); file name and line are supplied when it is written. *)
Record rerr := mkrerr { rSrc : bytes; rPos : N; rText : string }.
(** AbnfContext.go:70-73 (Context.AddError): the source of the running parse is stored with the position. *)
Definition record (src : bytes) (x : err) : rerr := mkrerr src (len src - len (eAt x)) (eText x).

(** The parsing calls of the interface. *)
Inductive api :=
  | AMsg | AStartLine | AHeader (k : hkind) | AHeaderValue (k : hkind) | ASipUri | ATelUri | AAddr (params : bool) | ANameAddr | AAddrSpec | AHostPort | AHost
  | AMethod | AVersion | AUriParam (cn cv : charset) | AUriHeader | AUriHeaders | AGenParam | ARawHeaders | AHeaders (o : owner).
Definition apiL (a : api) : L unit :=
  match a with
  | AMsg => parseMsgL ;+> retL tt
  | AStartLine => parseStartLineL ;+> retL tt
  | AHeader k => parseHeaderL k ;+> retL tt
  | AHeaderValue k => parseHValL k ;+> retL tt
  | ASipUri => parseSipUriL ;+> retL tt
  | ATelUri => parseTelUriL ;+> retL tt
  | AAddr ps => parseAddrL ps ;+> retL tt
  | ANameAddr => parseNameAddrL ;+> retL tt
  | AAddrSpec => parseAddrSpecL ;+> retL tt
  | AHostPort => parseHostPortL ;+> retL tt
  | AHost => parseHostL ;+> retL tt
  | AMethod => parseMethodL ;+> retL tt
  | AVersion => parseVersionL ;+> retL tt
  | AUriParam cn cv => parseUriParamL cn cv ;+> retL tt
  | AUriHeader => parseUriHeaderL ;+> retL tt
  | AUriHeaders => parseUriHeadersL ;+> retL tt
  | AGenParam => parseGenParamL ;+> retL tt
  | ARawHeaders => parseRawHeadersL ;+> retL tt
  | AHeaders o => parseHeadersL o ;+> retL tt
  end.
(** The same calls in the layer without errors. *)
Definition apiP (a : api) : P unit :=
  match a with
  | AMsg => parseMsg ;;; ret tt
  | AStartLine => parseStartLine ;;; ret tt
  | AHeader k => parseHeader k ;;; ret tt
  | AHeaderValue k => parseHVal k ;;; ret tt
  | ASipUri => parseSipUri ;;; ret tt
  | ATelUri => parseTelUri ;;; ret tt
  | AAddr ps => parseAddr ps ;;; ret tt
  | ANameAddr => parseNameAddr ;;; ret tt
  | AAddrSpec => parseAddrSpec ;;; ret tt
  | AHostPort => parseHostPort ;;; ret tt
  | AHost => parseHost ;;; ret tt
  | AMethod => parseMethod ;;; ret tt
  | AVersion => parseVersion ;;; ret tt
  | AUriParam cn cv => parseUriParam cn cv ;;; ret tt
  | AUriHeader => parseUriHeader ;;; ret tt
  | AUriHeaders => parseUriHeaders ;;; ret tt
  | AGenParam => parseGenParam ;;; ret tt
  | ARawHeaders => parseRawHeaders ;;; ret tt
  | AHeaders o => parseHeaders o ;;; ret tt
  end.

(** What a Context keeps between two calls: the errors (oldest first) and the used part of the arena. Nothing in the repository empties Errors. *)
Record ctx := mkctx { cErrs : list rerr; cUsed : N }.
(** SetParseSrc(src), SetParsePos(start) (AbnfContext.go:48-64), then the call: what it returns, where parsePos is left, and the new context; [None] when it panics. *)
Definition callOn (e : env) (c : ctx) (a : api) (src : bytes) (start : N) : option (bool * N * ctx) :=
  match apiL a e (mkst (skipn (N.to_nat start) src) (cUsed c)) with
  | (Ok _ s', l) => Some (true, len src - len (rest s'), mkctx (cErrs c ++ map (record src) l) (used s'))
  | (Fail s', l) => Some (false, len src - len (rest s'), mkctx (cErrs c ++ map (record src) l) (used s'))
  | _ => None
  end.
(** A sequence of calls on one context: what each of them returned, and the context at the end. *)
Fixpoint callsOn (e : env) (c : ctx) (cs : list (api * bytes * N)) : option (list bool * ctx) :=
  match cs with
  | [] => Some ([], c)
  | (a, src, start) :: cs =>
      match callOn e c a src start with
      | None => None
      | Some (ok, _, c1) => match callsOn e c1 cs with None => None | Some (oks, c2) => Some (ok :: oks, c2) end
      end
  end.

(** ** Rendering *)
(** A Go slice expression [b[i:j]]. *)
Definition slice (b : bytes) (i j : N) : option bytes :=
  if (i <=? j) && (j <=? len b) then Some (firstn (N.to_nat (j - i)) (skipn (N.to_nat i) b)) else None.
(** AbnfError.go:27-43 (AbnfError.Write); [loc] is the "file:line" of the AddError call. The "unknown error" computed for an empty description is not used. *)
Definition writeErr (loc : bytes) (x : rerr) : option bytes :=
  if rPos x <? len (rSrc x) then
    let num := if len (rSrc x) <? rPos x + 40 then len (rSrc x) - rPos x else 40 in
    match slice (rSrc x) (rPos x) (rPos x + num) with
    | None => None
    | Some t => Some (loc ++ s2b ": " ++ s2b (rText x) ++ s2b " at src[" ++ encUInt (rPos x) ++ s2b "]: " ++ t)
    end
  else Some (loc ++ s2b ": " ++ s2b (rText x)).
(** AbnfError.go:65-72 (AbnfErrors.Write), with the errors newest first in [es] (each with its location) and [k] the number of the next one; [nl] is what Printfln adds. *)
Fixpoint writeFrom (nl : bytes) (k : N) (es : list (bytes * rerr)) : option bytes :=
  match es with
  | [] => Some []
  | (loc, x) :: es =>
      match writeErr loc x, writeFrom nl (k + 1) es with
      | Some t, Some r => Some (s2b "[" ++ encUInt k ++ s2b "]: " ++ t ++ nl ++ r)
      | _, _ => None
      end
  end.
(** AbnfError.go:65-72 (AbnfErrors.Write). *)
Definition writeErrs (nl : bytes) (es : list (bytes * rerr)) : option bytes := writeFrom nl 1 (rev es).
