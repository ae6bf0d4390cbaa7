(** SipGenericParam.go. Value layer. *)
From Verif Require Import Base Charset Num Lws Str Monad.

(** Storing a slice of the input and moving past it: [AllocCString(context, src[parsePos:newPos])], then [parsePos = newPos'];
    [r'] is the input from the new position on. A failed allocation leaves the position. *)
Definition paSlice (tok r' : bytes) : P bytes := b <- allocCString tok ;; goto r' ;;; ret b.
(** [bytes.IndexByte(src, c)]: the input up to and including the first [c], and the rest. *)
Fixpoint cutAfter (c : N) (r : bytes) : option (bytes * bytes) :=
  match r with
  | [] => None
  | x :: r1 => if x =? c then Some ([x], r1) else match cutAfter c r1 with Some (a, b) => Some (x :: a, b) | None => None end
  end.

(** SipGenericParam.go:20-25 (type SipGenericParam): a NIL value is [None]; [valueType] is the constructor. *)
Inductive gvalue := GToken (v : bytes) | GQuoted (v : bytes) | GBracket (v : bytes).
Record gparam := mkgp { gpName : bytes; gpValue : option gvalue }.

(** SipGenericParam.go:101-141 (SipGenericParam.ParseValue). *)
Definition parseGenValue : P gvalue := onRest (fun r => match r with
  | [] => pfail
  | v :: _ =>
      if IsSipToken v then t <- paCString SIP_TOKEN ;; ret (GToken t)
      else if (v =? 34) || IsLwsChar v then t <- paQuoted ;; ret (GQuoted t)
      else if v =? 91 then match cutAfter 93 r with None => pfail | Some (tok, r') => t <- paSlice tok r' ;; ret (GBracket t) end
      else pfail
  end).
(** SipGenericParam.go:70-99 (SipGenericParam.Parse). *)
Definition parseGenParam : P gparam :=
  n <- paEscapable SIP_TOKEN ;;
  onRest (fun r => match r with
    | [] => ret (mkgp n None)
    | v :: _ =>
        if negb (v =? 61) && negb (IsLwsChar v) then ret (mkgp n None)
        else m <- pSWSMarkCanOmmit 61 ;; if m : bool then x <- parseGenValue ;; ret (mkgp n (Some x)) else ret (mkgp n None)
    end).

(** One round of the loop of SipGenericParam.go:171-222 (ParseSipGenericParams); [set] is SetKnownParams followed by the list insertion. *)
Definition gpBody (sep : N) (set : known gparam * list gparam -> gparam -> P (known gparam * list gparam)) (a : known gparam * list gparam)
  : P ((known gparam * list gparam) + (known gparam * list gparam)) := onRest (fun r => match r with
  | [] => ret (inr a)
  | x :: _ =>
      if IsOnlyCRLF r then ret (inr a)
      else if negb (x =? sep) && negb (IsLwsChar x) then ret (inr a)
      else match ParseSWSMarkCanOmmit sep r with
           | (r', _, false) => goto r' ;;; pfail
           | (_, false, true) => ret (inr a)
           | (r', true, true) => goto r' ;;; (allocStruct 8 ;;; p <- parseGenParam ;; a' <- set a p ;; ret (inl a'))
           end
  end).
(** SipGenericParam.go:171-222 (ParseSipGenericParams): [on] is the context flag that makes the caller pass itself as [knownParams]. *)
Definition parseGenParams (sep : N) (on : env -> bool) (names : list bytes) : P (known gparam * list gparam) :=
  loopP (gpBody sep (fun a p => withEnv (fun e => addParam (on e) names gpName a p))) (None, []).
(** The call with [knownParams == nil]. *)
Definition noKnown (_ : env) : bool := false.

(** SipQuotedString.go:7-11 (EncodeSipQuotedString). *)
Definition encQuoted (v : bytes) : bytes := 34 :: v ++ [34].
(** SipGenericParam.go:54-63 (SipGenericParam.EncodeValue). *)
Definition encGenValue (v : option gvalue) : bytes :=
  match v with
  | None => []
  | Some (GToken t) | Some (GBracket t) => 61 :: t
  | Some (GQuoted t) => 61 :: encQuoted t
  end.
(** SipGenericParam.go:47-52 (SipGenericParam.Encode). *)
Definition encGenParam (p : gparam) : bytes := gpName p ++ encGenValue (gpValue p).
(** SipGenericParam.go:224-241 (EncodeSipGenericParams), with the EncodeKnownParams shared by all users (it writes ";" and the table's spelling of the name). *)
Definition encGenParams (sep : N) (names : list bytes) (t : known gparam) (ps : list gparam) : bytes :=
  encKnown names (fun n p => 59 :: n ++ encGenValue (gpValue p)) t ++ flat_map (fun p => sep :: encGenParam p) ps.
