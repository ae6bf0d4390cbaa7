(** Encode functions reading the structs from the arena's bytes. *)
From Verif Require Import Base Charset Num Lws Str Monad Host Uri Arena Layout Mem.

(** What an Encode method appends to the buffer. *)
Inductive wres := WOk (b : bytes) | WPanic | WLoop.
Definition Enc := env -> arena -> wres.
Definition eOut (b : bytes) : Enc := fun _ _ => WOk b.
Definition ePanic : Enc := fun _ _ => WPanic.
Definition eApp (f g : Enc) : Enc := fun e a =>
  match f e a with
  | WOk b => match g e a with WOk b' => WOk (b ++ b') | x => x end
  | x => x
  end.
Notation "f +++ g" := (eApp f g) (at level 61, right associativity).
Definition eMem (f : (N -> N) -> Enc) : Enc := fun e a => f (mem a) e a.
Definition eEnv (f : env -> Enc) : Enc := fun e => f e e.
(** [ptr.GetX(context)]. *)
Definition eDeref (p : N) (f : Enc) : Enc := fun e a => if cap a <=? p then WPanic else f e a.
(** AbnfPtr.go:182-188 (AbnfPtr.WriteCString). *)
Definition eCStr (p : N) : Enc := fun _ a => match readCString a p with None => WPanic | Some b => WOk b end.
(** AbnfPtr.go:190-210 (AbnfPtr.WriteCStringEscape). *)
Definition eEscape (cs : charset) (p : N) : Enc := fun _ a => match readCString a p with None => WPanic | Some b => WOk (escape cs b) end.
(** AbnfPtr.go:221-230 (AbnfPtr.GetAsByteSlice). *)
Definition eSlice (p n : N) (k : bytes -> Enc) : Enc := fun e a =>
  if p =? NILPTR then k [] e a else if cap a <=? p then WPanic else k (readBytes (mem a) p (N.to_nat n)) e a.

(** The loops over linked lists, e.g. UriParam.go:193-206 (EncodeUriParams): [between] is written when there is a next element. The fuel is more than
    the number of addresses. *)
Fixpoint eWalk (next : N) (one : N -> Enc) (between : bytes) (fuel : nat) (p : N) : Enc :=
  match fuel with
  | O => fun _ _ => WLoop
  | S f => eDeref p (one p +++ eMem (fun m => let q := g16 m (p + next) in if q =? NILPTR then eOut [] else eOut between +++ eWalk next one between f q))
  end.
Definition eList (next : N) (one : N -> Enc) (between : bytes) (p : N) : Enc := fun e a =>
  if p =? NILPTR then WOk [] else eWalk next one between (S (N.to_nat (cap a))) p e a.
(** The shape of EncodeKnownParams, e.g. SipUri.go:147-162: [one name p] for the entry [p] of the table at [t]. *)
Fixpoint eTable (one : bytes -> N -> Enc) (names : list bytes) (t : N) : Enc :=
  match names with
  | [] => eOut []
  | n :: ns => eMem (fun m => let p := g16 m t in if p =? NILPTR then eOut [] else one n p) +++ eTable one ns (t + 2)
  end.

(** SipHostPort.go:63-90 (SipHostPort.EncodeHost) and SipHostPort.go:92-102 (SipHostPort.WriteIpv4AsString). *)
Definition mEncHost (this : N) : Enc := eMem (fun m =>
  let q := g16 m (this + 4) in
  if m this =? 1 then eSlice q 4 (fun ip => match ip with
    | [a; b; c; d] => eOut (WriteByteAsString a ++ [46] ++ WriteByteAsString b ++ [46] ++ WriteByteAsString c ++ [46] ++ WriteByteAsString d)
    | _ => ePanic
    end)
  else if m this =? 2 then eSlice q 16 (fun ip => eEnv (fun e => eOut ([91] ++ ipString e ip ++ [93])))
  else if m this =? 3 then eCStr q
  else eOut (s2b "unknown host")).
(** SipHostPort.go:55-61 (SipHostPort.Encode). *)
Definition mEncHostPort (this : N) : Enc :=
  mEncHost this +++ eMem (fun m => if negb (m (this + 1) =? 0) then eOut (58 :: encUInt (g16 m (this + 2))) else eOut []).

(** [if !context.EncodeUriNoEscape { WriteCStringEscape } else { WriteCString }]. *)
Definition eUri (cs : charset) (p : N) : Enc := eEnv (fun e => if negb (eUriNoEscape e) then eEscape cs p else eCStr p).
(** UriParam.go:46-56 (UriParam.EncodeValue). *)
Definition mEncUriValue (cv : charset) (this : N) : Enc := eMem (fun m =>
  let v := g16 m (this + 2) in if negb (v =? NILPTR) then eOut [61] +++ eUri cv v else eOut []).
(** UriParam.go:34-44 (UriParam.Encode) and UriHeader.go:22-39 (UriHeader.Encode). *)
Definition mEncUriParam (cn cv : charset) (this : N) : Enc := eMem (fun m =>
  let n := g16 m this in if negb (n =? NILPTR) then eUri cn n +++ mEncUriValue cv this else eOut []).
(** UriParam.go:193-206 (EncodeUriParams). *)
Definition mEncUriParams (cn cv : charset) (p : N) : Enc := eList 4 (fun p => eOut [59] +++ mEncUriParam cn cv p) [] p.
(** UriHeader.go:122-133 (EncodeUriHeaders). *)
Definition mEncUriHeaders (p : N) : Enc := eList 4 (mEncUriParam SIP_HNAME SIP_HVALUE) [38] p.
(** SipUri.go:147-162 (SipUri.EncodeKnownParams). *)
Definition mEncUriKnown (cv : charset) (names : list bytes) (t : N) : Enc :=
  if t =? NILPTR then eOut [] else eDeref t (eTable (fun n p => eOut (59 :: n) +++ eDeref p (mEncUriValue cv p)) names t).
(** SipUri.go:97-145 (SipUri.Encode). *)
Definition mEncSipUri (this : N) : Enc := eMem (fun m =>
  eOut (if negb (m this =? 0) then s2b "sips:" else s2b "sip:") +++
  (let u := g16 m (this + 2) in let p := g16 m (this + 4) in
   if negb (u =? NILPTR)
   then eUri SIP_USER u +++ (if negb (p =? NILPTR) then eOut [58] +++ eUri SIP_PASSWORD p else eOut []) +++ eOut [64]
   else eOut []) +++
  mEncHostPort (this + 6) +++
  (let k := g16 m (this + 16) in let p := g16 m (this + 12) in
   if negb (k =? NILPTR)
   then mEncUriKnown SIP_PVALUE sipUriKnownNames k +++ mEncUriParams SIP_PNAME SIP_PVALUE p
   else mEncUriParams SIP_PNAME SIP_PVALUE p) +++
  (let h := g16 m (this + 14) in if negb (h =? NILPTR) then eOut [63] +++ mEncUriHeaders h else eOut [])).
