(** Combinators for the value-layer parsers. *)
From Verif Require Import Base Charset Num Lws Str.

(** Look at the unread input ([context.parseSrc[context.parsePos:]]). *)
Definition onRest {A} (f : bytes -> P A) : P A := fun e s => f (rest s) e s.
(** Set the position to that of the suffix [r]. *)
Definition goto (r : bytes) : P unit := fun _ s => Ok tt (mkst r (used s)).
Definition panic {A} : P A := fun _ _ => Panic.
(** [withEnv f]: consult the context flags. *)
Definition withEnv {A} (f : env -> P A) : P A := fun e s => f e e s.

(** A Go [for] loop: the body either goes on with a new loop state or leaves the loop. The fuel (one more than the number of unread
    bytes) is enough whenever every continuing iteration consumes input; LoopP lemmas in MonadProofs. *)
Fixpoint iterP {A B} (fuel : nat) (body : A -> P (A + B)) (a : A) : P B :=
  match fuel with
  | O => fun _ _ => Loop
  | S f => x <- body a ;; match x with inl a' => iterP f body a' | inr b => ret b end
  end.
Definition loopP {A B} (body : A -> P (A + B)) (a : A) : P B :=
  fun e s => iterP (S (List.length (rest s))) body a e s.

(** [pos := context.parsePos; if p fails { context.parsePos = pos; q }]. *)
Definition orRestore {A} (p q : P A) : P A := fun e s =>
  match p e s with Fail s' => q e (mkst (rest s) (used s')) | x => x end.

(** AbnfBasic.go ParseUInt on the context position (the digit count is dropped). *)
Definition pUInt : P N := onRest (fun r => match ParseUInt r with
  | Some (v, _, r') => goto r' ;;; ret v
  | None => pfail
  end).

(** The shape of the list loops of UriParam.go and UriHeader.go: [for parsePos < len { one; if at end or next is not c, stop; parsePos++ }]. *)
Definition contIf {A} (c : N) (a : A) : P (A + A) := onRest (fun r => match r with
  | x :: r1 => if x =? c then goto r1 ;;; ret (inl a) else ret (inr a)
  | [] => ret (inr a)
  end).
Definition sepLoop {A} (c : N) (one : A -> P A) (a0 : A) : P A :=
  loopP (fun a => onRest (fun r => match r with [] => ret (inr a) | _ => bind (one a) (contIf c) end)) a0.

(** The shape of SetKnownParams: a table of recognised names (first match wins, case-insensitive), created on the first
    recognised parameter, each entry holding the last parameter with that name. [size] is the size of the table struct (two bytes
    per entry). When the table cannot be allocated the Go code goes on with the nil address: entry [i] is then written at arena
    offset 2*i, which is inside the unused 8-byte prefix for [i < 4] (the parameter is dropped silently) and overwrites the first
    allocated object otherwise (modelled as a crash). *)
Fixpoint findName (names : list bytes) (n : bytes) (i : nat) : option nat :=
  match names with
  | [] => None
  | x :: names' => if equalNoCase n x then Some i else findName names' n (S i)
  end.
Fixpoint setNth {A} (l : list A) (i : nat) (x : A) : list A :=
  match l, i with
  | _ :: l', O => x :: l'
  | y :: l', S i' => y :: setNth l' i' x
  | [], _ => []
  end.
Definition known A := option (list (option A)).
Definition setKnown {A} (names : list bytes) (name : A -> bytes) (t : known A) (p : A) : P (option (known A)) :=
  match findName names (name p) 0 with
  | None => ret None
  | Some i =>
      match t with
      | Some tbl => ret (Some (Some (setNth tbl i (Some p))))
      | None => fun e s =>
          if leMem e (used s + 2 * N.of_nat (List.length names))
          then Ok (Some (Some (setNth (repeat None (List.length names)) i (Some p)))) (mkst (rest s) (used s + 2 * N.of_nat (List.length names)))
          else if Nat.ltb i 4 then Ok (Some None) s else Panic
      end
  end.
(** Entry or list, as the caller does with the answer of SetKnownParams. *)
Definition addParam {A} (enabled : bool) (names : list bytes) (name : A -> bytes) (a : known A * list A) (p : A) : P (known A * list A) :=
  if enabled
  then o <- setKnown names name (fst a) p ;; ret match o with Some t => (t, snd a) | None => (fst a, snd a ++ [p]) end
  else ret (fst a, snd a ++ [p]).
(** EncodeKnownParams: the present entries in table order. *)
Definition encKnown {A} (names : list bytes) (encOne : bytes -> A -> bytes) (t : known A) : bytes :=
  match t with
  | None => []
  | Some tbl => flat_map (fun np => match snd np with Some p => encOne (fst np) p | None => [] end) (combine names tbl)
  end.
