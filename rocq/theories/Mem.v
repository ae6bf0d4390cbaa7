(** The parsers at the level of the arena's bytes: objects are Go structs at addresses in the arena, fields are read and written
    at the offsets of Layout.v, strings are the ones the byte-level string parsers of Arena.v store. This file has the monad
    and the primitive steps. *)
From Verif Require Import Base Charset Num Lws Str Monad Arena Layout.

(** Outcome of a Go function [func (context) (x, ok)] on the arena and the unread input. *)
Inductive mres (A : Type) : Type :=
| MOk (x : A) (a : arena) (r : bytes)
| MFail (a : arena) (r : bytes)
| MPanic
| MLoop.
Arguments MOk {A} x a r.
Arguments MFail {A} a r.
Arguments MPanic {A}.
Arguments MLoop {A}.
Definition M (A : Type) := env -> arena -> bytes -> mres A.

Definition mret {A} (x : A) : M A := fun _ a r => MOk x a r.
Definition mfail {A} : M A := fun _ a r => MFail a r.
Definition mpanic {A} : M A := fun _ _ _ => MPanic.
Definition mbind {A B} (m : M A) (f : A -> M B) : M B := fun e a r =>
  match m e a r with
  | MOk x a' r' => f x e a' r'
  | MFail a' r' => MFail a' r'
  | MPanic => MPanic
  | MLoop => MLoop
  end.
Notation "x <~ m ;; q" := (mbind m (fun x => q)) (at level 61, m at next level, right associativity).
Notation "m ;~ q" := (mbind m (fun _ => q)) (at level 61, right associativity).

Definition mOnRest {A} (f : bytes -> M A) : M A := fun e a r => f r e a r.
Definition mGoto (r : bytes) : M unit := fun _ a _ => MOk tt a r.
Definition mWithEnv {A} (f : env -> M A) : M A := fun e => f e e.
(** [pos := context.parsePos; if !f { context.parsePos = pos; g }]. *)
Definition mOrRestore {A} (m q : M A) : M A := fun e a r => match m e a r with MFail a' _ => q e a' r | x => x end.

(** A Go [for] loop (the fuel is that of [loopP]). *)
Fixpoint iterM {X Y} (fuel : nat) (body : X -> M (X + Y)) (x : X) : M Y :=
  match fuel with
  | O => fun _ _ _ => MLoop
  | S f => y <~ body x ;; match y with inl x' => iterM f body x' | inr y => mret y end
  end.
Definition loopM {X Y} (body : X -> M (X + Y)) (x : X) : M Y := fun e a r => iterM (S (List.length r)) body x e a r.

(** Little-endian 16-bit and 32-bit fields. *)
Definition g16 (m : N -> N) (p : N) : N := m p + 256 * m (p + 1).
Definition p16 (m : N -> N) (p v : N) : N -> N := upd (upd m p (u16 v mod 256)) (p + 1) (u16 v / 256).
Definition g32 (m : N -> N) (p : N) : N := g16 m p + two16 * g16 m (p + 2).
Definition p32 (m : N -> N) (p v : N) : N -> N := p16 (p16 m p (u32 v mod two16)) (p + 2) (u32 v / two16).

(** Reading and assigning a field at address [p]. (A struct is reached through [&mem[ptr]], which is checked by
    [deref]; field accesses themselves are unchecked.) *)
Definition set8 (p v : N) : M unit := fun _ a r => MOk tt (setMem a (upd (mem a) p v)) r.
Definition set16 (p v : N) : M unit := fun _ a r => MOk tt (setMem a (p16 (mem a) p v)) r.
Definition set32 (p v : N) : M unit := fun _ a r => MOk tt (setMem a (p32 (mem a) p v)) r.
Definition get8 (p : N) : M N := fun _ a r => MOk (mem a p) a r.
Definition get16 (p : N) : M N := fun _ a r => MOk (g16 (mem a) p) a r.
Definition get32 (p : N) : M N := fun _ a r => MOk (g32 (mem a) p) a r.
(** [ptr.GetX(context)]: [&context.allocator.mem[ptr]] (AbnfSip.go:12-170). *)
Definition deref (p : N) : M unit := fun _ a r => if cap a <=? p then MPanic else MOk tt a r.
(** Init(): ZeroMem of the struct. *)
Definition mInit (p size : N) : M unit := fun _ a r => MOk tt (setMem a (ZeroMem (mem a) p size)) r.

(** [ptr, ok := context.allocator.ParseAndAlloc...(context, ...); if !ok { return false }]. *)
Definition mStr (f : arena -> bytes -> ares) : M N := fun _ a r =>
  match f a r with
  | AOk p a' r' => MOk p a' r'
  | AFail a' r' => MFail a' r'
  | APanic => MPanic
  | ALoop => MLoop
  end.
(** [this.field, ok = f(context, ...); if !ok { return false }] where [f] returns NIL when it fails. *)
Definition mInto (p : N) (m : M N) : M unit := fun e a r =>
  match m e a r with
  | MOk x a' r' => MOk tt (setMem a' (p16 (mem a') p x)) r'
  | MFail a' r' => MFail (setMem a' (p16 (mem a') p NILPTR)) r'
  | MPanic => MPanic
  | MLoop => MLoop
  end.
(** [addr := AllocWithClear(size)] (the NewX functions); NIL when there is no room. *)
Definition mNewX (size : N) : M N := fun _ a r => let '(p, a') := AllocWithClear size a in MOk p a' r.
(** [addr := NewX(context); if addr == ABNF_PTR_NIL { return false }; x := addr.GetX(context)]. *)
Definition mNew (size : N) : M N := p <~ mNewX size ;; if p =? NILPTR then mfail else (deref p ;~ mret p).
(** [addr := Alloc(size); if addr == NIL { return false }]. *)
Definition mAllocX (size : N) : M N := fun _ a r => let '(p, a') := Alloc size a in MOk p a' r.
Definition mAlloc (size : N) : M N := p <~ mAllocX size ;; if p =? NILPTR then mfail else mret p.
(** AbnfBasic.go:72-93 (AllocCString), with the nil check of its callers; the position is untouched. (A slice of 2 GB or more, for which
    the uint32 arithmetic of Alloc may wrap, is not modelled here: it is refused. Arena.v models AllocCString exactly.) *)
Definition mCString (b : bytes) : M N := fun _ a r =>
  if 2147483648 <=? len b then MFail a r else
  match AllocCString b a with
  | AOk p a' _ => MOk p a' r
  | AFail a' _ => MFail a' r
  | APanic => MPanic
  | ALoop => MLoop
  end.
(** [copy(addr.GetAsByteSlice(context, n), b)] with [n <= len(b)]. *)
Definition mCopy (p n : N) (b : bytes) : M unit := fun _ a r =>
  if cap a <=? p then MPanic else
  match writeBytes (cap a) (mem a) p (firstn (N.to_nat n) b) with
  | None => MPanic
  | Some (m, _) => MOk tt (setMem a m) r
  end.
(** The digits of AbnfBasic.go:451-519 (ParseUInt) on the context position. *)
Definition mUInt : M N := mOnRest (fun r => match ParseUInt r with
  | Some (v, _, r') => mGoto r' ;~ mret v
  | None => mfail
  end).
(** Whitespace parsers: they only move the position. [f] gives the unread input and the answer. *)
Definition mPos {A} (p : P A) : M A := fun e a r =>
  match p e (mkst r (aused a)) with
  | Ok x s => MOk x a (rest s)
  | Fail s => MFail a (rest s)
  | Panic => MPanic
  | Loop => MLoop
  end.

(** [name.CStringEqualNoCase(context, names[i])] for i = 0, 1, ...: the first match. *)
Definition mFindName (names : list bytes) (name : N) : M (option nat) := fun _ a r =>
  match readCString a name with
  | None => MPanic
  | Some b => MOk (findName names b 0) a r
  end.
(** The shape of SetKnownParams, e.g. SipUri.go:164-191 (SipUri.SetKnownParams): [tbl] is the address of the field
    [knownParams]. A failed allocation goes on with the NIL address. *)
Definition mSetKnown (names : list bytes) (tbl name param : N) : M bool :=
  t <~ get16 tbl ;;
  (if t =? NILPTR then mret tt else deref t) ;~
  i <~ mFindName names name ;;
  match i with
  | None => mret false
  | Some i =>
      t' <~ (if t =? NILPTR
             then q <~ mNewX (2 * N.of_nat (List.length names)) ;; set16 tbl q ;~ deref q ;~ mret q
             else mret t) ;;
      set16 (t' + 2 * N.of_nat i) param ;~ mret true
  end.

(** Append to a list held in the locals [head] and [prev] (addresses, NIL = nil): [next] is the offset of the field [next]
    (e.g. UriParam.go:122-131). *)
Definition mAppend (next : N) (hp : N * N) (x : N) : M (N * N) :=
  if snd hp =? NILPTR then mret (x, x) else set16 (snd hp + next) x ;~ mret (fst hp, x).
