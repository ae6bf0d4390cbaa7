(** Bytes, parser results and the parser monad shared by the whole model.

    Modelling conventions (all of /repo/src/sipparser):
    - a byte is an [N]; a byte string is a [list N];
    - the Go parsers walk [context.parseSrc] with an index [context.parsePos]; no
      parser ever looks behind its start position, so the model keeps the unread suffix
      [parseSrc[parsePos:]] ([rest]) instead of the index; the index is [len src - length rest];
    - [context.allocator.used] is [used]; [cap(allocator.mem)] is [memend] ([None] = a memory
      that is never exhausted);
    - [Ok]/[Fail] are the two values of the [ok] result (with the state left behind),
      [Panic] is a Go run-time panic, [Loop] is non-termination of a Go loop (a
      fuelled loop that ran out of fuel; each such loop has a lemma saying that
      running out of the fuel supplied means running out of any fuel). *)
From Coq Require Export List NArith ZArith Lia Bool Ascii String.
Export ListNotations.
From Coq Require Export ZifyBool ZifyNat ZifyN.
Open Scope list_scope.
Open Scope N_scope.

#[global] Arguments N.add : simpl never.
#[global] Arguments N.sub : simpl never.
#[global] Arguments N.mul : simpl never.
#[global] Arguments N.div : simpl never.
#[global] Arguments N.modulo : simpl never.
#[global] Arguments N.pow : simpl never.
#[global] Arguments N.eqb : simpl never.
#[global] Arguments N.ltb : simpl never.
#[global] Arguments N.leb : simpl never.
#[global] Arguments N.land : simpl never.
#[global] Arguments N.lor : simpl never.

Definition bytes := list N.

(** String literals as byte lists. *)
Fixpoint s2b (s : string) : bytes :=
  match s with
  | EmptyString => []
  | String a s' => N_of_ascii a :: s2b s'
  end.

(** A one-character literal. *)
Definition ch (s : string) : N := match s2b s with x :: _ => x | [] => 0 end.
Arguments ch s%string_scope.
Arguments s2b s%string_scope.

Notation CR := 13 (only parsing).
Notation LF := 10 (only parsing).
Notation SP := 32 (only parsing).
Notation HT := 9 (only parsing).

Definition CRLF : bytes := [13; 10].

(** Length as an [N]. *)
Definition len (b : bytes) : N := N.of_nat (List.length b).

Fixpoint beq (a b : bytes) : bool :=
  match a, b with
  | [], [] => true
  | x :: a', y :: b' => (x =? y) && beq a' b'
  | _, _ => false
  end.

(** [isByte b]: [b] is a Go byte. *)
Definition isByte (b : N) : Prop := b < 256.
Definition allBytes (l : bytes) : Prop := Forall isByte l.

(** Parser state, environment and results. *)
Record st := mkst { rest : bytes; used : N }.

(** [memend]: [cap(allocator.mem)] (AbnfMem.go:64-68); the flags are the fields of Context
    (AbnfContext.go:9-38) that parsers consult. *)
Record env := mkenv {
  memend : option N;
  fSipUriKnown : bool;        (* ParseSetSipUriKnownParam *)
  fTelUriKnown : bool;        (* ParseSetTelUriKnownParam *)
  fFromKnown : bool;          (* ParseSetSipFromKnownParam *)
  fToKnown : bool;            (* ParseSetSipToKnownParam *)
  fViaKnown : bool;           (* ParseSetSipViaKnownParam *)
  fContactKnown : bool;       (* ParseSetSipContactKnownParam *)
  fContentTypeKnown : bool;   (* ParseSetSipContentTypeKnownParam *)
  fContentDispositionKnown : bool; (* ParseSetSipContentDispositionKnownParam *)
  fHeaderAsRaw : bool;        (* ParseSipHeaderAsRaw *)
  eShortName : bool;          (* EncodeHeaderShorName *)
  eNameSpace : bool;          (* EncodeUriAsNameSpace *)
  eUriNoEscape : bool;        (* EncodeUriNoEscape *)
  eReasonNoEscape : bool;     (* EncodeReasonPhraseNoEscape *)
  eNeed : N -> bool;          (* NeedParse of the entries of SipHeaders (SipHeadersInfo.go:23) *)
  ipParse : bytes -> option bytes;  (* Go net.ParseIP (external; [None] = nil) *)
  ipString : bytes -> bytes         (* Go net.IP.String (external) *)
}.

(** NewContext (AbnfContext.go:40-46) with an arena of [m] (and a net package that knows no address). *)
Definition defaultEnv (m : option N) : env :=
  mkenv m false false false false false false true false false false true false false (fun _ => true) (fun _ => None) (fun _ => []).

(** The same context with another arena size. *)
Definition withMem (m : option N) (e : env) : env :=
  mkenv m (fSipUriKnown e) (fTelUriKnown e) (fFromKnown e) (fToKnown e) (fViaKnown e)
        (fContactKnown e) (fContentTypeKnown e) (fContentDispositionKnown e) (fHeaderAsRaw e)
        (eShortName e) (eNameSpace e) (eUriNoEscape e) (eReasonNoEscape e) (eNeed e) (ipParse e) (ipString e).

Inductive res (A : Type) : Type :=
| Ok (a : A) (s : st)
| Fail (s : st)
| Panic
| Loop.
Arguments Ok {A} a s.
Arguments Fail {A} s.
Arguments Panic {A}.
Arguments Loop {A}.

Definition P (A : Type) := env -> st -> res A.

Definition ret {A} (a : A) : P A := fun _ s => Ok a s.
Definition pfail {A} : P A := fun _ s => Fail s.
Definition bind {A B} (p : P A) (f : A -> P B) : P B :=
  fun e s => match p e s with
             | Ok a s' => f a e s'
             | Fail s' => Fail s'
             | Panic => Panic
             | Loop => Loop
             end.
Notation "x <- p ;; q" := (bind p (fun x => q)) (at level 61, p at next level, right associativity).
Notation "p ;;; q" := (bind p (fun _ => q)) (at level 61, right associativity).

(** [attempt p]: run [p]; report success or failure as a value (a caller that does
    not return on [!ok]). The state is the one [p] left behind. *)
Definition attempt {A} (p : P A) : P (option A) :=
  fun e s => match p e s with
             | Ok a s' => Ok (Some a) s'
             | Fail s' => Ok None s'
             | Panic => Panic
             | Loop => Loop
             end.

(** Lift a total function on the unread suffix. *)
Definition getRest : P bytes := fun _ s => Ok (rest s) s.
Definition setRest (r : bytes) : P unit := fun _ s => Ok tt (mkst r (used s)).
Definition getUsed : P N := fun _ s => Ok (used s) s.
Definition ask : P env := fun e s => Ok e s.

(** [n < memEnd] and [n <= memEnd]. *)
Definition ltMem (e : env) (n : N) : bool :=
  match memend e with None => true | Some m => n <? m end.
Definition leMem (e : env) (n : N) : bool :=
  match memend e with None => true | Some m => n <=? m end.

(** MemAllocator.Alloc / AllocWithClear as seen by the value layer (AbnfMem.go:683-735): a struct of [n > 0]
    bytes either fits ([used+n <= cap(mem)]) or the caller gets nil and returns
    false. (uint32 wrap-around of [used+n] is irrelevant here: struct sizes are below 100.) *)
Definition allocStruct (n : N) : P unit := fun e s =>
  if leMem e (used s + n) then Ok tt (mkst (rest s) (used s + n)) else Fail s.

(** Maximal prefix satisfying [f], and what follows it. *)
Fixpoint span (f : N -> bool) (l : bytes) : bytes * bytes :=
  match l with
  | [] => ([], [])
  | x :: l' => if f x then let '(a, b) := span f l' in (x :: a, b) else ([], l)
  end.
