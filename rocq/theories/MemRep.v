(** What the bytes of the arena denote: representation of the parsed objects. [m] is the memory, [this] the address of the
    struct; everything the struct points to lies in [lo, hi). *)
From Verif Require Import Base Charset Num Lws Str Monad Host Uri Arena Layout Mem MemSim.

(** SipHostPort: id, hasPort, port, data. *)
Definition repHost (m : N -> N) (this lo hi : N) (h : host) : Prop :=
  let q := g16 m (this + 4) in
  match h with
  | HUnknown => m this = 0
  | HIpv4 a b c d => m this = 1 /\ lo <= q /\ q + 4 <= hi /\ readBytes m q 4 = [a; b; c; d]
  | HIpv6 ip => m this = 2 /\ lo <= q /\ q + 16 <= hi /\ readBytes m q 16 = ip
  | HName n => m this = 3 /\ str m lo hi q n
  end.
Definition repHostPort (m : N -> N) (this lo hi : N) (h : hostport) : Prop :=
  repHost m this lo hi (hpHost h) /\
  match hpPort h with None => m (this + 1) = 0 | Some n => m (this + 1) = 1 /\ g16 m (this + 2) = n end.

(** A linked list of structs of [size] bytes with the field [next] at offset [next]; [node m p q x]: the struct at [p] is [x] with its data in [p, q).
    Later elements have higher addresses, so the list is finite. *)
Fixpoint repList {A} (node : (N -> N) -> N -> N -> A -> Prop) (size next : N) (m : N -> N) (lo hi p : N) (l : list A) : Prop :=
  match l with
  | [] => p = NILPTR
  | x :: l' => lo <= p /\ p <> NILPTR /\ (exists q, p + size <= q /\ q <= hi /\ node m p q x) /\ repList node size next m (p + size) hi (g16 m (p + next)) l'
  end.
(** A table of recognised parameters: [n] pointers, NIL for an absent one. *)
Definition repEntry {A} (node : (N -> N) -> N -> N -> A -> Prop) (size : N) (m : N -> N) (lo hi p : N) (o : option A) : Prop :=
  match o with
  | None => p = NILPTR
  | Some x => lo <= p /\ p <> NILPTR /\ exists q, p + size <= q /\ q <= hi /\ node m p q x
  end.
Definition repTable {A} (node : (N -> N) -> N -> N -> A -> Prop) (size n : N) (m : N -> N) (lo hi t : N) (k : known A) : Prop :=
  match k with
  | None => t = NILPTR
  | Some tbl => lo <= t /\ t <> NILPTR /\ t + 2 * n <= hi /\ List.length tbl = N.to_nat n /\
                forall i, (i < List.length tbl)%nat -> repEntry node size m lo hi (g16 m (t + 2 * N.of_nat i)) (nth i tbl None)
  end.

(** UriParam, UriHeader: name, value, next. *)
Definition repUParam (m : N -> N) (p q : N) (x : uparam) : Prop :=
  str m (p + 6) q (g16 m p) (upName x) /\ ostr m (p + 6) q (g16 m (p + 2)) (upValue x).
Definition repUParams := repList repUParam 6 4.

(** SipUri: isSecure, user, password, hostport, params, headers, knownParams. *)
Definition repSipUri (m : N -> N) (this lo hi : N) (u : sipuri) : Prop :=
  m this = (if uSecure u then 1 else 0) /\
  ostr m lo hi (g16 m (this + 2)) (uUser u) /\
  ostr m lo hi (g16 m (this + 4)) (uPass u) /\
  repHostPort m (this + 6) lo hi (uHost u) /\
  repUParams m lo hi (g16 m (this + 12)) (uParams u) /\
  repUParams m lo hi (g16 m (this + 14)) (uHeaders u) /\
  repTable repUParam 6 6 m lo hi (g16 m (this + 16)) (uKnown u).
