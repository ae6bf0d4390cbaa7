(** Syntax and semantics of the decision procedures that look up method and header names
    (SipMethodIndex.go, SipHeadersIndex.go: generated Go code of a small, regular shape). The
    function bodies themselves are data in MethodTree.v and HeaderTree.v. *)
From Verif Require Import Base Charset.

(** [TL c]: [(src[pos] | 0x20) == c]; [TX c]: [src[pos] == c]; [TAny] is used by the proofs only. *)
Inductive ctest := TL (c : N) | TX (c : N) | TAny.

Inductive block := Bnil | Bcons (s : stmt) (b : block)
with stmt :=
| Inc (k : nat)                          (* pos += k *)
| Ret (i : N)                            (* return i, pos *)
| IfEnd (k : nat) (i : N)                (* if (pos + k) >= len1 { return i, pos } *)
| IfTerm (i : N)                         (* if (pos >= len1) || !IsSipToken(src[pos]) { return i, pos } *)
| IfNext (t : ctest) (b : block)         (* if (pos < len1) && t(src[pos]) { b } *)
| IfAll (ts : list ctest) (b : block)    (* if t0(src[pos]) && t1(src[pos+1]) && ... { b } *)
| Switch (low : bool) (cs : cases)       (* switch src[pos] (| 0x20 if low) { cs }, no default *)
with cases := Cnil | Case (c : N) (b : block) (cs : cases).

Notation "s >> b" := (Bcons s b) (at level 62, right associativity, only parsing).

Definition tmatch (t : ctest) (x : N) : bool :=
  match t with TL c => N.lor x 32 =? c | TX c => x =? c | TAny => true end.

(** Outcome of running a block: a return, falling through with the current position, or an
    out-of-range index. *)
Inductive iout := IRet (i : N) (r : bytes) | INext (r : bytes) | IPanic.

(** The condition of [IfAll]: short-circuit [&&] over [src[pos], src[pos+1], ...]; [None] = index panic. *)
Fixpoint matchAll (ts : list ctest) (r : bytes) : option bool :=
  match ts with
  | [] => Some true
  | t :: ts' => match r with
                | [] => None
                | x :: r' => if tmatch t x then matchAll ts' r' else Some false
                end
  end.

Fixpoint execB (b : block) (r : bytes) {struct b} : iout :=
  match b with
  | Bnil => INext r
  | Bcons s b' => match execS s r with INext r' => execB b' r' | o => o end
  end
with execS (s : stmt) (r : bytes) {struct s} : iout :=
  match s with
  | Inc k => INext (skipn k r)
  | Ret i => IRet i r
  | IfEnd k i => if Nat.leb (List.length r) k then IRet i r else INext r
  | IfTerm i => match r with
                | [] => IRet i r
                | x :: _ => if negb (IsSipToken x) then IRet i r else INext r
                end
  | IfNext t b => match r with
                  | [] => INext r
                  | x :: _ => if tmatch t x then execB b r else INext r
                  end
  | IfAll ts b => match matchAll ts r with
                  | None => IPanic
                  | Some true => execB b r
                  | Some false => INext r
                  end
  | Switch low cs => match r with
                     | [] => IPanic
                     | x :: _ => execC cs (if low then N.lor x 32 else x) r
                     end
  end
with execC (cs : cases) (v : N) (r : bytes) {struct cs} : iout :=
  match cs with
  | Cnil => INext r
  | Case c b cs' => if v =? c then execB b r else execC cs' v r
  end.

(** Running a whole function body: the final [return UNKNOWN] is part of the body, so falling
    off its end does not happen (it would be a compile error in Go); it is mapped to index 0. *)
Definition runTree (b : block) (r : bytes) : option (N * bytes) :=
  match execB b r with
  | IRet i r' => Some (i, r')
  | INext r' => Some (0, r')
  | IPanic => None
  end.
