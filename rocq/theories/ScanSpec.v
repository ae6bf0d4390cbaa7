(** What searching for text and for header lines means; independent of the loops of Scan.v. *)
From Verif Require Import Base StrSpec LwsSpec.

(** [t] starts with [find], up to the case of letters. *)
Definition startsNoCase (find t : bytes) : Prop := exists m b, t = m ++ b /\ sameNoCase m find.
Definition occurs (find r : bytes) : Prop := exists a t, r = a ++ t /\ startsNoCase find t.
(** The first occurrence of [find] in [r] stands after [a]; [t] is the input from there on. *)
Definition firstAt (find r a t : bytes) : Prop :=
  r = a ++ t /\ startsNoCase find t /\ forall a1 t1, r = a1 ++ t1 -> (List.length a1 < List.length a)%nat -> ~ startsNoCase find t1.

(** The header lines (name as written, value) with the name [name] in [r], each a complete line that ends in CRLF and starts after a line feed that does not belong to the line
    before it in the list. *)
Inductive headerLines (name : bytes) : bytes -> list (bytes * bytes) -> Prop :=
  | hl_none r : ~ occurs (10 :: name) r -> headerLines name r []
  | hl_line a n v b l : firstAt (10 :: name) (a ++ 10 :: n ++ v ++ 13 :: 10 :: b) a (10 :: n ++ v ++ 13 :: 10 :: b) -> sameNoCase n name -> ~ In 10 v ->
      headerLines name b l -> headerLines name (a ++ 10 :: n ++ v ++ 13 :: 10 :: b) ((n, v) :: l).
(** [v] without its leading blanks is [w]. *)
Definition trimmed (v w : bytes) : Prop := exists u, v = u ++ w /\ Forall wsp u /\ ~ startsWsp w.

(** [t] is the rest of the input [r] from the start of some line on. *)
Definition lineStart (r t : bytes) : Prop := exists a, r = a ++ t /\ (a = [] \/ exists a', a = a' ++ [10]).
(** The line starts with the header [name]; [c] is the input from its colon on. *)
Definition headerAt (name t c : bytes) : Prop := exists n w, t = n ++ w ++ c /\ sameNoCase n name /\ Forall wsp w /\ exists c', c = 58 :: c'.
(** A header name: no line feed, blank or colon. *)
Definition plainName (n : bytes) : Prop := forall x, In x n -> x <> 10 /\ x <> 58 /\ ~ wsp x.
(** RFC 3261 7.3.3: the compact forms of the header names of RFC 3261, with their colons. *)
Definition compactForms : list (bytes * bytes) :=
  [(s2b "Call-ID:", s2b "i:"); (s2b "Contact:", s2b "m:"); (s2b "Content-Encoding:", s2b "e:"); (s2b "Content-Length:", s2b "l:"); (s2b "Content-Type:", s2b "c:"); (s2b "From:", s2b "f:");
   (s2b "Subject:", s2b "s:"); (s2b "Supported:", s2b "k:"); (s2b "To:", s2b "t:"); (s2b "Via:", s2b "v:")].
