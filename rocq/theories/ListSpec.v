(** What a linked list is, and what the list operations should do; independent of the loops of HeaderList.v. *)
From Verif Require Import Base StrSpec HeaderTree RawHeaders.

(** The nodes reached from [p] by following next, in order, each with its address: the chain ends in NIL (0). *)
Inductive chain {A : Type} (h : N -> option (A * N)) : N -> list (N * A) -> Prop :=
  | chain_nil : chain h 0 []
  | chain_cons p a q l : p <> 0 -> h p = Some (a, q) -> chain h q l -> chain h p ((p, a) :: l).

(** A header that RemoveContentHeaders is to remove: one of the Content-* headers the library knows (Content-Length, Content-Type and Content-Disposition are kept
    elsewhere), or one that it does not know, whose name starts with Content-. *)
Definition contentIds : list N :=
  [SIP_HDR_CONTENT_ENCODING; SIP_HDR_CONTENT_TRANSFER_ENCODING; SIP_HDR_CONTENT_ID; SIP_HDR_CONTENT_DESCRIPTION; SIP_HDR_CONTENT_LANGUAGE].
Definition isContent (x : raw) : Prop :=
  In (rId x) contentIds \/
  rId x = SIP_HDR_UNKNOWN /\ exists name a b, rName x = Some name /\ name = a ++ b /\ sameNoCase a (s2b "Content-").
(** [l'] is [l] without the elements that satisfy [P], the others in the same order. *)
Inductive without {B : Type} (P : B -> Prop) : list B -> list B -> Prop :=
  | without_nil : without P [] []
  | without_drop x l l' : P x -> without P l l' -> without P (x :: l) l'
  | without_keep x l l' : ~ P x -> without P l l' -> without P (x :: l) (x :: l').
(** A header that RemoveContentHeaders is to keep stands between another such header and a header it is to remove. *)
Definition sandwiched (l : list (N * raw)) : Prop :=
  exists l1 y l2 z l3 c l4, l = l1 ++ y :: l2 ++ z :: l3 ++ c :: l4 /\ ~ isContent (snd y) /\ ~ isContent (snd z) /\ isContent (snd c).
