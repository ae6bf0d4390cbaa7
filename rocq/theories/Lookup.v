(** The two name lookup functions. *)
From Verif Require Import Base IndexTree MethodTree HeaderTree.

(** SipMethodIndex.go:22-247, SipHeadersIndex.go: results are the index and the suffix at the returned position;
    [None] is an index-out-of-range panic. *)
Definition GetSipMethodIndex (r : bytes) : option (N * bytes) := runTree methodTree r.
Definition GetSipHeaderIndex (r : bytes) : option (N * bytes) := runTree headerTree r.

