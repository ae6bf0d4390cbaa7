(** The tables of header descriptions of the contexts (AbnfContext.go, SipHeadersInfo.go): arrays of pointers, so that two contexts can share descriptions. *)
From Verif Require Import Base MethodTree HeaderTree RawHeaders Monad Msg.

(** A description (SipHeadersInfo.go:10-22) on the heap; only NeedParse is ever written, the other fields are fixed by the position in the table. *)
Definition heap := list bool.
(** SipHeadersInfo.go:38 (type SipHeaderInfos): for each header type, a pointer to the description, or nil. *)
Definition table := list (option nat).
Record world := mkworld { wHeap : heap; wGlobal : table; wCtxs : list table }.
(** SipHeadersInfo.go:24-36 (SipHeaderInfo.Clone), the part that concerns NeedParse: a new description with the same content. SipHeadersInfo.go:40-47 (SipHeaderInfos.Clone): every
    description is cloned, nil stays nil. The names, which Clone copies too, are not modelled. *)
Fixpoint cloneTable (h : heap) (t : table) : table * heap :=
  match t with
  | [] => ([], h)
  | None :: t' => let (u, h') := cloneTable h t' in (None :: u, h')
  | Some p :: t' => let (u, h') := cloneTable (h ++ [nth p h false]) t' in (Some (List.length h) :: u, h')
  end.
Inductive op :=
| NewCtx                                    (* c := NewContext(); contexts are numbered in the order in which they are made *)
| SetNeed (c i : nat) (b : bool)            (* c.SipHeaders[i].NeedParse = b *)
| CloneFrom (c d : nat)                     (* c.SipHeaders = d.SipHeaders.Clone() *)
| CopyFrom (c d : nat).                     (* c.SipHeaders = d.SipHeaders *)
(** One step of the program; [None]: it crashes (there is no such context, no such entry, or the entry is nil). AbnfContext.go:40-46 (NewContext): the table of the new context
    is a copy of the array of pointers of the package. *)
Definition step (w : world) (o : op) : option world :=
  match o with
  | NewCtx => Some (mkworld (wHeap w) (wGlobal w) (wCtxs w ++ [wGlobal w]))
  | SetNeed c i b =>
      match nth_error (wCtxs w) c with
      | Some t => match nth_error t i with Some (Some p) => Some (mkworld (setNth (wHeap w) p b) (wGlobal w) (wCtxs w)) | _ => None end
      | None => None
      end
  | CloneFrom c d =>
      match nth_error (wCtxs w) c, nth_error (wCtxs w) d with
      | Some _, Some t => let (u, h) := cloneTable (wHeap w) t in Some (mkworld h (wGlobal w) (setNth (wCtxs w) c u))
      | _, _ => None
      end
  | CopyFrom c d =>
      match nth_error (wCtxs w) c, nth_error (wCtxs w) d with
      | Some _, Some t => Some (mkworld (wHeap w) (wGlobal w) (setNth (wCtxs w) c t))
      | _, _ => None
      end
  end.
Fixpoint run (w : world) (os : list op) : option world :=
  match os with
  | [] => Some w
  | o :: os' => match step w o with Some w' => run w' os' | None => None end
  end.
(** What a parse with context [c] finds: the setting of header [i] ([None]: nil). *)
Definition needAt (w : world) (c i : nat) : option bool :=
  match nth_error (wCtxs w) c with
  | Some t => match nth_error t i with Some (Some p) => nth_error (wHeap w) p | _ => None end
  | None => None
  end.
(** SipHeadersInfo.go:48-84 (g_SipHeaderInfos): NeedParse is set for the headers that have a ParseFunc. The descriptions are put on the heap in the order of the header types. *)
Fixpoint initTable (n : nat) (i : N) (h : heap) : table * heap :=
  match n with
  | O => ([], h)
  | S n' =>
      match infoOf i with
      | Some x => let (t, h') := initTable n' (i + 1) (h ++ [match hiKind x with Some _ => true | None => false end]) in (Some (List.length h) :: t, h')
      | None => let (t, h') := initTable n' (i + 1) h in (None :: t, h')
      end
  end.
(** SipHeadersIndex.go:126 (SIP_HDR_MAX_NUM): the number of header types. *)
Definition headerTypes : nat := 120.
Definition start : world := let (t, h) := initTable headerTypes 0 [] in mkworld h t [].

(** parseKnownHeader (SipHeaders.go:198-259) without the parsing: which kind of object is made, and SetHeaders (SipMsg.go:133-159, SipMsgBody.go:61-85) without the lists:
    where the reference to it is put. [flag] is the NeedParse of the description. *)
Inductive object := Structured | AsWritten.
Inductive place := InSlot | InList.
(** SipMsg.go:121-131 (SipMsg.NeedParse), SipMsgBody.go:53-59 (SipMsgBody.NeedParse). *)
Definition setterNeeds (o : owner) (rawMode flag : bool) (i : N) : bool :=
  if rawMode then contentHdr i
  else match o with OMsg => negb (Nat.eqb (slotOf OMsg i) 0) && flag | OBody => negb (Nat.eqb (slotOf OBody i) 0) end.
Definition objectMade (o : owner) (rawMode flag : bool) (i : N) : object := if setterNeeds o rawMode flag i && flag then Structured else AsWritten.
Definition placePut (o : owner) (rawMode flag : bool) (i : N) : place := if setterNeeds o rawMode flag i then InSlot else InList.
