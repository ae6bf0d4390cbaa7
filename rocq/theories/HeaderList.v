(** Linked lists in the arena: the headers of a message, the raw header block, the values of a multi-valued header. Pointer layer: the value layer of RawHeaders.v and
    Msg.v has lists instead; P14_Lists.v shows that the pointer code does on the linked list what the value layer does on the list. *)
From Verif Require Import Base Charset Num Lws Str Monad MethodTree HeaderTree Lookup Host Uri Tel GenParam Addr StartLine Headers RawHeaders Msg.

(** AbnfPtr.go:21 (ABNF_PTR_NIL). *)
Definition NILP : N := 0.
(** The arena as the list code sees it: at an address, the fields of the node there and its next field; [None] is an address with no node. The bytes of a node are in Arena.v. *)
Definition heap (A : Type) : Type := N -> option (A * N).
(** Assignment to the next field. *)
Definition setNext {A} (h : heap A) (p q : N) : heap A :=
  fun x => if x =? p then match h p with Some (a, _) => Some (a, q) | None => None end else h x.
(** What a loop has done after some number of rounds: finished, read an address with no node, or still running. *)
Inductive run (R : Type) : Type := Done (r : R) | Crash | Running.
Arguments Done {R} _. Arguments Crash {R}. Arguments Running {R}.

(** SipHeaders.go:38-49 (appendUnknownSipHeader); the same loop, without the result, in SipHeaderVia.go:347-356 (AppendSipViaValue), SipHeaderContact.go:304-313
    (AppendSipContactValue), SipHeaderRoute.go:145-154 (AppendSipRouteValue), SipHeaderRecordRoute.go:153-162 (AppendSipRecordRouteValue), SipHeaderPath.go:144-153
    (AppendSipPathValue), SipHeaderServiceRoute.go:157-166 (AppendSipServiceRouteValue) and SipHeaderPAssertedIdentity.go:138-147 (AppendSipPAssertedIdentityValue). *)
Fixpoint appendList {A} (fuel : nat) (h : heap A) (addr new : N) : run (heap A * bool) :=
  match fuel with
  | O => Running
  | S f =>
      if addr =? NILP then Done (h, false) else
      match h addr with
      | None => Crash
      | Some (_, nx) => if nx =? NILP then Done (setNext h addr new, true) else appendList f h nx new
      end
  end.
(** The other headers of SipMsg.go:133-159 (SipMsg.SetHeaders) and SipMsgBody.go:61-85 (SipMsgBody.SetHeaders), and the values of a multi-valued header there: the first one is stored in the
    message, any other appended. *)
Definition setList {A} (fuel : nat) (s : heap A * N) (new : N) : run (heap A * N) :=
  if snd s =? NILP then Done (fst s, new)
  else match appendList fuel (fst s) (snd s) new with
       | Done (h, _) => Done (h, snd s)
       | Crash => Crash
       | Running => Running
       end.
(** The linking of the loop of SipHeaders.go:84-118 (ParseRawHeaders): the state is the heap, headers and prev. *)
Definition linkRaw {A} (s : heap A * N * option N) (new : N) : heap A * N * option N :=
  let '(h, hd, prev) := s in
  match prev with
  | Some p => (setNext h p new, hd, Some new)
  | None => (h, new, Some new)
  end.
(** SipHeaders.go:143-156 (FindKnownRawHeaderByIndex), and the second loop of SipMsg.go:293-309 (SipMsg.GetHeaderByIndex). *)
Fixpoint findList (fuel : nat) (h : heap raw) (addr : N) (i : N) : run (N * bool) :=
  match fuel with
  | O => Running
  | S f =>
      if addr =? NILP then Done (NILP, false) else
      match h addr with
      | None => Crash
      | Some (x, nx) => if rId x =? i then Done (addr, true) else findList f h nx i
      end
  end.
(** SipHeaders.go:120-141 (EncodeRawHeaders): the text written so far is the accumulator. *)
Fixpoint encodeList (fuel : nat) (h : heap raw) (addr : N) (buf : bytes) : run bytes :=
  match fuel with
  | O => Running
  | S f =>
      if addr =? NILP then Done buf else
      match h addr with
      | None => Crash
      | Some (x, nx) => encodeList f h nx (buf ++ encRaw x)
      end
  end.

(** AbnfPtr.go:66-75 (AbnfPtr.HasPrefixNoCase); chars.EqualNoCase is external: equality up to the case of ASCII letters. A NIL string is empty. *)
Definition hasPrefixNoCase (s : option bytes) (prefix : bytes) : bool :=
  let t := match s with Some t => t | None => [] end in
  if Nat.ltb (List.length t) (List.length prefix) then false
  else beq (map toLower (firstn (List.length prefix) t)) (map toLower prefix).
(** The test of SipMsg.go:312-343 (SipMsg.RemoveContentHeaders). *)
Definition contentTest (x : raw) : bool :=
  (rId x =? SIP_HDR_CONTENT_ENCODING) || (rId x =? SIP_HDR_CONTENT_TRANSFER_ENCODING) || (rId x =? SIP_HDR_CONTENT_ID) ||
  (rId x =? SIP_HDR_CONTENT_DESCRIPTION) || (rId x =? SIP_HDR_CONTENT_LANGUAGE) ||
  ((rId x =? SIP_HDR_UNKNOWN) && hasPrefixNoCase (rName x) (s2b "Content-")).
(** The loop of SipMsg.go:312-343 (SipMsg.RemoveContentHeaders): the state is the heap, this.headers, prevHeader and addr. *)
Fixpoint removeLoop (fuel : nat) (h : heap raw) (hd : N) (prev : option N) (addr : N) : run (heap raw * N) :=
  match fuel with
  | O => Running
  | S f =>
      if addr =? NILP then Done (h, hd) else
      match h addr with
      | None => Crash
      | Some (x, nx) =>
          if contentTest x then
            match prev with
            | None => removeLoop f h nx prev nx
            | Some p => removeLoop f (setNext h p nx) hd prev nx
            end
          else removeLoop f h hd (match prev with None => Some addr | Some p => Some p end) nx
      end
  end.
(** SipMsg.go:312-343 (SipMsg.RemoveContentHeaders): the commonHeaders array (here any type of entry, [nil] its NIL), the heap and this.headers. *)
Definition removeContentHeaders {V} (fuel : nat) (nil : V) (common : list V) (h : heap raw) (headers : N) : run (list V * heap raw * N) :=
  match removeLoop fuel h headers None headers with
  | Done (h', hd') => Done (setNth common (slotOf OMsg SIP_HDR_CONTENT_DISPOSITION) nil, h', hd')
  | Crash => Crash
  | Running => Running
  end.
(** SetHeaders for several headers one after the other. *)
Fixpoint setAll {A} (fuel : nat) (s : heap A * N) (new : list N) : run (heap A * N) :=
  match new with
  | [] => Done s
  | q :: new' => match setList fuel s q with Done s' => setAll fuel s' new' | Crash => Crash | Running => Running end
  end.
