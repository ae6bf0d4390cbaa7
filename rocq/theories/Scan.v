(** SipMsg.go: searching header text without parsing the message. Slicing is modelled on a slice whose capacity is its length (a longer capacity turns some of the panics
    below into reads behind the input). chars.ToLower and chars.EqualNoCase are external: ASCII lower case, and equality up to it. *)
From Verif Require Import Base Charset Num Lws Str Monad GenParam.

(** chars.EqualNoCase (external). *)
Definition eqNoCase (a b : bytes) : bool := beq (map toLower a) (map toLower b).

(** The loops of SipMsg.go:747-783 (ByteSliceIndexNoCase) after the first byte [c] of the text to be found, whose other bytes are [f]: the input before the
    occurrence and from it on. The outer loop tests the remaining length only after a byte equal to [c]. *)
Fixpoint indexLoop (c : N) (f : bytes) (r : bytes) : option (bytes * bytes) :=
  match r with
  | [] => None
  | x :: r1 =>
      if toLower x =? toLower c then
        if Nat.leb (List.length r1) (List.length f) then None
        else if eqNoCase (firstn (List.length f) r1) f then Some ([], r)
        else match indexLoop c f r1 with Some (a, t) => Some (x :: a, t) | None => None end
      else match indexLoop c f r1 with Some (a, t) => Some (x :: a, t) | None => None end
  end.
(** SipMsg.go:747-783 (ByteSliceIndexNoCase): [r] is src[pos:]; the position found is the length of the first component behind pos. *)
Definition ByteSliceIndexNoCase (r find : bytes) : option (bytes * bytes) :=
  match find with [] => None | c :: f => indexLoop c f r end.

(** What a scan leaves: the text written to buf, firstTime and [num > 0]; [None] is a panic. *)
Record scan := mkscan { scBuf : bytes; scFirst : bool; scFound : bool }.
(** One round of the second loop of SipMsg.go:785-877 (FindSipHeader1): [needle] is header_with_newline, [skip] is len2 + 1. The innermost loop ends in its first round, because the
    byte that it tests for a blank is the line feed just found. *)
Definition scanRound (needle : bytes) (skip : nat) (s : scan) (r : bytes) : option (scan * option bytes) :=
  match ByteSliceIndexNoCase r needle with
  | None => Some (s, None)
  | Some (_, t) =>
      if negb (scFirst s) && Nat.ltb (List.length t) skip then None else
      let b := if scFirst s then tl t else skipWsp (skipn skip t) in
      match cutAfter 10 b with
      | None => None
      | Some (line, r1) =>
          if Nat.ltb (List.length line) 2 then None
          else Some (mkscan (scBuf s ++ (if scFound s then s2b ", " else []) ++ firstn (List.length line - 2) line) false true, Some r1)
      end
  end.
(** The second loop of SipMsg.go:785-877 (FindSipHeader1). Each round consumes input, so the fuel in [scanName] is enough. *)
Fixpoint scanLoop (fuel : nat) (needle : bytes) (skip : nat) (s : scan) (r : bytes) : option scan :=
  match fuel with
  | O => Some s
  | S f => match scanRound needle skip s r with
           | None => None
           | Some (s', None) => Some s'
           | Some (s', Some r1) => scanLoop f needle skip s' r1
           end
  end.
Definition scanName (name : bytes) (skip : nat) (s : scan) (r : bytes) : option scan := scanLoop (S (List.length r)) (10 :: name) skip s r.
(** The short names of SipMsg.go:785-877 (FindSipHeader1). *)
Definition shortNames : list (bytes * bytes) :=
  [(s2b "Call-ID:", s2b "i:"); (s2b "Contact:", s2b "m:"); (s2b "Content-Encoding:", s2b "e:"); (s2b "Content-Length:", s2b "l:"); (s2b "Content-Type:", s2b "c:"); (s2b "From:", s2b "f:");
   (s2b "To:", s2b "t:"); (s2b "Via:", s2b "v:")].
Fixpoint shortOf (l : list (bytes * bytes)) (name : bytes) : option bytes :=
  match l with [] => None | (n, s) :: l' => if eqNoCase name n then Some s else shortOf l' name end.
(** SipMsg.go:785-877 (FindSipHeader1): the text appended to buf and the result; len2 is not updated for the short name. *)
Definition FindSipHeader1 (name r : bytes) : option (bytes * bool) :=
  match scanName name (S (List.length name)) (mkscan [] true false) r with
  | None => None
  | Some s =>
      if scFound s then Some (scBuf s, true)
      else match shortOf shortNames name with
           | None => Some (scBuf s, false)
           | Some n => match scanName n (S (List.length name)) s r with Some s' => Some (scBuf s', scFound s') | None => None end
           end
  end.

(** The loop of SipMsg.go:879-924 (FindSipHeader2): the input from the position returned on, and the result; [None] is a panic (a slice that ends
    behind the input). Each round consumes input, so the fuel below is enough. *)
Fixpoint find2Loop (fuel : nat) (name short : bytes) (r : bytes) : option (bytes * bool) :=
  match fuel with
  | O => Some (r, false)
  | S f =>
      match r with
      | [] => Some (r, false)
      | _ =>
          let next q := match cutAfter 10 q with None => Some (q, false) | Some (_, r1) => find2Loop f name short r1 end in
          let found q := match skipWsp q with
                         | [] => Some ([], false)
                         | x :: q1 => if x =? 58 then Some (ParseLWS_2 (x :: q1)) else next (x :: q1)
                         end in
          if Nat.ltb (List.length r) (List.length name) then None
          else if eqNoCase name (firstn (List.length name) r) then found (skipn (List.length name) r)
          else if Nat.ltb (List.length r) (List.length short) then None
          else if eqNoCase short (firstn (List.length short) r) then found (skipn (List.length short) r)
          else next r
      end
  end.
(** SipMsg.go:879-924 (FindSipHeader2): [r] is src[parsePos:]. *)
Definition FindSipHeader2 (name short r : bytes) : option (bytes * bool) := find2Loop (S (List.length r)) name short r.
