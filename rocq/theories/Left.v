(** What SipMsg.Parse has stored in the message when it fails. *)
From Verif Require Import Base Charset Num Lws Str Monad MethodTree HeaderTree Lookup Host Uri Tel GenParam Addr StartLine Headers RawHeaders Msg.

(** The state of a Go [for] loop in the round that fails, as [atFail] sees it. *)
Fixpoint leftIter {A B C} (fuel : nat) (body : A -> P (A + B)) (atFail : A -> env -> st -> C) (x : A) (e : env) (s : st) : C :=
  match fuel with
  | O => atFail x e s
  | S f => match body x e s with Ok (inl x') s' => leftIter f body atFail x' e s' | _ => atFail x e s end
  end.
Definition leftLoop {A B C} (body : A -> P (A + B)) (atFail : A -> env -> st -> C) (x : A) (e : env) (s : st) : C :=
  leftIter (S (List.length (rest s))) body atFail x e s.

(** SipVersion.go:59-101 (SipVersion.ParseAfterStart): the field [version] afterwards. What is stored is assigned before the test that there is a digit behind the dot. *)
Definition leftDigits (e : env) (s : st) : version :=
  match span (inset DIGIT) (rest s) with
  | (_ :: _, x :: mid) => if x =? 46 then match paCStringFromPos mid DIGIT e s with Ok t _ => VOther t | _ => VOther [] end else VOther []
  | _ => VOther []
  end.
Definition leftVersion (e : env) (s : st) : version := match parseVersionAfter e s with Ok v _ => v | _ => leftDigits e s end.
(** SipStartLine.go:163-215 (SipStartLine.ParseStatusLineAfterVersionStart) when it fails, behind "SIP/": a field not reached is 0. *)
Definition leftStatusLine (e : env) (s : st) : startline :=
  let v := leftVersion e s in
  match parseVersionAfter e s with
  | Ok _ s1 =>
      match (expect 32 ;;; pUIntW 65536) e s1 with
      | Ok c s2 => SStatus v c (match (expect 32 ;;; paEscapableEmpty SIP_REASON_PHRASE) e s2 with Ok t _ => t | _ => [] end)
      | _ => SStatus v 0 []
      end
  | _ => SStatus v 0 []
  end.
(** SipStartLine.go:82-88 (SipStartLine.ParseWithoutInit) when it fails: isRequest is only set at the end of SipStartLine.go:96-146 (SipStartLine.ParseRequestLine), so what is left always
    looks like a status line. *)
Definition leftLine (e : env) (s : st) : startline :=
  match versionStart (rest s) with
  | None =>
      SStatus (match (parseMethod ;;; expect 32 ;;; (parseAddrSpec ;;; expect 32)) e s with
               | Ok _ s1 => match versionStart (rest s1) with Some r => leftVersion e (mkst r (used s1)) | None => VOther [] end
               | _ => VOther []
               end) 0 []
  | Some r => leftStatusLine e (mkst r (used s))
  end.

(** SipHeaders.go:198-259 (parseKnownHeader): a value of a header that may have several is set before what follows it is looked at; the value of another one is set at the end. *)
Definition leftOne (o : owner) (h : hset) (i : N) (e : env) (s : st) : hset :=
  match needParse o e i with
  | Some (k, true) =>
      match parseSipX k e s with
      | Ok v s1 => leftLoop (multiBody k (setCommon o i true)) (fun hv _ _ => setCommon o i true (fst hv) (snd hv)) (h, v) e s1
      | _ => h
      end
  | _ => h
  end.
(** SipHeaders.go:51-82 (ParseHeaders). *)
Definition leftHeaders (o : owner) : env -> st -> hset :=
  leftLoop (headersBody (oneHeader o)) (fun h e s => match parseHeaderName e s with Ok ni s1 => leftOne o h (snd ni) e s1 | _ => h end) (emptyHdrs o).
(** SipMsg.go:652-724 (SipMsg.ParseMultiBody): a part is linked in when it is complete. *)
Definition leftParts (b : bytes) (e : env) (s : st) : list body :=
  match stripPrefix (45 :: 45 :: b) (rest s) with
  | None => []
  | Some r => leftLoop (multipartBody (13 :: 10 :: 45 :: 45 :: b)) (fun bs _ _ => bs) [] e (mkst r (used s))
  end.
(** SipMsg.go:441-463 (SipMsg.ParseMsgBody). *)
Definition leftBodies (h : hset) (e : env) (s : st) : list body :=
  match contentTypeOf h with
  | Some (VType m sb t ps) =>
      if equalNoCase m (s2b "multipart")
      then match boundaryParam (VType m sb t ps) with
           | None => []
           | Some p => leftParts (match gvalueText (gpValue p) with Some b => b | None => [] end) e s
           end
      else []
  | _ => []
  end.
(** SipMsg.go:411-439 (SipMsg.Parse). *)
Definition leftMsg (e : env) (s : st) : msg :=
  match parseStartLine e s with
  | Ok l s1 =>
      match rest s1 with
      | [] => mkmsg l (emptyHdrs OMsg) []
      | _ => match parseHeaders OMsg e s1 with
             | Ok h s2 => mkmsg l h (leftBodies h e s2)
             | _ => mkmsg l (leftHeaders OMsg e s1) []
             end
      end
  | _ => mkmsg (leftLine e s) (emptyHdrs OMsg) []
  end.
