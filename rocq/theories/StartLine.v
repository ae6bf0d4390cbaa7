(** SipMethod.go, SipVersion.go, SipStartLine.go. Value layer. *)
From Verif Require Import Base Charset Num Lws Str Monad MethodTree Lookup Host Uri Tel GenParam Addr.

(** AbnfBasic.go ParseUInt32, ParseUInt16, ParseUInt8 on the context position: the 64-bit value converted to the smaller type (see Num.v). *)
Definition pUIntW (w : N) : P N := v <- pUInt ;; ret (v mod w).
(** [if parsePos >= len { fail }; if src[parsePos] != c { fail }; parsePos++]. *)
Definition expect (c : N) : P unit := onRest (fun r => match r with
  | x :: r1 => if x =? c then goto r1 else pfail
  | [] => pfail
  end).

(** SipMethod.go:25-29 (type SipMethod): an index of the name table, or the name (the two are told apart by the top bit of the 16-bit word, which needs
    an arena of at most 32 KiB: see DESIGN.md). *)
Inductive method := MKnown (i : N) | MOther (t : bytes).
(** SipMethod.go:8-23 (g_sipMethodName). *)
Definition methodTable : list bytes :=
  [s2b "UKNOWN"; s2b "INVITE"; s2b "PRACK"; s2b "UPDATE"; s2b "INFO"; s2b "ACK"; s2b "BYE"; s2b "REGISTER"; s2b "SUBSCRIBE"; s2b "NOTIFY"; s2b "REFER";
   s2b "OPTIONS"; s2b "MESSAGE"; s2b "PUBLISH"].
(** SipMethod.go:65-79 (SipMethod.Parse). *)
Definition parseMethod : P method := onRest (fun r => match GetSipMethodIndex r with
  | None => panic
  | Some (i, mid) => if i =? SIP_METHOD_UNKNOWN then t <- paCStringFromPos mid SIP_TOKEN ;; ret (MOther t) else goto mid ;;; ret (MKnown i)
  end).
(** SipMethod.go:51-57 (SipMethod.Encode). *)
Definition encMethod (m : method) : bytes := match m with MKnown i => nth (N.to_nat i) methodTable [] | MOther t => t end.

(** SipVersion.go:12-14 (type SipVersion): the constant SIP_VERSION_2_0, or the text after "SIP/". *)
Inductive version := V20 | VOther (t : bytes).
(** SipVersion.go:103-118 (SipVersion.ParseStart): the rest after the start. *)
Definition versionStart (r : bytes) : option bytes :=
  match r with
  | a :: b :: c :: d :: ((_ :: _ :: _ :: _) as r4) => if lc a 115 && lc b 105 && lc c 112 && (d =? 47) then Some r4 else None
  | _ => None
  end.
(** The part of SipVersion.go:59-101 (SipVersion.ParseAfterStart) after the test for "2.0". *)
Definition versionDigits (r : bytes) : P version :=
  let '(major, r1) := span (inset DIGIT) r in
  match major with
  | [] => pfail
  | _ => match r1 with
         | [] => panic
         | x :: mid =>
             if negb (x =? 46) then goto r1 ;;; pfail
             else t <- paCStringFromPos mid DIGIT ;;
                  onRest (fun r2 => if Nat.leb (List.length mid) (List.length r2) then pfail else ret (VOther t))
         end
  end.
(** SipVersion.go:59-101 (SipVersion.ParseAfterStart): the index expressions are evaluated from left to right. *)
Definition parseVersionAfter : P version := onRest (fun r => match r with
  | [] => panic
  | a :: r1 => if a =? 50 then
      match r1 with
      | [] => panic
      | b :: r2 => if b =? 46 then
          match r2 with
          | [] => panic
          | c :: r3 => if c =? 48 then
              match r3 with
              | [] => goto r3 ;;; ret V20
              | d :: _ => if negb (IsDigit d) then goto r3 ;;; ret V20 else versionDigits r
              end else versionDigits r
          end else versionDigits r
      end else versionDigits r
  end).
(** SipVersion.go:49-57 (SipVersion.Parse). *)
Definition parseVersion : P version := onRest (fun r => match versionStart r with Some r4 => goto r4 ;;; parseVersionAfter | None => pfail end).
(** SipVersion.go:36-43 (SipVersion.Encode). *)
Definition encVersion (v : version) : bytes := match v with V20 => s2b "SIP/2.0" | VOther t => s2b "SIP/" ++ t end.

(** SipStartLine.go:8-15 (type SipStartLine). *)
Inductive startline := SRequest (m : method) (a : addr) (v : version) | SStatus (v : version) (code : N) (reason : bytes).
(** SipStartLine.go:96-146 (SipStartLine.ParseRequestLine). *)
Definition parseRequestLine : P startline :=
  m <- parseMethod ;; expect 32 ;;; (a <- parseAddrSpec ;; expect 32 ;;; (v <- parseVersion ;; pCRLF ;;; ret (SRequest m a v))).
(** SipStartLine.go:163-215 (SipStartLine.ParseStatusLineAfterVersionStart). *)
Definition parseStatusLine : P startline :=
  v <- parseVersionAfter ;; expect 32 ;;; (c <- pUIntW 65536 ;; expect 32 ;;; (t <- paEscapableEmpty SIP_REASON_PHRASE ;; pCRLF ;;; ret (SStatus v c t))).
(** SipStartLine.go:82-88 (SipStartLine.ParseWithoutInit). *)
Definition parseStartLine : P startline := onRest (fun r => match versionStart r with Some r4 => goto r4 ;;; parseStatusLine | None => parseRequestLine end).
(** SipStartLine.go:48-54 (SipStartLine.EncodeRequestLine), SipStartLine.go:56-66 (SipStartLine.EncodeStatusLine), SipStartLine.go:37-46 (SipStartLine.Encode). *)
Definition encStartLine (e : env) (l : startline) : bytes :=
  match l with
  | SRequest m a v => encMethod m ++ 32 :: encAddrSpec e a ++ 32 :: encVersion v
  | SStatus v c t => encVersion v ++ 32 :: encUInt c ++ 32 :: (if eReasonNoEscape e then t else escape SIP_REASON_PHRASE t)
  end ++ CRLF.
