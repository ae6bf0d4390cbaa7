(** SipHostPort.go: host and port. Value layer. *)
From Verif Require Import Base Charset Num Lws Str Monad.

(** SipHostPort.go:16-21 (type SipHostPort): [id] and [data] (the 4 or 16 bytes or the string the pointer denotes). *)
Inductive host := HUnknown | HIpv4 (a b c d : N) | HIpv6 (ip : bytes) | HName (n : bytes).
Record hostport := mkhp { hpHost : host; hpPort : option N }.

(** One component of parseIpv4: ParseUInt, at most 0xff. *)
Definition octet (r : bytes) : option (N * bytes) :=
  match ParseUInt r with Some (v, _, r') => if 255 <? v then None else Some (v, r') | None => None end.
(** SipHostPort.go:229-277 (SipHostPort.parseIpv4): failure is reported without a value (the caller restores the position). *)
Definition dotOctet (r : bytes) : option (N * bytes) :=
  match r with x :: r' => if x =? 46 then octet r' else None | [] => None end.
Definition parseIpv4 (r : bytes) : option (N * N * N * N * bytes) :=
  match octet r with None => None | Some (a, r1) =>
  match dotOctet r1 with None => None | Some (b, r2) =>
  match dotOctet r2 with None => None | Some (c, r3) =>
  match dotOctet r3 with None => None | Some (d, r4) =>
    match r4 with
    | x :: _ => if IsHostname x then None else Some (a, b, c, d, r4)
    | [] => Some (a, b, c, d, r4)
    end
  end end end end.

(** SipHostPort.go:200-227 (SipHostPort.parseIpv6): the position on a failure is that of "]" or the end. *)
Definition parseIpv6 : P host := onRest (fun r =>
  let '(txt, r1) := span (fun x => negb (x =? 93)) r in
  goto r1 ;;;
  match r1 with
  | [] => pfail
  | _ :: r2 => withEnv (fun e => match ipParse e txt with
      | None => pfail
      | Some ip => allocStruct 16 ;;; goto r2 ;;; ret (HIpv6 ip)
      end)
  end).
(** SipHostPort.go:279-313 (SipHostPort.parseHostname). *)
Definition parseHostname : P host := n <- paCString HOSTNAME ;; ret (HName n).
(** SipHostPort.go:168-198 (SipHostPort.ParseHost). *)
Definition parseHost : P host := onRest (fun r => match r with
  | [] => pfail
  | x :: r1 =>
      if x =? 91 then goto r1 ;;; parseIpv6
      else if IsAlpha x then parseHostname
      else match parseIpv4 r with
           | None => parseHostname
           | Some (a, b, c, d, r2) => goto r2 ;;; allocStruct 4 ;;; ret (HIpv4 a b c d)
           end
  end).
(** SipHostPort.go:133-166 (SipHostPort.ParseWithoutInit). *)
Definition parseHostPort : P hostport :=
  h <- parseHost ;;
  onRest (fun r => match r with
    | x :: r1 => if x =? 58 then goto r1 ;;; (n <- pUInt ;; if 65535 <? n then pfail else ret (mkhp h (Some n)))
                 else ret (mkhp h None)
    | [] => ret (mkhp h None)
    end).

(** SipHostPort.go:63-90 (SipHostPort.EncodeHost) and SipHostPort.go:92-102 (SipHostPort.WriteIpv4AsString). *)
Definition encHost (e : env) (h : host) : bytes :=
  match h with
  | HIpv4 a b c d => WriteByteAsString a ++ [46] ++ WriteByteAsString b ++ [46] ++ WriteByteAsString c ++ [46] ++ WriteByteAsString d
  | HIpv6 ip => [91] ++ ipString e ip ++ [93]
  | HName n => n
  | HUnknown => s2b "unknown host"
  end.
(** SipHostPort.go:55-61 (SipHostPort.Encode). *)
Definition encHostPort (e : env) (h : hostport) : bytes :=
  encHost e (hpHost h) ++ match hpPort h with Some p => 58 :: encUInt p | None => [] end.
