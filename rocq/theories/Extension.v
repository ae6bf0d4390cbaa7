(** What can only be told apart by the top bit of a word: AbnfPtr.go:23-29 (AbnfPtr.IsAbnfPtr) takes a 16-bit word below 32768 for an address and any other for a
    number. Three types have such a word: SipMethod.go:26-28 (type SipMethod), SipVersion.go:12-14 (type SipVersion) and the sentProtocol of SipHeaderVia.go:55-62
    (type SipHeaderVia). The word is an address exactly when the method is not registered, the version not 2.0, the protocol not SIP/2.0. Value layer. *)
From Verif Require Import Base Charset Num Lws Str Monad MethodTree Lookup Host Uri Tel GenParam Addr StartLine Headers Msg.

(** SipMethod.go:65-79 (SipMethod.Parse): the method is not registered. *)
Definition extMethod (m : method) : bool := match m with MKnown _ => false | MOther _ => true end.
(** SipVersion.go:59-101 (SipVersion.ParseAfterStart): the version is not 2.0. *)
Definition extVersion (v : version) : bool := match v with V20 => false | VOther _ => true end.
(** SipStartLine.go:8-15 (type SipStartLine). *)
Definition extLine (l : startline) : bool := match l with SRequest m _ v => extMethod m || extVersion v | SStatus v _ _ => extVersion v end.
(** SipHeaderVia.go:55-62 (type SipHeaderVia): the protocol is not SIP/2.0. *)
Definition extProto (p : sentproto) : bool := match p with Proto20 => false | ProtoOther _ _ => true end.
(** The Via, the CSeq and the RAck header. *)
Definition extHVal (v : hval) : bool := match v with VVia p _ _ _ _ => extProto p | VCSeq _ m => extMethod m | VRAck _ _ m => extMethod m | _ => false end.
(** A message: its start line and its structured headers. *)
Definition extMsg (x : msg) : bool := extLine (mStart x) || existsb (existsb extHVal) (hsCommon (mHdrs x)).

Lemma extMsg_start x (P : Prop) : (extMsg x = true -> P) -> extLine (mStart x) = true -> P.
Proof. unfold extMsg. intros H E. apply H. now rewrite E. Qed.
Lemma extMsg_hdr x (P : Prop) s v : (extMsg x = true -> P) -> In v (nth s (hsCommon (mHdrs x)) []) -> extHVal v = true -> P.
Proof.
  unfold extMsg. intros H Hin E. apply H. apply orb_true_iff. right. apply existsb_exists. exists (nth s (hsCommon (mHdrs x)) []). split.
  - destruct (nth_in_or_default s (hsCommon (mHdrs x)) []) as [G|G]; [exact G|rewrite G in Hin; destruct Hin].
  - apply existsb_exists. exists v. auto.
Qed.
