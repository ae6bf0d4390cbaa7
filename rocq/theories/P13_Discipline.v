(** Properties C31 to C34: what holds for every parser of the library. *)
From Verif Require Import Base Charset CharsetSpec CharsetProofs BaseLemmas Num NumSpec NumProofs Lws LwsSpec LwsProofs Str StrSpec StrProofs Monad Good Rt Seq GoodAuto Inv
  IndexTree IndexProofs MethodTree HeaderTree Lookup NameSpec NameProofs Room Host HostSpec HostProofs Uri UriSpec UriGood UriProofs Tel TelSpec TelProofs GenParam GenParamSpec GenParamProofs Addr AddrSpec AddrProofs
  StartLine StartLineSpec StartLineProofs Headers HeadersSpec HeadersProofs RawHeaders RawSpec RawProofs Msg Thrift MsgSpec MsgProofs MsgRt MsgEnc Shift Nine NineParse P05_Uri.

(** The parsers: [parser A p] says that [p] is one of them. *)
Inductive parser : forall A, P A -> Prop :=
| PHost : parser _ parseHost
| PHostPort : parser _ parseHostPort
| PSipUri : parser _ parseSipUri
| PSipUriAfter sec : parser _ (parseUriAfterScheme sec)
| PSipUriNoParam sec : parser _ (parseUriAfterSchemeNoParam sec)
| PTelUri : parser _ parseTelUri
| PTelAfter : parser _ parseTelAfterScheme
| PTelNoParam : parser _ parseTelAfterSchemeNoParam
| PAddr ps : parser _ (parseAddr ps)
| PNameAddr : parser _ parseNameAddr
| PAddrSpec : parser _ parseAddrSpec
| PParams k : parser _ (parseParams k)
| PMethod : parser _ parseMethod
| PVersion : parser _ parseVersion
| PStartLine : parser _ parseStartLine
| PHeaderValue k : parser _ (parseHVal k)
| PSipHeader k : parser _ (parseSipX k)
| PHeader k : parser _ (parseHeader k)
| PHeaderName : parser _ parseHeaderName
| PRawHeaders : parser _ parseRawHeaders
| PHeaders o : parser _ (parseHeaders o)
| PMultipart b : parser _ (parseMultiBody b)
| PBody h : parser _ (parseMsgBody h)
| PMsg : parser _ parseMsg
| PRawScan : parser _ rawScan.
Lemma parser_good A (p : P A) e s : parser A p -> exists K C, goodEnd K C p e s.
Proof.
  intros H.
  destruct H; [exists 1, 16|exists 1, 16|exists 25, 58|exists 25, 58|exists 1, 22|exists 17, 19|exists 17, 19|exists 1, 3|exists 26, 162|exists 25, 82|exists 25, 79|exists 25, 24|exists 1, 3|exists 1, 3|exists 25, 85|exists 26, 186|exists 26, 204
    |exists 26, 186|exists 1, 3|exists 13, 12|exists 641, 411|exists 1068, 427|exists 1068, 427|exists 1068, 923|exists 0, 0];
  try apply gd_msg; try (apply gd_msgBody; lia); apply goodEnd_of; auto with good.
  all: first [apply gd_host|apply gd_hostport|apply gd_sipUri|apply gd_uriAfterScheme|apply gd_uriNoParam|apply gd_telUri|apply gd_telAfterScheme|apply gd_telNoParam|apply gd_addr|apply gd_nameAddr|apply gd_addrSpec|apply gd_params|apply gd_method|apply gd_version
    |apply gd_startLine|apply gd_hval|apply gd_sipX|apply gd_header|apply gd_headerName|apply gd_rawHeaders|apply gd_headers|apply gd_parseMulti|apply gd_rawScan]; lia.
Qed.
Lemma parser_nine A (p : P A) : parser A p -> exists D C, nine p D C /\ (D <= 56)%Z.
Proof.
  intros H. destruct H; do 2 eexists; (split; [first [apply n_host|apply n_hostPort|apply n_sipUri|apply n_uriAfter|apply n_uriAfterNo|apply n_telUri|apply n_telAfter|apply n_telAfterNo|apply n_addr|apply n_nameAddr|apply n_addrSpec|apply n_params|apply n_method|apply n_version
    |apply n_startLine|apply n_hval|apply n_sipX|apply n_header|apply n_headerName|apply n_rawHeaders|apply n_headers|apply n_parseMulti|apply n_msgBody|apply n_msg|apply n_rawScan]|lia]).
Qed.
Lemma parser_enough A (p : P A) : parser A p -> forall e s m, used s + 57 + 9 * len (rest s) <= m -> p (withMem (Some m) e) s = p (withMem None e) s.
Proof. intros H e s m Hm. destruct (parser_nine A p H) as (D & C & Hn & HD). exact (nine_enough p D C e s m Hn HD Hm). Qed.
Lemma parser_thrifty A (p : P A) : parser A p -> thrifty p.
Proof.
  intros H. destruct H; first [apply th_host|apply th_hostPort|apply th_sipUri|apply th_uriAfter|apply th_uriAfterNo|apply th_telUri|apply th_telAfter|apply th_telAfterNo|apply th_addr|apply th_nameAddr|apply th_addrSpec|apply th_params|apply th_method
    |apply th_version|apply th_startLine|apply th_hval|apply th_sipX|apply th_header|apply th_headerName|apply th_rawHeaders|apply th_headers|apply th_msgBody|apply th_msg|apply th_rawScan|idtac].
  unfold parseMultiBody. th. unfold multipartBody. th.
Qed.

(** ** C31 *)
(** In every arena, on every input: the position after the parse is inside the input and not before the position at the start, and no memory is given back. *)
Theorem C31_position : forall A (p : P A), parser A p -> forall e s,
  match p e s with
  | Ok _ s' | Fail s' => (exists consumed, rest s = consumed ++ rest s') /\ used s <= used s'
  | Panic | Loop => True
  end.
Proof. intros A p H e s. destruct (parser_good A p e s H) as (K & C & G0). pose proof (end_any _ _ _ _ _ G0 (memend e)) as G. rewrite withMem_self in G. destruct (p e s); auto. Qed.
Print Assumptions C31_position.
Example C31_case : parser msg parseMsg /\ exists m s', parseMsg (exNet (Some 500)) (mkst (s2b "SIP/2.0 200 OK" ++ CRLF ++ s2b "l: 3" ++ CRLF ++ CRLF ++ s2b "abc") 8) = Ok m s' /\ rest s' = s2b "abc".
Proof. split; [constructor|]. eexists. eexists. split; [vm_compute; reflexivity|reflexivity]. Qed.

(** ** C32 *)
(** A parse that does not end has a quoted string with a line break that is not CRLF, or an escaped carriage return, in the input. *)
Theorem C32_terminates : forall A (p : P A), parser A p -> forall e s, p e s = Loop ->
  exists before after, rest s = before ++ s2b """" ++ after /\
    ((exists x y, after = x ++ 10 :: y /\ ~ (exists x', x = x' ++ [13])) \/ (exists x y, after = x ++ 13 :: y /\ ~ (exists y', y = 10 :: y')) \/ (exists x y, after = x ++ s2b "\" ++ 13 :: y)).
Proof. intros A p H e s E. destruct (parser_good A p e s H) as (K & C & G0). pose proof (end_any _ _ _ _ _ G0 (memend e)) as G. rewrite withMem_self, E in G. destruct G as (a & b & Hr & Hb). exists a, b. split; [exact Hr|exact Hb]. Qed.
Print Assumptions C32_terminates.
(** Hence parsing an input without double quotes ends, and so does parsing an input in which every line break is CRLF and no carriage return is escaped. *)
Theorem C32_no_quote : forall A (p : P A), parser A p -> forall e s, ~ In 34 (rest s) -> p e s <> Loop.
Proof. intros A p H e s Hn E. apply (C32_terminates A p H) in E as (a & b & E & _). apply Hn. rewrite E. apply in_or_app. right. left. reflexivity. Qed.
Print Assumptions C32_no_quote.
Theorem C32_crlf_only : forall A (p : P A), parser A p -> forall e s,
  (forall x y, rest s = x ++ 10 :: y -> exists x', x = x' ++ [13]) -> (forall x y, rest s = x ++ 13 :: y -> (exists y', y = 10 :: y') /\ ~ (exists x', x = x' ++ [92])) -> p e s <> Loop.
Proof.
  intros A p H e s HL HC E. apply (C32_terminates A p H) in E as (a & b & E & [(x & y & -> & Hx)|[(x & y & -> & Hy)|(x & y & ->)]]).
  - destruct (HL (a ++ s2b """" ++ x) y) as [x' E']; [rewrite E, <- !app_assoc; reflexivity|]. destruct x as [|c x]; [change (s2b """" ++ []) with [34] in E'; apply app_inj_tail in E' as [_ E']; discriminate|].
    destruct (exists_last (l := c :: x) ltac:(discriminate)) as (q & z & Eq). rewrite Eq in *. rewrite !app_assoc in E'. apply app_inj_tail in E' as [_ ->]. apply Hx. eauto.
  - destruct (HC (a ++ s2b """" ++ x) y) as [Q _]; [rewrite E, <- !app_assoc; reflexivity|]. exact (Hy Q).
  - destruct (HC (a ++ s2b """" ++ x ++ s2b "\") y) as [_ Q]; [rewrite E, <- !app_assoc; reflexivity|]. apply Q. exists (a ++ s2b """" ++ x). rewrite <- !app_assoc. reflexivity.
Qed.
Print Assumptions C32_crlf_only.
(** A message that is not parsed to the end. *)
Theorem C32_message_refuted : parseMsg (exNet None) (mkst (s2b "INVITE sip:h SIP/2.0" ++ CRLF ++ s2b "f: """ ++ [10] ++ s2b """ <sip:h>" ++ CRLF ++ CRLF) 8) = Loop.
Proof. vm_compute. reflexivity. Qed.
Print Assumptions C32_message_refuted.

(** ** C33 *)
(** With enough memory a parse crashes only if the input ends in the middle of a line or has a phone-context parameter without a value. *)
Theorem C33_no_crash : forall A (p : P A), parser A p -> forall e s, roomFor e (used s + 57 + 9 * len (rest s)) ->
  (exists lines, rest s = lines ++ [10]) \/ rest s = [] ->
  (forall a name b decoded, rest s = a ++ name ++ b -> Decodes (inset SIP_PNAME) name decoded -> sameNoCase decoded (s2b "phone-context") -> exists b', b = s2b "=" ++ b') ->
  p e s <> Panic.
Proof.
  intros A p H e s R Hl Hc E. destruct (parser_good A p e s H) as (K & C & G). assert (X : p e s = p (withMem None e) s).
  { unfold roomFor in R. rewrite <- (withMem_self e) at 1. destruct (memend e) as [m|]; [|reflexivity]. apply (parser_enough A p H). exact R. }
  rewrite X in E. pose proof (end_mem _ _ _ _ _ G) as M. rewrite E in M. destruct M as [(q & x & Eq & Hx)|(a & run & b & tok & Eq & D & S1 & Hb)].
  - destruct Hl as [(l & Hl)|Hl]; rewrite Hl in Eq; [apply app_inj_tail in Eq as [_ <-]; congruence|destruct q; discriminate].
  - apply Hb. exact (Hc a run b tok Eq D S1).
Qed.
Print Assumptions C33_no_crash.
Theorem C33_message_refuted : forall m, parseMsg (exNet m) (mkst (s2b "IN") 8) = Panic /\ parseMsg (exNet None) (mkst (s2b "INVITE sip:h SIP/2.0" ++ CRLF ++ s2b "f: <tel:1;phone-context>" ++ CRLF ++ CRLF) 8) = Panic.
Proof. intros m. split; vm_compute; reflexivity. Qed.
Print Assumptions C33_message_refuted.

(** ** C34 *)
(** An arena with nine free bytes for every byte of the text and 57 more is enough: in all of them the outcome is the same. *)
Theorem C34_enough : forall A (p : P A), parser A p -> forall e s m m', used s + 57 + 9 * len (rest s) <= m -> used s + 57 + 9 * len (rest s) <= m' ->
  p (withMem (Some m) e) s = p (withMem (Some m') e) s.
Proof. intros A p H e s m m' Hm Hm'. now rewrite !(parser_enough A p H). Qed.
Print Assumptions C34_enough.
(** A parse that succeeds in such an arena and then has [u] bytes in use succeeds in the same way in every arena of more than [u] bytes. *)
Theorem C34_success : forall A (p : P A), parser A p -> forall e s a s' m, used s + 57 + 9 * len (rest s) <= m -> p (withMem (Some m) e) s = Ok a s' ->
  forall m', used s' < m' -> p (withMem (Some m') e) s = Ok a s'.
Proof. intros A p H e s a s' m Hm E m' Hm'. rewrite (parser_enough A p H e s m Hm) in E. exact (proj2 (parser_thrifty A p H e s a s' E) m' Hm'). Qed.
Print Assumptions C34_success.
(** How much of the arena is in use when the parse starts makes no difference, as long as enough is free: the outcome, the position and the number of bytes taken are the same. *)
Lemma parser_moves A (p : P A) : parser A p -> moves true p.
Proof.
  intros H. destruct H; first [apply mv_host|apply mv_hostPort|apply mv_sipUri|apply mv_uriAfter|apply mv_uriAfterNo|apply mv_telUri|apply mv_telAfter|apply mv_telAfterNo|apply mv_addr|apply mv_nameAddr|apply mv_addrSpec|apply mv_params|apply mv_method
    |apply mv_version|apply mv_startLine|apply mv_hval|apply mv_sipX|apply mv_header|apply mv_headerName|apply mv_rawHeaders|apply mv_headers; now right|apply mv_msgBody|apply mv_msg|apply mv_rawScan|idtac].
  unfold parseMultiBody. pose proof (mv_bodyHeaders true). mv. unfold multipartBody. mv.
Qed.
Lemma moves_any A (p : P A) : parser A p -> forall e r u d, p (withMem None e) (mkst r (u + d)) = shiftRes d (p (withMem None e) (mkst r u)).
Proof. intros H e r u d. rewrite <- (parser_moves A p H (withMem None e) (eNeed e) r u d); [|split; [reflexivity|intros _; reflexivity]]. reflexivity. Qed.
Theorem C34_fill_level : forall A (p : P A), parser A p -> forall e r u u' m m', u + 57 + 9 * len r <= m -> u' + 57 + 9 * len r <= m' ->
  match p (withMem (Some m) e) (mkst r u), p (withMem (Some m') e) (mkst r u') with
  | Ok a s1, Ok b s2 => a = b /\ rest s1 = rest s2 /\ used s1 + u' = used s2 + u
  | Fail s1, Fail s2 => rest s1 = rest s2 /\ used s1 + u' = used s2 + u
  | Panic, Panic | Loop, Loop => True
  | _, _ => False
  end.
Proof.
  intros A p H e r u u' m m' Hm Hm'.
  rewrite (parser_enough A p H e (mkst r u) m Hm), (parser_enough A p H e (mkst r u') m' Hm').
  replace u with (0 + u) by lia. replace u' with (0 + u') by lia. rewrite !(moves_any A p H e r 0).
  destruct (p (withMem None e) (mkst r 0)); cbn [shiftRes rest used]; auto; repeat split; lia.
Qed.
Print Assumptions C34_fill_level.
Definition smallVia : bytes := s2b "SIP/2.0 200 OK" ++ CRLF ++ s2b "v: SIP/2.0/UDP h;branch=1" ++ CRLF ++ CRLF.
Example C34_case : parser msg parseMsg /\ exists m s', parseMsg (exNet (Some (8 + 57 + 9 * len smallVia))) (mkst smallVia 8) = Ok m s' /\ used s' < 80 /\ parseMsg (exNet (Some 80)) (mkst smallVia 8) = Ok m s'.
Proof. split; [constructor|]. eexists. eexists. split; [vm_compute; reflexivity|]. split; [reflexivity|vm_compute; reflexivity]. Qed.
Example C34_fill_case : exists m s' s2, parseMsg (exNet (Some 200000)) (mkst smallVia 8) = Ok m s' /\ parseMsg (exNet (Some 300000)) (mkst smallVia 77777) = Ok m s2 /\ used s2 = used s' + 77769.
Proof. eexists. eexists. eexists. split; [vm_compute; reflexivity|]. split; vm_compute; reflexivity. Qed.
(** In smaller arenas a parse can succeed with another result: the branch of a Via is lost; the data of a body part is lost. *)
Theorem C34_param_refuted : exists m1 m2 s1 s2, parseMsg (exNet (Some 64)) (mkst smallVia 8) = Ok m1 s1 /\ parseMsg (exNet (Some 80)) (mkst smallVia 8) = Ok m2 s2 /\
  encHdrs OMsg (exNet None) (mHdrs m1) = s2b "Via: SIP/2.0/UDP h" ++ CRLF /\ encHdrs OMsg (exNet None) (mHdrs m2) = s2b "Via: SIP/2.0/UDP h;branch=1" ++ CRLF.
Proof. eexists. eexists. eexists. eexists. split; [vm_compute; reflexivity|]. split; [vm_compute; reflexivity|]. split; vm_compute; reflexivity. Qed.
Print Assumptions C34_param_refuted.
