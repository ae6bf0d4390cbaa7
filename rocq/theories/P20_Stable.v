(** Property C50: what was read, written and read again is what was read. *)
From Verif Require Import Base Charset CharsetSpec BaseLemmas Num NumSpec NumProofs Lws LwsSpec LwsProofs Str StrSpec StrProofs Monad Good Rt Seq Room Inv MethodTree NameSpec Host HostSpec Uri UriSpec UriProofs UriSound
  Tel TelSpec TelSound GenParam GenParamSpec GenParamProofs Addr AddrSpec AddrProofs StartLine StartLineSpec StartLineProofs Headers HeadersSpec HeadersProofs RawHeaders RawSpec Msg MsgSpec MsgRt P05_Uri P06_Tel P07_Params P08_Addr
  P09_StartLine P10_Headers ParsedSpec ParsedWf.

(** ** Parameters *)
Theorem C50_params : forall e0 (on : env -> bool) names s t ps s' e k u,
  parseGenParams 59 on names e0 s = Ok (t, ps) s' -> (forall m, on (withMem m e0) = on e0) -> distinctNames names -> Forall wfToken names ->
  e = withMem (memend e) e0 -> plainParams t ps -> gpEnds 59 k ->
  roomFor e (u + (14 + 2 * N.of_nat (List.length names)) + (15 + 2 * N.of_nat (List.length names)) * len (encGenParams 59 names t ps ++ k)) ->
  exists t' u', parseGenParams 59 on names e (mkst (encGenParams 59 names t ps ++ k) u) = Ok (t', ps) (mkst k u') /\ sameParams t t' ps ps /\
    encGenParams 59 names t' ps = encGenParams 59 names t ps.
Proof.
  intros e0 on names s t ps s' e k u H Hon D Tk Ee Pl F R.
  assert (Ne : Forall (fun x => x <> []) names) by (eapply Forall_impl; [|exact Tk]; intros x [Hx _]; exact Hx). apply genParams_out in H; [|exact Ne].
  assert (On : on e = on e0) by (rewrite Ee; apply Hon). pose proof (canonG_wf _ _ _ _ Tk H Pl) as W. pose proof (canonG_same _ _ _ _ H) as Sm. rewrite <- On in W.
  assert (Hon2 : forall m, on (withMem m e) = on e) by (intros m; rewrite On, Ee; apply (Hon m)).
  destruct (C26_known_params_round_trip e on names (canonGKnown names t) ps k u Hon2 D W F) as [u' E]; [rewrite encGen_canon; exact R|]. rewrite encGen_canon in E.
  exists (canonGKnown names t), u'. split; [exact E|]. split; [exact Sm|apply encGen_canon].
Qed.
Print Assumptions C50_params.

(** ** Addresses *)
Theorem C50_addr : forall e0 ps s a s' e k u,
  parseAddr ps e0 s = Ok a s' -> netGood e0 -> e = withMem (memend e) e0 -> eUriNoEscape e = false -> plainAddr a -> addrFollow e ps a k ->
  roomFor e (u + 57 + 9 * len (encAddr e a ++ k)) ->
  exists b u', parseAddr ps e (mkst (encAddr e a ++ k) u) = Ok b (mkst k u') /\ sameAddr (mkaddr (aAngle a || eNameSpace e) (aName a) (aUri a)) b /\ encAddr e b = encAddr e a.
Proof.
  intros e0 ps s a s' e k u H NG Ee He Pl F R. apply addr_out in H as [O _]; [|exact NG].
  assert (O' : outAddr e a). { rewrite Ee. destruct O as (O1 & O2 & O3). split; [exact O1|]. split; [|exact O3]. destruct (aUri a); exact O2. }
  pose proof (canonAddr_wf _ _ O' Pl) as W. pose proof (canonAddr_same _ _ O') as (_ & _ & Su).
  assert (F' : addrFollow e ps (canonAddr a) k).
  { unfold addrFollow in *. cbn [canonAddr aAngle aUri] in *. destruct (aAngle a || eNameSpace e); [exact F|]. destruct ps.
    - destruct (aUri a); exact F.
    - destruct F as [F1 F2]. split; [now apply bareUri_canon|]. destruct (aUri a); exact F2. }
  destruct (C28_addr_round_trip e ps (canonAddr a) k u He W F') as [u' E]; [rewrite encAddr_canon; exact R|]. rewrite encAddr_canon in E. eexists. exists u'. split; [exact E|].
  split; [split; [reflexivity|split; [reflexivity|exact Su]]|]. rewrite <- (encAddr_canon e a). unfold encAddr, canonAddr. cbn [aAngle aName aUri]. destruct (aAngle a), (eNameSpace e); reflexivity.
Qed.
Print Assumptions C50_addr.

(** ** Start lines *)
Theorem C50_start_line : forall e0 s l s' e k u,
  parseStartLine e0 s = Ok l s' -> netGood e0 -> e = withMem (memend e) e0 -> eUriNoEscape e = false -> plainLine e l ->
  roomFor e (u + 57 + 9 * len (encStartLine e l ++ k)) ->
  exists y u', parseStartLine e (mkst (encStartLine e l ++ k) u) = Ok y (mkst k u') /\ sameLine l y /\ encStartLine e y = encStartLine e l.
Proof.
  intros e0 s l s' e k u H NG Ee He Pl R. apply startLine_out in H as [W Sm]; [|exact NG|rewrite Ee in Pl; destruct l; exact Pl].
  assert (W' : wfStartLine e (canonLine l)) by (rewrite Ee; destruct l; exact W).
  destruct (C30_start_line_round_trip e (canonLine l) k u He W') as [u' E]; [rewrite encLine_canon; exact R|]. rewrite encLine_canon in E. exists (canonLine l), u'. split; [exact E|]. split; [exact Sm|apply encLine_canon].
Qed.
Print Assumptions C50_start_line.

(** ** Headers *)
Lemma hval_bare k e s a t ps s' : netGood e -> parseHVal k e s = Ok (VAddr a t ps) s' -> aAngle a = false -> bareUri (aUri a).
Proof.
  intros NG H Ha. assert (FT : forall k s, parseFromTo k e s = Ok (VAddr a t ps) s' -> bareUri (aUri a)).
  { clear H. intros k0 s0 H. apply bind_inv in H as (a1 & s1 & E1 & H). apply bind_inv in H as (tp & s2 & E2 & H). injection H as -> _ _ _. apply addr_out in E1 as [_ E1]; auto. }
  assert (RT : forall k s, parseRoute k e s = Ok (VAddr a t ps) s' -> bareUri (aUri a)).
  { clear H. intros k0 s0 H. apply bind_inv in H as (a1 & s1 & E1 & H). apply bind_inv in H as (tp & s2 & E2 & H). injection H as -> _ _ _. apply nameAddr_out in E1 as [_ E1]; [congruence|exact NG]. }
  destruct k; cbn [parseHVal] in H; try (eapply FT, H); try (eapply RT, H); try (repeat (apply bind_inv in H as (? & ? & _ & H)); discriminate).
  - apply bind_inv in H as (u0 & s1 & _ & H). unfold onRest in H. destruct (rest s1) as [|x r]; [discriminate|]. destruct (x =? 42); [|eapply FT, H]. rewrite goto_bind in H. apply bind_inv in H as (u1 & s2 & _ & H). discriminate.
  - apply bind_inv in H as (a1 & s1 & E1 & H). injection H as -> _ _ _. apply addr_out in E1 as [_ E1]; auto.
  - apply bind_inv in H as (w & s1 & _ & H). unfold onRest in H. destruct (rest s1) as [|x r]; [discriminate|]. destruct (x =? 64); [|discriminate]. rewrite goto_bind in H. apply bind_inv in H as (u1 & s2 & _ & H). discriminate.
Qed.
Lemma canon_delimited k e s v s' : netGood e -> parseHVal k e s = Ok v s' -> plainAt e v -> delimited e (canonHVal k v).
Proof.
  intros NG H Pl. destruct v as [ad t1 ps| |pr tr hp t1 ps|n mt|rr c0 mt|n|mn sb t1 ps|d t1 ps|w0 w2]; try exact Logic.I. cbn [canonHVal delimited canonAddr aAngle aUri].
  cbn [plainAt] in Pl. unfold bareForm in Pl. destruct (aAngle ad || eNameSpace e) eqn:Ea; [left; reflexivity|]. right. specialize (Pl eq_refl). apply orb_false_iff in Ea as [Ea _].
  pose proof (hval_bare _ _ _ _ _ _ _ NG H Ea) as B. split; [now apply bareUri_canon|]. destruct (aUri ad) as [x|x]; [|exact Logic.I]. cbn [canonAUri]. change (uUser (canonUri x)) with (uUser x). intros U. specialize (Pl U).
  destruct Pl as [P1 P2]. split; [exact P1|]. destruct t1 as [tbl|]; [|exact Logic.I]. cbn [canonGKnown]. intros p Ip. unfold canonGTable in Ip. apply in_map_iff in Ip as ([n o] & E & Ip). apply in_combine_r in Ip. cbn [fst snd] in E.
  destruct o as [p0|]; [|discriminate]. injection E as <-. exact (P2 _ Ip).
Qed.
Lemma asWritten_enc e k v : encHVal e k (asWritten e v) = encHVal e k v.
Proof. destruct v as [ad t1 ps| | | | | | | |]; try reflexivity. cbn [asWritten encHVal]. unfold encAddr. cbn [aAngle aName aUri]. destruct (aAngle ad), (eNameSpace e); reflexivity. Qed.
Lemma asWritten_same e k v : sameHVal v (canonHVal k v) -> sameHVal (asWritten e v) (asWritten e (canonHVal k v)).
Proof. destruct v as [ad t1 ps| | | | | | | |]; try exact (fun H => H). cbn [canonHVal asWritten sameHVal]. intros ((_ & _ & H1) & H2). split; [|exact H2]. split; [reflexivity|]. split; [reflexivity|exact H1]. Qed.
Theorem C50_header : forall e0 k s v s' e q u,
  parseHVal k e0 s = Ok v s' -> netGood e0 -> e = withMem (memend e) e0 -> eUriNoEscape e = false -> plainHVal k v -> plainAt e v -> ~ startsWsp q ->
  roomFor e (u + 57 + 9 * len (encHeader e k v ++ CRLF ++ q)) ->
  exists y u', parseHeader k e (mkst (encHeader e k v ++ CRLF ++ q) u) = Ok y (mkst (CRLF ++ q) u') /\ sameHVal (asWritten e v) y /\ encHeader e k y = encHeader e k v.
Proof.
  intros e0 k s v s' e q u H NG Ee He Pl Pa Hq R. pose proof (hval_out _ _ _ _ _ NG H Pl) as [W Sm]. assert (W' : wfHVal e k (canonHVal k v)) by (rewrite Ee; now apply wf_mem).
  assert (D : delimited e (canonHVal k v)). { rewrite Ee in Pa |- *. pose proof (canon_delimited k e0 s v s' NG H) as D. destruct v; try exact Logic.I. exact (D Pa). }
  assert (Eh : encHeader e k (canonHVal k v) = encHeader e k v) by (unfold encHeader; now rewrite encHVal_canon).
  destruct (C29_header_round_trip e k (canonHVal k v) (CRLF ++ q) u He W' (follow_line _ _ _ _ W' D Hq)) as [u' E]; [rewrite Eh; exact R|]. rewrite Eh in E. exists (asWritten e (canonHVal k v)), u'. split; [exact E|].
  split; [now apply asWritten_same|]. unfold encHeader. rewrite asWritten_enc, encHVal_canon. reflexivity.
Qed.
Print Assumptions C50_header.

(** EncodeUriAsNameSpace off: addresses are written without angle brackets if they were read without. *)
Definition bareEnv (m : option N) : env :=
  mkenv m true true true true true true true true false false false false false (fun _ => true) (ipParse (exNet m)) (ipString (exNet m)).
Lemma bareEnv_good m : netGood (bareEnv m). Proof. exact (exNet_good m). Qed.
Lemma noCRCR t : (forall i, (i < List.length t)%nat -> ~ (nth i t 0 = 13 /\ nth (i + 1) t 0 = 13)) -> unfolded t.
Proof.
  intros H a b ->. apply (H (List.length a)); [rewrite app_length; cbn; lia|]. rewrite app_nth2 by lia. rewrite Nat.sub_diag. split; [reflexivity|]. rewrite app_nth2 by lia. replace (List.length a + 1 - List.length a)%nat with 1%nat by lia. reflexivity.
Qed.
Example C50_case : let e := exNet (Some 9000) in let b := bareEnv (Some 9000) in
  (exists v s', parseHVal KFrom e (mkst (s2b "Mr." ++ CRLF ++ s2b " X <SIPS:%61@h;LR> ; TAG = 1 ; Q = ""a\""b""" ++ CRLF) 8) = Ok v s' /\ rest s' = CRLF /\ plainHVal KFrom v /\ plainAt e v /\
     roomFor e (8 + 57 + 9 * len (encHeader e KFrom v ++ CRLF)) /\ encHeader e KFrom v = s2b "From: Mr." ++ CRLF ++ s2b " X <sips:a@h;lr>;tag=1;Q=""a\""b""") /\
  (exists v s', parseHVal KTo b (mkst (s2b "sip:h ;tag=1;x=[1]" ++ CRLF) 8) = Ok v s' /\ rest s' = CRLF /\ plainHVal KTo v /\ plainAt b v /\
     roomFor b (8 + 57 + 9 * len (encHeader b KTo v ++ CRLF)) /\ encHeader b KTo v = s2b "To: sip:h;tag=1;x=[1]") /\
  (exists l s', parseStartLine e (mkst (s2b "INVITE sip:%61b@[::1]:5060;Ttl=1;q?x=y SIP/02.0" ++ CRLF) 8) = Ok l s' /\ plainLine e l /\
     roomFor e (8 + 57 + 9 * len (encStartLine e l)) /\ encStartLine e l = s2b "INVITE sip:ab@[::1]:5060;ttl=1;q?x=y SIP/02.0" ++ CRLF).
Proof.
  cbv zeta. split; [|split].
  - eexists. eexists. split; [vm_compute; reflexivity|]. split; [reflexivity|]. split; [|split; [discriminate|split; [vm_compute; discriminate|vm_compute; reflexivity]]].
    split; [split; [exact Logic.I|intros h []]|]. split; [|discriminate]. split.
    + constructor; [|constructor]. apply noCRCR. intros i Hi [H _]. cbn in Hi. do 4 (destruct i as [|i]; [discriminate|]). lia.
    + intros p [H0|[]]; injection H0 as <-. exact Logic.I.
  - eexists. eexists. split; [vm_compute; reflexivity|]. split; [reflexivity|]. split; [|split; [|split; [vm_compute; discriminate|vm_compute; reflexivity]]].
    + split; [split; [exact Logic.I|intros h []]|]. split; [|discriminate]. split; [repeat constructor|intros p [H0|[]]; injection H0 as <-; exact Logic.I].
    + intros _ _. split; [repeat constructor|]; [intros [H|[H|[H|[]]]]; discriminate|]. intros p [H0|[]]; injection H0 as <-. cbn. intros [H|[]]. discriminate.
  - eexists. eexists. split; [vm_compute; reflexivity|]. split; [|split; [vm_compute; discriminate|vm_compute; reflexivity]]. split; [|eexists; reflexivity]. split; [exact Logic.I|]. intros h [<-|[]]. discriminate.
Qed.
(** ** Outside the domain *)
(** A Contact with a display name that starts with "*", behind more than one folded line end: it is written on one line, and read again as the wildcard. *)
Theorem C50_starred_refuted : exists e v s1, parseHeader KContact e (mkst (s2b "Contact:" ++ CRLF ++ s2b " " ++ CRLF ++ s2b " " ++ CRLF ++ s2b " *x <sip:h>" ++ CRLF) 8) = Ok v s1 /\ rest s1 = CRLF /\
  encHeader e KContact v = s2b "Contact: *x <sip:h>" /\ exists s2, parseHeader KContact e (mkst (encHeader e KContact v ++ CRLF) 8) = Ok VStar s2.
Proof. exists (exNet (Some 1000)). eexists. eexists. split; [vm_compute; reflexivity|]. split; [reflexivity|]. split; [vm_compute; reflexivity|]. eexists. vm_compute. reflexivity. Qed.
Print Assumptions C50_starred_refuted.
(** EncodeUriAsNameSpace off: white space told the host from the "@" in a parameter, and is not written. *)
Theorem C50_bare_at_refuted : exists e v s1 s2, parseHeader KFrom e (mkst (s2b "From: sip:h ;x=""a@b""" ++ CRLF) 8) = Ok v s1 /\ rest s1 = CRLF /\ encHeader e KFrom v = s2b "From: sip:h;x=""a@b""" /\
  parseHeader KFrom e (mkst (encHeader e KFrom v ++ CRLF) 8) = Fail s2.
Proof. exists (bareEnv (Some 1000)). eexists. eexists. eexists. split; [vm_compute; reflexivity|]. split; [reflexivity|]. split; [vm_compute; reflexivity|]. vm_compute. reflexivity. Qed.
Print Assumptions C50_bare_at_refuted.
