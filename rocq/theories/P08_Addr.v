(** Property C28: addresses. *)
From Verif Require Import Base Charset CharsetSpec BaseLemmas Lws LwsSpec Str StrSpec StrProofs Monad Good Rt Seq Room Inv Host HostSpec Uri UriSpec UriProofs Tel TelSpec TelProofs
  GenParam GenParamSpec GenParamProofs Addr AddrSpec AddrProofs Nine NineParse P05_Uri P06_Tel.

(** The name-addr form; it is the form written for every address unless EncodeUriAsNameSpace is switched off. [ps] is the caller's choice of whether
    parameters after an addr-spec belong to the URI; it does not matter here. *)
Theorem C28_name_addr_round_trip : forall e ps a k u,
  eUriNoEscape e = false -> wfAddr e a -> aAngle a = true \/ eNameSpace e = true -> noSws k ->
  roomFor e (u + 57 + 9 * len (encAddr e a ++ k)) ->
  exists u', parseAddr ps e (mkst (encAddr e a ++ k) u) = Ok (mkaddr true (aName a) (aUri a)) (mkst k u').
Proof.
  intros e ps a k u He W Ha F R. assert (Ea : (aAngle a || eNameSpace e)%bool = true) by (apply orb_true_iff; exact Ha).
  destruct (rt_addr (withMem None e) ps a k u eq_refl He) as [u' E].
  - destruct W as (W1 & W2 & W3). split; [exact W1|]. split; [|exact W3]. destruct (aUri a); exact W2.
  - unfold addrFollow. change (eNameSpace (withMem None e)) with (eNameSpace e). rewrite Ea. exact F.
  - rewrite encAddr_mem in E. change (eNameSpace (withMem None e)) with (eNameSpace e) in E. rewrite Ea in E. exists u'.
    rewrite (nine_room _ _ _ e _ (n_addr ps) ltac:(lia)); [exact E|exact R].
Qed.
Print Assumptions C28_name_addr_round_trip.
(** Every form, as written: when EncodeUriAsNameSpace is off an address parsed as addr-spec is written as one and comes back as one, provided its URI has
    no parameters and headers (in a header they would belong to the header). *)
Theorem C28_addr_round_trip : forall e ps a k u,
  eUriNoEscape e = false -> wfAddr e a -> addrFollow e ps a k ->
  roomFor e (u + 57 + 9 * len (encAddr e a ++ k)) ->
  exists u', parseAddr ps e (mkst (encAddr e a ++ k) u) = Ok (mkaddr (aAngle a || eNameSpace e) (aName a) (aUri a)) (mkst k u').
Proof.
  intros e ps a k u He W F R. destruct (rt_addr (withMem None e) ps a k u eq_refl He) as [u' E].
  - destruct W as (W1 & W2 & W3). split; [exact W1|]. split; [|exact W3]. destruct (aUri a); exact W2.
  - exact F.
  - rewrite encAddr_mem in E. exists u'. rewrite (nine_room _ _ _ e _ (n_addr ps) ltac:(lia)); [exact E|exact R].
Qed.
Print Assumptions C28_addr_round_trip.
(** The request URI: exact for SIP URIs. *)
Theorem C28_request_uri_round_trip : forall e a x k u,
  eUriNoEscape e = false -> aUri a = ASip x -> wfSipUri e x -> uriFollow x k -> roomFor e (u + 57 + 9 * len (encAddrSpec e a ++ k)) ->
  exists u', parseAddrSpec e (mkst (encAddrSpec e a ++ k) u) = Ok (mkaddr false None (ASip x)) (mkst k u').
Proof.
  intros e a x k u He Ea W F R. destruct (rt_addrSpec (withMem None e) (ASip x) k u eq_refl He W F) as [u' E]. rewrite encAUri_mem in E.
  unfold encAddrSpec in *. rewrite Ea in *. exists u'. rewrite (nine_room _ _ _ e _ (n_addrSpec) ltac:(lia)); [exact E|exact R].
Qed.
Print Assumptions C28_request_uri_round_trip.
(** ... and a telephone URI is accepted as request URI but not written. *)
Theorem C28_tel_request_uri_refuted : exists e a s', parseAddrSpec e (mkst (s2b "tel:+1234 SIP/2.0") 8) = Ok a s' /\ rest s' = s2b " SIP/2.0" /\ encAddrSpec e a = [].
Proof. exists (exNet (Some 1000)). eexists. eexists. split; [vm_compute; reflexivity|]. split; reflexivity. Qed.
Print Assumptions C28_tel_request_uri_refuted.
(** The domain of the last clause of [addrFollow] matters: a bare host followed by something with "@" is read differently. *)
Theorem C28_bare_host_at_refuted : exists e x s', parseAddr false e (mkst (s2b "sip:host,sip:u@h") 8) = Ok (mkaddr false None (ASip x)) s' /\
  uUser x = Some (s2b "host,sip") /\ uPass x = Some (s2b "u").
Proof. exists (exNet (Some 1000)). eexists. eexists. split; [vm_compute; reflexivity|]. split; reflexivity. Qed.
Print Assumptions C28_bare_host_at_refuted.

Definition exAddr1 : addr := mkaddr true (Some (true, s2b "A \""B\""")) (ATel exTel).
Definition exAddr2 : addr := mkaddr true (Some (false, s2b "Mr. X" ++ CRLF ++ s2b " Y ")) (ASip (mkuri true (Some (s2b "a b")) None (mkhp (HName (s2b "h")) (Some 5060)) None [mkup (s2b "p") None] [])).
Definition exAddr3 : addr := mkaddr false None (ASip (mkuri false None None (mkhp (HIpv4 1 2 3 4) None) None [] [])).
Lemma exAddr2_name : TokenSeq (s2b "Mr. X" ++ CRLF ++ s2b " Y ").
Proof.
  apply (TokMore (s2b "Mr.") (s2b " ") (s2b "X" ++ CRLF ++ s2b " Y ")); [split; [discriminate|reflexivity]|apply LWS_plain; [discriminate|repeat constructor]|].
  apply (TokMore (s2b "X") (CRLF ++ s2b " ") (s2b "Y ")); [split; [discriminate|reflexivity]|apply (LWS_fold [] (s2b " ")); [constructor|discriminate|repeat constructor]|].
  apply (TokLast (s2b "Y") (s2b " ")); [split; [discriminate|reflexivity]|apply LWS_plain; [discriminate|repeat constructor]].
Qed.
(** The same environment with EncodeUriAsNameSpace off. *)
Definition specEnv : env := mkenv (Some 3000) true true true true true true true true false false false false false (fun _ => true) (ipParse (exNet None)) (ipString (exNet None)).
Example C28_case : let e := exNet (Some 3000) in
  (wfAddr e exAddr1 /\ wfAddr e exAddr2 /\ wfAddr specEnv exAddr3) /\ noSws (s2b ";tag=1") /\ noSws CRLF /\ addrFollow specEnv false exAddr3 (s2b ";tag=1") /\
  roomFor e (8 + 57 + 9 * len (encAddr e exAddr1 ++ CRLF)) /\
  encAddr e exAddr1 = s2b """A \""B\""""<tel:1234abCD;phone-context=+8610;isub=a%3Bb;x%20y>" /\
  encAddr e exAddr2 = s2b "Mr. X" ++ CRLF ++ s2b " Y <sips:a%20b@h:5060;p>" /\ encAddr specEnv exAddr3 = s2b "sip:1.2.3.4".
Proof.
  cbv zeta. split; [split; [|split]|].
  - split; [|split; [apply exTel_wf|discriminate]]. repeat first [apply QBNil | apply QBPair | apply QBText; [vm_compute; reflexivity|] | apply QBWs; [vm_compute; reflexivity|]].
  - split; [apply exAddr2_name|]. split; [|discriminate]. split; [split; [discriminate|abytes]|]. split; [exact I|]. split; [split; [|cbn; lia]|].
    + split; [discriminate|]. split; [reflexivity|]. intros (a & b & c & d & da & db & dc & dd & E & _). destruct da as [|? [|]]; discriminate.
    + split; [split; [|exact I]|].
      * intros _ p n [<-|[]] Hn Q. revert Q. cbn in Hn. intuition (subst; vm_compute in Q; discriminate).
      * split; repeat constructor; try discriminate; abytes.
  - split; [exact I|]. split; [|reflexivity]. split; [reflexivity|]. split; [exact I|]. split; [split; [cbn; lia|exact I]|]. split; [split; [intros _ p n []|exact I]|]. split; constructor.
  - split; [right; eexists _, _; split; reflexivity|]. split; [left; right; exists []; split; [reflexivity|intros (x & t & X & _); discriminate]|].
    split; [split; [split; [reflexivity|split; reflexivity]|]|split; [vm_compute; discriminate|split; [vm_compute; reflexivity|split; vm_compute; reflexivity]]].
    split; [split; [reflexivity|discriminate]|]. intros _. exists (s2b ";tag=1"), []. split; [now rewrite app_nil_r|]. split; [|left; reflexivity]. repeat constructor; discriminate.
Qed.
