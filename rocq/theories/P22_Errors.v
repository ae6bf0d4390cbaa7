(** Properties C51-C54: the errors a Context collects. *)
From Verif Require Import Base Charset BaseLemmas Num NumSpec NumProofs Lws LwsProofs Str StrSpec StrProofs Monad MethodTree HeaderTree Lookup Host Uri Tel GenParam Addr StartLine Headers RawHeaders Msg NameSpec NameProofs
  Good Rt Seq GoodAuto Inv UriGood TelProofs GenParamProofs AddrProofs StartLineProofs HeadersProofs RawProofs MsgProofs Log LogProofs LogAuto LogAddr LogMsg Errors P05_Uri.

(** The calls that report every failure. *)
Definition reports (a : api) : bool :=
  match a with ATelUri | AAddr _ | ANameAddr | AAddrSpec | ARawHeaders | AHeaders _ => false | _ => true end.
Lemma lg_unit {A} b (lp : L A) p e s : lgAt b lp p e s -> lgAt b (lp ;+> retL tt) (p ;;; ret tt) e s.
Proof. intros G. apply lg_bind; [exact G|intros; apply lg_ret]. Qed.
Lemma lg_api a e s : lgAt (reports a) (apiL a) (apiP a) e s.
Proof.
  destruct a; cbn [reports apiL apiP]; apply lg_unit; auto using lg_msg, lg_startLine, lg_header, lg_hval, lg_sipUri, lg_telUri, lg_addr, lg_nameAddr, lg_addrSpec, lg_hostport, lg_host, lg_method, lg_version, lg_uriParam,
    lg_uriHeader, lg_uriHeaders, lg_genParam, lg_rawHeaders, lg_headers.
Qed.

(** ** C51 *)
Lemma suffix_pos src start x : start <= len src -> suffix x (skipn (N.to_nat start) src) -> start <= len src - len x <= len src.
Proof. intros Hs Su. apply suffix_len in Su. unfold len in *. rewrite skipn_length in Su. lia. Qed.
(** One call: what it returns, where it stops and how much memory it takes does not depend on the errors of earlier calls; Errors keeps the old errors; a success adds nothing;
    a failure adds something (for the calls that report); every added error carries the text that was parsed and a position in the part that was parsed. *)
Theorem C51_one_call : forall e c a src start ok pos c', start <= len src -> callOn e c a src start = Some (ok, pos, c') ->
  (exists s', rest s' = skipn (N.to_nat pos) src /\ used s' = cUsed c' /\
     apiP a e (mkst (skipn (N.to_nat start) src) (cUsed c)) = (if ok then Ok tt s' else Fail s')) /\
  start <= pos <= len src /\
  exists new, cErrs c' = cErrs c ++ new /\ (ok = true -> new = []) /\ (ok = false -> reports a = true -> new <> []) /\
    Forall (fun x => rSrc x = src /\ start <= rPos x <= len src) new.
Proof.
  intros e c a src start ok pos c' Hs H. unfold callOn in H. destruct (lg_api a e (mkst (skipn (N.to_nat start) src) (cUsed c))) as [G1 G2 G3]. cbn [rest] in *.
  assert (Sf : forall r, suffix r (skipn (N.to_nat start) src) -> r = skipn (N.to_nat (len src - len r)) src).
  { intros r [p Hp]. assert (E : src = (firstn (N.to_nat start) src ++ p) ++ r) by (rewrite <- app_assoc, <- Hp; symmetry; apply firstn_skipn).
    rewrite E at 2. rewrite skipn_app. assert (Q : N.to_nat (len src - len r) = List.length (firstn (N.to_nat start) src ++ p)).
    { rewrite E at 1. unfold len. rewrite !app_length. lia. }
    rewrite Q, skipn_all, Nat.sub_diag. reflexivity. }
  destruct (apiL a e (mkst (skipn (N.to_nat start) src) (cUsed c))) as [r l] eqn:E. cbn [fst snd] in *.
  assert (Fin : Forall (fun x => rSrc x = src /\ start <= rPos x <= len src) (map (record src) l)).
  { rewrite Forall_map. eapply Forall_impl; [|exact G3]. intros x Sx. split; [reflexivity|]. cbn [record rPos]. now apply suffix_pos. }
  destruct r as [[] s'|s'| |]; try discriminate; injection H as <- <- <-; cbn [cErrs cUsed]; destruct G2 as [G2 Su].
  - split; [exists s'; split; [apply Sf, Su|split; [reflexivity|symmetry; exact G1]]|]. split; [now apply suffix_pos|]. exists (map (record src) l). split; [reflexivity|]. split; [now rewrite G2|].
    split; [discriminate|exact Fin].
  - split; [exists s'; split; [apply Sf, Su|split; [reflexivity|symmetry; exact G1]]|]. split; [now apply suffix_pos|]. exists (map (record src) l). split; [reflexivity|]. split; [discriminate|].
    split; [|exact Fin]. intros _ R X. apply map_eq_nil in X. now apply G2.
Qed.
(** The calls that may fail without a word. A telephone URI: exactly when the scheme is missing. *)
Definition begins (p r : bytes) : Prop := exists q t, r = q ++ t /\ sameNoCase q p.
Lemma lower_lc x c : 97 <= c -> c <= 122 -> asciiLower x = c -> lc x c = true.
Proof.
  intros H1 H2 H. unfold lc. apply N.eqb_eq. unfold asciiLower in H. assert (Hx : x = c \/ x + 32 = c /\ 65 <= x <= 90) by (destruct (_ && _)%bool eqn:E; [right; apply andb_prop in E as [E1 E2]; lia|left; exact H]).
  assert (SW : forall c, 97 <= c -> c <= 122 -> N.lor c 32 = c /\ N.lor (c - 32) 32 = c).
  { clear. intros c H1 H2. assert (I : In c (map N.of_nat (seq 97 26))). { apply in_map_iff. exists (N.to_nat c). split; [lia|]. apply in_seq. lia. }
    assert (F : forallb (fun c => (N.lor c 32 =? c) && (N.lor (c - 32) 32 =? c)) (map N.of_nat (seq 97 26)) = true) by (vm_compute; reflexivity).
    rewrite forallb_forall in F. apply F in I. apply andb_prop in I as [I1 I2]. apply N.eqb_eq in I1, I2. auto. }
  destruct Hx as [->|[Hx _]]; [apply SW; assumption|]. replace x with (c - 32) by lia. apply SW; assumption.
Qed.
Lemma lower_58 x : asciiLower x = 58 -> x = 58.
Proof. unfold asciiLower. destruct (_ && _)%bool eqn:E; [apply andb_prop in E as [E1 E2]; lia|auto]. Qed.
Lemma begins4 a b c r : 97 <= a <= 122 -> 97 <= b <= 122 -> 97 <= c <= 122 -> begins [a; b; c; 58] r -> exists x y z t, r = x :: y :: z :: 58 :: t /\ lc x a = true /\ lc y b = true /\ lc z c = true.
Proof.
  intros Ha Hb Hc (q & t & -> & Q). unfold sameNoCase in Q. destruct q as [|x [|y [|z [|w [|v q]]]]]; try discriminate. cbn [map] in Q. injection Q as Q1 Q2 Q3 Q4.
  assert (La : forall k, 97 <= k <= 122 -> asciiLower k = k). { intros k Hk. unfold asciiLower. destruct (_ && _)%bool eqn:E; [apply andb_prop in E as [E1 E2]; lia|reflexivity]. }
  rewrite (La a Ha) in Q1. rewrite (La b Hb) in Q2. rewrite (La c Hc) in Q3. change (asciiLower 58) with 58 in Q4. apply lower_58 in Q4. subst w. exists x, y, z, t. split; [reflexivity|]. repeat split; apply lower_lc; auto; lia.
Qed.
Lemma lc_other x c d : lc x c = true -> c <> d -> lc x d = false.
Proof. unfold lc. intros H Hd. apply N.eqb_eq in H. apply N.eqb_neq. congruence. Qed.
Theorem C51_tel_uri : forall e c src start ok pos c', start <= len src -> callOn e c ATelUri src start = Some (ok, pos, c') ->
  begins (s2b "tel:") (skipn (N.to_nat start) src) -> ok = false -> exists x new, cErrs c' = cErrs c ++ x :: new.
Proof.
  intros e c src start ok pos c' Hs H B ->. unfold callOn in H. cbn [apiL] in H.
  apply (begins4 116 101 108) in B as (x & y & z & t & R & X & Y & Z); try lia. rewrite R in H.
  assert (G : lgAt true (parseTelUriL ;+> retL tt) (parseTelUri ;;; ret tt) e (mkst (x :: y :: z :: 58 :: t) (cUsed c))).
  { apply lg_unit. unfold parseTelUriL, parseTelUri. apply lg_bind; [|intros; lg]. apply lg_silent; [eapply (sfx_good 0); apply gd_telScheme|]. intros _ s' F. unfold parseTelScheme, onRest in F. cbn [rest] in F.
    rewrite X, Y, Z in F. discriminate. }
  destruct G as [_ G2 _]. destruct ((parseTelUriL ;+> retL tt) e (mkst (x :: y :: z :: 58 :: t) (cUsed c))) as [[a0 s'|s'| |] l]; try discriminate. injection H as _ <-. cbn [fst snd cErrs] in *. destruct G2 as [G2 _].
  destruct l as [|l0 l]; [destruct (G2 eq_refl eq_refl)|]. exists (record src l0), (map (record src) l). reflexivity.
Qed.
(** An address given as a SIP, SIPS or telephone URI. *)
Lemma scheme_sip e r u x y z t : r = x :: y :: z :: 58 :: t -> lc x 115 = true -> lc y 105 = true -> lc z 112 = true -> parseScheme e (mkst r u) = Ok USip (mkst t u).
Proof. intros -> X Y Z. unfold parseScheme, onRest. cbn [rest]. rewrite X, Y, Z. reflexivity. Qed.
Lemma scheme_tel e r u x y z t : r = x :: y :: z :: 58 :: t -> lc x 116 = true -> lc y 101 = true -> lc z 108 = true -> parseScheme e (mkst r u) = Ok UTel (mkst t u).
Proof. intros -> X Y Z. unfold parseScheme, onRest. cbn [rest]. rewrite (lc_other x 116 115 X) by discriminate. rewrite X, Y, Z. reflexivity. Qed.
Lemma scheme_sips e r u x y z w t : r = x :: y :: z :: w :: 58 :: t -> lc x 115 = true -> lc y 105 = true -> lc z 112 = true -> lc w 115 = true -> parseScheme e (mkst r u) = Ok USips (mkst t u).
Proof.
  intros -> X Y Z W. unfold parseScheme, onRest. cbn [rest]. rewrite X, Y, Z, W. assert (Nw : (w =? 58) = false). { apply N.eqb_neq. intros ->. discriminate. } rewrite Nw. reflexivity.
Qed.
Lemma begins5 r : begins (s2b "sips:") r -> exists x y z w t, r = x :: y :: z :: w :: 58 :: t /\ lc x 115 = true /\ lc y 105 = true /\ lc z 112 = true /\ lc w 115 = true.
Proof.
  intros (q & t & -> & Q). unfold sameNoCase in Q. destruct q as [|x [|y [|z [|w [|v [|v1 q]]]]]]; try discriminate. cbn in Q. injection Q as Q1 Q2 Q3 Q4 Q5. apply lower_58 in Q5. subst v.
  exists x, y, z, w, t. split; [reflexivity|]. repeat split; apply lower_lc; auto; lia.
Qed.
Definition supported (r : bytes) : Prop := begins (s2b "sip:") r \/ begins (s2b "sips:") r \/ begins (s2b "tel:") r.
Lemma supported_scheme e r u : supported r -> exists sch t, parseScheme e (mkst r u) = Ok sch (mkst t u) /\ sch <> UUrn /\ sch <> UAbsolute /\ exists x q, r = x :: q /\ lc x 115 || lc x 116 = true.
Proof.
  intros [B|[B|B]].
  - apply (begins4 115 105 112) in B as (x & y & z & t & R & X & Y & Z); try lia. exists USip, t. split; [eapply scheme_sip; eauto|]. split; [discriminate|]. split; [discriminate|]. exists x, (y :: z :: 58 :: t). rewrite X. auto.
  - apply begins5 in B as (x & y & z & w & t & R & X & Y & Z & W). exists USips, t. split; [eapply scheme_sips; eauto|]. split; [discriminate|]. split; [discriminate|]. exists x, (y :: z :: w :: 58 :: t). rewrite X. auto.
  - apply (begins4 116 101 108) in B as (x & y & z & t & R & X & Y & Z); try lia. exists UTel, t. split; [eapply scheme_tel; eauto|]. split; [discriminate|]. split; [discriminate|]. exists x, (y :: z :: 58 :: t). rewrite X, orb_true_r. auto.
Qed.
Lemma schemeL_ok e s sch s' : parseScheme e s = Ok sch s' -> parseSchemeL e s = (Ok sch s', []).
Proof. intros H. destruct (lg_scheme e s) as [G1 G2 _]. rewrite H in G1. destruct (parseSchemeL e s) as [r l]. cbn [fst snd] in *. subst r. destruct G2 as [-> _]. reflexivity. Qed.
Theorem C51_addresses : forall e c a src start ok pos c', start <= len src -> a = AAddrSpec \/ (exists ps, a = AAddr ps) -> callOn e c a src start = Some (ok, pos, c') ->
  supported (skipn (N.to_nat start) src) -> ok = false -> exists x new, cErrs c' = cErrs c ++ x :: new.
Proof.
  intros e c a src start ok pos c' Hs Ha H B ->. unfold callOn in H. set (r0 := skipn (N.to_nat start) src) in *. destruct (supported_scheme e r0 (cUsed c) B) as (sch & t & Es & N1 & N2 & x & q & R & X).
  assert (G : forall s', fst (apiL a e (mkst r0 (cUsed c))) = Fail s' -> snd (apiL a e (mkst r0 (cUsed c))) <> []).
  { intros s' F. destruct Ha as [->|[ps ->]]; cbn [apiL] in *.
    - unfold parseAddrSpecL, bindL in *. rewrite (schemeL_ok _ _ _ _ Es) in *. destruct (lg_spec true true sch e (mkst t (cUsed c)) (fun _ => conj N1 N2)) as [_ G2 _].
      destruct (parseSpecL true sch e (mkst t (cUsed c))) as [[u1 s1|s1| |] l]; cbn [fst snd app retL silent ret] in *; try discriminate. now apply G2.
    - unfold parseAddrL, onRestL, bindL, orRestoreL in *. cbn [rest] in *. rewrite R in *. 
      assert (Nx : ((x =? 60) || (x =? 34))%bool = false). { apply orb_false_iff. split; apply N.eqb_neq; intros ->; discriminate. }
      rewrite Nx in *. rewrite (schemeL_ok _ _ _ _ Es) in *. cbn [retL silent ret] in *. cbv iota beta in *. destruct (lg_spec true ps sch e (mkst t (cUsed c)) (fun _ => conj N1 N2)) as [_ G2 _].
      destruct (parseSpecL ps sch e (mkst t (cUsed c))) as [[u1 s1|s1| |] l]; cbn [fst snd app retL silent ret] in *; try discriminate. now apply G2. }
  destruct (apiL a e (mkst r0 (cUsed c))) as [[a0 s'|s'| |] l]; try discriminate. injection H as _ <-. cbn [fst snd cErrs] in *.
  specialize (G s' eq_refl). destruct l as [|l0 l]; [congruence|]. exists (record src l0), (map (record src) l). reflexivity.
Qed.
(** SipMsg.Encode: nothing on success, something on failure. *)
Theorem C51_encode : forall pre m e s, fst (encMsgL pre m e s) = encMsg pre m e s /\
  (forall x s', encMsg pre m e s = Ok x s' -> snd (encMsgL pre m e s) = []) /\ (forall s', encMsg pre m e s = Fail s' -> snd (encMsgL pre m e s) <> []).
Proof.
  intros pre m e s. destruct (lg_encMsg true pre m e s) as [G1 G2 _]. split; [exact G1|]. rewrite G1 in G2. split; intros; rewrite H in G2; now apply G2.
Qed.
(** A wrong port is reported twice, at the end of the number: by the port and by the URI that holds it. *)
Example ex_uri_errors : callOn (exNet (Some 1000)) (mkctx [] 0) ASipUri (s2b "xxsip:a@b:70000;p") 2 =
  Some (false, 15, mkctx [mkrerr (s2b "xxsip:a@b:70000;p") 15 "sip-hostport parse: port wrong range "":"""; mkrerr (s2b "xxsip:a@b:70000;p") 15 "parse hostport failed"] 6).
Proof. vm_compute. reflexivity. Qed.
Example ex_uri_fine : callOn (exNet (Some 1000)) (mkctx [] 0) ASipUri (s2b "sip:a@b:7000;p") 0 = Some (true, 14, mkctx [] 15).
Proof. vm_compute. reflexivity. Qed.
(** Failures nobody hears of: no "tel:", a URN, a header line without an end. *)
Example ex_silent_tel : callOn (exNet (Some 1000)) (mkctx [] 0) ATelUri (s2b "sip:a@b") 0 = Some (false, 0, mkctx [] 0).
Proof. vm_compute. reflexivity. Qed.
Example ex_silent_addr : callOn (exNet (Some 1000)) (mkctx [] 0) (AAddr true) (s2b "<urn:service:sos>") 0 = Some (false, 5, mkctx [] 0).
Proof. vm_compute. reflexivity. Qed.
Example ex_silent_raw : callOn (exNet (Some 1000)) (mkctx [] 0) ARawHeaders (s2b "Subject: x") 0 = Some (false, 10, mkctx [] 8).
Proof. vm_compute. reflexivity. Qed.
Example ex_tel_reports : begins (s2b "tel:") (s2b "TEL:x") /\ callOn (exNet (Some 1000)) (mkctx [] 0) ATelUri (s2b "TEL:x") 0 =
  Some (false, 4, mkctx (map (mkrerr (s2b "TEL:x") 4) ["tel uri number empty"; "parse local-number failed for tel uri"; "parse number failed"]%string) 0).
Proof. split; [exists (s2b "TEL:"), (s2b "x"); split; reflexivity|vm_compute; reflexivity]. Qed.
Example ex_addr_reports : supported (s2b "Sip:a@") /\ exists pos c', callOn (exNet (Some 1000)) (mkctx [] 0) (AAddr false) (s2b "Sip:a@") 0 = Some (false, pos, c').
Proof. split; [left; exists (s2b "Sip:"), (s2b "a@"); split; reflexivity|eexists _, _; vm_compute; reflexivity]. Qed.

(** ** C52 *)
(** The four parts of a message. *)
Inductive stage := StLine | StNothing | StHeaders | StBody.
Definition stageText (g : stage) : string :=
  match g with
  | StLine => "parse start-line failed for sip msg"
  | StNothing => "no headers for sip msg failed"
  | StHeaders => "parse headers failed for sip msg"
  | StBody => "parse msg body failed for sip msg"
  end.
(** The message read from [s] goes wrong in part [g], with the position left at [s']. *)
Definition wrongIn (e : env) (s : st) (g : stage) (s' : st) : Prop :=
  match g with
  | StLine => parseStartLine e s = Fail s'
  | StNothing => exists l, parseStartLine e s = Ok l s' /\ rest s' = []
  | StHeaders => exists l s1, parseStartLine e s = Ok l s1 /\ rest s1 <> [] /\ parseHeaders OMsg e s1 = Fail s'
  | StBody => exists l s1 h s2, parseStartLine e s = Ok l s1 /\ rest s1 <> [] /\ parseHeaders OMsg e s1 = Ok h s2 /\ parseMsgBody h e s2 = Fail s'
  end.
Lemma orErr_ok {A} d (lp : L A) p e s a s' : lgAt false lp p e s -> p e s = Ok a s' -> orErr d lp e s = (Ok a s', []).
Proof. intros [G1 G2 _] H. unfold orErr. rewrite G1, H in G2. rewrite H in G1. destruct (lp e s) as [r l]. cbn [fst snd] in *. subst r. destruct G2 as [-> _]. reflexivity. Qed.
Lemma orErr_fail {A} d (lp : L A) p e s s' : lgAt false lp p e s -> p e s = Fail s' -> exists l, orErr d lp e s = (Fail s', l ++ [mkerr (rest s') d]).
Proof. intros [G1 G2 _] H. unfold orErr. rewrite H in G1. destruct (lp e s) as [r l]. cbn [fst snd] in *. subst r. exists l. reflexivity. Qed.
Lemma msg_stages e s s' : parseMsg e s = Fail s' -> exists g, wrongIn e s g s'.
Proof.
  intros H. unfold parseMsg, bind in H. destruct (parseStartLine e s) as [l s1|s1| |] eqn:E1; try discriminate; [|injection H as <-; exists StLine; exact E1].
  unfold onRest in H. destruct (rest s1) as [|x r] eqn:R; [injection H as <-; exists StNothing, l; auto|].
  destruct (parseHeaders OMsg e s1) as [h s2|s2| |] eqn:E2; try discriminate; [|injection H as <-; exists StHeaders, l, s1; rewrite R; repeat split; auto; discriminate].
  destruct (parseMsgBody h e s2) as [b s3|s3| |] eqn:E3; try discriminate. injection H as <-. exists StBody, l, s1, h, s2. rewrite R. repeat split; auto. discriminate.
Qed.
Lemma stages_differ e s g1 g2 s1 s2 : wrongIn e s g1 s1 -> wrongIn e s g2 s2 -> g1 = g2 /\ s1 = s2.
Proof.
  intros H1 H2. destruct g1, g2; cbn [wrongIn] in *; repeat match goal with H : exists _, _ |- _ => destruct H | H : _ /\ _ |- _ => destruct H end;
    repeat match goal with H1 : ?x = Ok ?a ?b, H2 : ?x = Ok ?c ?d |- _ => lazymatch a with c => fail | _ => idtac end; rewrite H1 in H2; injection H2 as <- <- end;
    try congruence; split; congruence.
Qed.
Lemma msgL_stage e s g s' : wrongIn e s g s' -> exists l, parseMsgL e s = (Fail s', l ++ [mkerr (rest s') (stageText g)]).
Proof.
  intros H. unfold parseMsgL, bindL at 1. destruct g; cbn [wrongIn stageText] in *.
  - destruct (orErr_fail textStart parseStartLineL _ e s s' (lg_startLine _ _ _) H) as [l ->]. exists l. reflexivity.
  - destruct H as (x & H & R). rewrite (orErr_ok textStart parseStartLineL _ e s _ _ (lg_startLine _ _ _) H). unfold onRestL. rewrite R. exists []. cbn. now rewrite R.
  - destruct H as (x & s1 & H & R & Hf). rewrite (orErr_ok textStart parseStartLineL _ e s _ _ (lg_startLine _ _ _) H). unfold onRestL. destruct (rest s1) as [|y r]; [congruence|]. unfold bindL at 1.
    destruct (orErr_fail textHeaders (parseHeadersL OMsg) _ e s1 s' (lg_headers _ _ _) Hf) as [l ->]. exists l. reflexivity.
  - destruct H as (x & s1 & h & s2 & H & R & Hh & Hf). rewrite (orErr_ok textStart parseStartLineL _ e s _ _ (lg_startLine _ _ _) H). unfold onRestL. destruct (rest s1) as [|y r]; [congruence|]. unfold bindL at 1.
    rewrite (orErr_ok textHeaders (parseHeadersL OMsg) _ e s1 _ _ (lg_headers _ _ _) Hh). unfold bindL.
    destruct (orErr_fail textBody (parseMsgBodyL h) _ e s2 s' (lg_msgBody _ _ _) Hf) as [l ->]. exists l. reflexivity.
Qed.
(** When SipMsg.Parse fails, exactly one part of the message is wrong; the newest error names that part and stands at the position where the parse stopped. *)
Theorem C52_newest_error : forall e c src start pos c', start <= len src -> callOn e c AMsg src start = Some (false, pos, c') ->
  exists old x g s', cErrs c' = cErrs c ++ old ++ [x] /\ rSrc x = src /\ rPos x = pos /\ wrongIn e (mkst (skipn (N.to_nat start) src) (cUsed c)) g s' /\ rText x = stageText g /\
    (forall g' s2, wrongIn e (mkst (skipn (N.to_nat start) src) (cUsed c)) g' s2 <-> stageText g' = rText x /\ s2 = s') /\ rest s' = skipn (N.to_nat pos) src.
Proof.
  intros e c src start pos c' Hs H. destruct (C51_one_call _ _ _ _ _ _ _ _ Hs H) as ((s' & Er & Eu & Ep) & _). cbn [apiP] in Ep.
  assert (Ef : parseMsg e (mkst (skipn (N.to_nat start) src) (cUsed c)) = Fail s').
  { unfold bind in Ep. destruct (parseMsg e _) as [m s1|s1| |]; try discriminate. now injection Ep as ->. }
  destruct (msg_stages _ _ _ Ef) as [g W]. destruct (msgL_stage _ _ _ _ W) as [l El]. unfold callOn in H. cbn [apiL] in H. unfold bindL in H. rewrite El in H. injection H as <- <-. cbn [cErrs cUsed] in *.
  exists (map (record src) l), (record src (mkerr (rest s') (stageText g))), g, s'. rewrite map_app. split; [reflexivity|]. split; [reflexivity|]. split; [reflexivity|]. split; [exact W|]. split; [reflexivity|]. split; [|exact Er].
  intros g' s2. split.
  - intros W'. destruct (stages_differ _ _ _ _ _ _ W W') as [-> ->]. auto.
  - intros [Ht ->]. cbn [record rText eText] in Ht. assert (g' = g) as -> by (destruct g, g'; try reflexivity; discriminate). exact W.
Qed.
(** A multipart message whose Content-Type has no boundary: two errors, both at the end of the headers, and nothing is said before them. *)
Theorem C52_missing_boundary : forall e c src start l s1 h s2 m sb ps gs, start <= len src -> parseStartLine e (mkst (skipn (N.to_nat start) src) (cUsed c)) = Ok l s1 -> rest s1 <> [] -> parseHeaders OMsg e s1 = Ok h s2 ->
  contentTypeOf h = Some (VType m sb ps gs) -> CStringEqualNoCase m (s2b "multipart") = Some true -> boundaryParam (VType m sb ps gs) = None ->
  exists pos c' x y, callOn e c AMsg src start = Some (false, pos, c') /\ rest s2 = skipn (N.to_nat pos) src /\ cErrs c' = cErrs c ++ [x; y] /\ rText x = "no boundary for multipart body"%string /\ rText y = "parse msg body failed for sip msg"%string /\ rPos x = pos /\ rPos y = pos.
Proof.
  intros e c src start l s1 h s2 m sb ps gs Hs El Hr Eh Ec Em Eb. 
  assert (R : exists q1 q2, parseMsgL e (mkst (skipn (N.to_nat start) src) (cUsed c)) = (Fail s2, [q1; q2]) /\ q1 = mkerr (rest s2) "no boundary for multipart body" /\ q2 = mkerr (rest s2) textBody).
  { eexists _, _. split; [|split; reflexivity]. unfold parseMsgL. unfold bindL at 1. rewrite (orErr_ok textStart parseStartLineL _ e _ _ _ (lg_startLine _ _ _) El). unfold onRestL. destruct (rest s1) as [|b r] eqn:E1; [congruence|].
    unfold bindL at 1. rewrite (orErr_ok textHeaders (parseHeadersL OMsg) _ e s1 _ _ (lg_headers _ _ _) Eh). unfold bindL, orErr, parseMsgBodyL. rewrite Ec, Em, Eb. reflexivity. }
  destruct R as (q1 & q2 & R & -> & ->).
  assert (H : exists pos c', callOn e c AMsg src start = Some (false, pos, c')). { unfold callOn. cbn [apiL]. unfold bindL. rewrite R. eauto. }
  destruct H as (pos & c' & H). exists pos, c'. destruct (C51_one_call _ _ _ _ _ _ _ _ Hs H) as ((s' & Er & Eu & Ep) & _).
  unfold callOn in H. cbn [apiL] in H. unfold bindL in H. rewrite R in H. injection H as <- <-. eexists _, _. split; [unfold callOn; cbn [apiL]; unfold bindL; rewrite R; reflexivity|].
  split; [|split; [reflexivity|]; split; [reflexivity|]; split; [reflexivity|]; split; reflexivity].
  cbn [apiP] in Ep. unfold bind in Ep. rewrite <- Er. f_equal. cut (parseMsg e (mkst (skipn (N.to_nat start) src) (cUsed c)) = Fail s2); [intros Q; rewrite Q in Ep; now injection Ep|].
  unfold parseMsg, bind, onRest. rewrite El. destruct (rest s1); [congruence|]. rewrite Eh. unfold parseMsgBody. rewrite Ec, Em, Eb. reflexivity.
Qed.
Example C52_missing_boundary_case : exists pos c', callOn (exNet (Some 4000)) (mkctx [] 0) AMsg (s2b "INVITE sip:b SIP/2.0" ++ [13; 10] ++ s2b "c: Multipart/x;q" ++ [13; 10; 13; 10] ++ s2b "a") 0 = Some (false, pos, c') /\
  map rText (cErrs c') = ["no boundary for multipart body"; "parse msg body failed for sip msg"]%string /\ map rPos (cErrs c') = [42; 42] /\ pos = 42.
Proof. eexists _, _. vm_compute. auto. Qed.
Example ex_stage_line : exists pos c', callOn (exNet (Some 4000)) (mkctx [] 0) AMsg (s2b "INVITE x") 0 = Some (false, pos, c') /\
  map rText (cErrs c') = ["wrong Method for Request-Line"; "parse start-line failed for sip msg"]%string /\ pos = 8.
Proof. eexists _, _. vm_compute. auto. Qed.
Example ex_stage_headers : exists pos c', callOn (exNet (Some 4000)) (mkctx [] 0) AMsg (s2b "INVITE sip:b SIP/2.0" ++ [13; 10] ++ s2b "Max-Forwards: x") 0 = Some (false, pos, c') /\
  map rText (cErrs c') = ["parse num failed for CSeq header"; "parse headers failed for sip msg"]%string /\ map rPos (cErrs c') = [36; 36].
Proof. eexists _, _. vm_compute. auto. Qed.
(** A header line without an end says nothing itself. *)
Example ex_stage_headers_alone : exists pos c', callOn (exNet (Some 4000)) (mkctx [] 0) AMsg (s2b "INVITE sip:b SIP/2.0" ++ [13; 10] ++ s2b "Max-Forwards: 70") 0 = Some (false, pos, c') /\
  map rText (cErrs c') = ["parse headers failed for sip msg"]%string.
Proof. eexists _, _. vm_compute. auto. Qed.

(** ** C53 *)
(** Over any sequence of calls on one context: no error is ever lost; and when all the calls are ones that report, at least one error per failed call. *)
Theorem C53_errors_kept : forall e cs c oks c', Forall (fun x => snd x <= len (snd (fst x))) cs -> callsOn e c cs = Some (oks, c') ->
  List.length oks = List.length cs /\ exists new, cErrs c' = cErrs c ++ new /\
  (forallb id oks = true -> new = []) /\
  (Forall (fun x => reports (fst (fst x)) = true) cs -> (List.length (filter negb oks) <= List.length new)%nat).
Proof.
  intros e. induction cs as [|[[a src] start] cs IH]; intros c oks c' Hs H; cbn [callsOn] in H.
  - injection H as <- <-. split; [reflexivity|]. exists []. rewrite app_nil_r. auto.
  - inversion Hs as [|? ? H1 Hs']; subst. cbn [fst snd] in H1. destruct (callOn e c a src start) as [[[ok pos] c1]|] eqn:E; [|discriminate]. destruct (callsOn e c1 cs) as [[oks2 c2]|] eqn:E2; [|discriminate].
    injection H as <- <-. destruct (C51_one_call _ _ _ _ _ _ _ _ H1 E) as (_ & _ & n1 & N1 & A1 & B1 & _). destruct (IH _ _ _ Hs' E2) as (L & n2 & N2 & A2 & B2).
    split; [cbn; now rewrite L|]. exists (n1 ++ n2). rewrite N2, N1, app_assoc. split; [reflexivity|]. split.
    + cbn [forallb]. intros F. apply andb_prop in F as [F1 F2]. cbv [id] in F1. rewrite (A1 F1), (A2 F2). reflexivity.
    + intros R. inversion R as [|? ? R1 R2]; subst. cbn [fst] in R1. specialize (B2 R2). cbn [filter]. rewrite app_length. destruct ok; cbn [negb]; [lia|]. cbn [List.length].
      assert (Q : n1 <> []) by auto. destruct n1; [congruence|]. cbn. lia.
Qed.
(** So context.Errors.Len() == 0 after a session that started with no errors, exactly when every call succeeded. *)
Theorem C53_empty_iff_all_ok : forall e cs u oks c', Forall (fun x => snd x <= len (snd (fst x))) cs -> Forall (fun x => reports (fst (fst x)) = true) cs ->
  callsOn e (mkctx [] u) cs = Some (oks, c') -> (cErrs c' = [] <-> Forall (fun ok => ok = true) oks).
Proof.
  intros e cs u oks c' Hs R H. destruct (C53_errors_kept _ _ _ _ _ Hs H) as (_ & new & N & A & B). cbn [cErrs app] in N. rewrite N. specialize (B R). split.
  - intros ->. apply Forall_forall. intros ok Hi. destruct ok; [reflexivity|]. exfalso. assert (I : In false (filter negb oks)) by (apply filter_In; auto). cbn in B. destruct (filter negb oks); [destruct I|cbn in B; lia].
  - intros F. apply A. rewrite forallb_forall. intros x Hx. rewrite Forall_forall in F. now rewrite (F x Hx).
Qed.
(** A success after a failure does not clear anything. *)
Example ex_session : exists c', callsOn (exNet (Some 1000)) (mkctx [] 0) [(ASipUri, s2b "sip:a@b", 0); (ASipUri, s2b "sip:@", 0); (AMethod, s2b "BYE ", 0)] = Some ([true; false; true], c') /\ List.length (cErrs c') = 3%nat.
Proof. eexists. vm_compute. auto. Qed.

(** ** C54 *)
Definition decimal (n : N) (ds : bytes) : Prop := canonical ds /\ decVal ds = n.
(** AbnfError.Write never goes out of range. Inside the text it shows the description, the position and up to 40 bytes from there; at or after the end only the description. *)
Theorem C54_one_error : forall loc x, len (rSrc x) < two64 -> exists t, writeErr loc x = Some t /\
  (rPos x < len (rSrc x) -> exists ds shown tail, decimal (rPos x) ds /\ skipn (N.to_nat (rPos x)) (rSrc x) = shown ++ tail /\ shown <> [] /\ len shown <= 40 /\ (len shown < 40 -> tail = []) /\
     t = loc ++ s2b ": " ++ s2b (rText x) ++ s2b " at src[" ++ ds ++ s2b "]: " ++ shown) /\
  (len (rSrc x) <= rPos x -> t = loc ++ s2b ": " ++ s2b (rText x)).
Proof.
  intros loc [src pos d] Hl. cbn [rSrc rPos rText] in *. unfold writeErr. cbn [rSrc rPos rText]. destruct (N.ltb_spec pos (len src)) as [Hp|Hp]; [|eexists; split; [reflexivity|]; split; [lia|reflexivity]].
  set (num := if len src <? pos + 40 then len src - pos else 40). assert (Hn : pos + num <= len src /\ 0 < num <= 40 /\ (num < 40 -> pos + num = len src)) by (unfold num; destruct (N.ltb_spec (len src) (pos + 40)); lia).
  destruct Hn as (Hn1 & Hn2 & Hn3). unfold slice. assert (C : ((pos <=? pos + num) && (pos + num <=? len src))%bool = true) by (apply andb_true_intro; split; apply N.leb_le; lia). rewrite C.
  eexists. split; [reflexivity|]. split; [|lia]. intros _. exists (encUInt pos), (firstn (N.to_nat num) (skipn (N.to_nat pos) src)), (skipn (N.to_nat num) (skipn (N.to_nat pos) src)).
  split; [apply encUInt_canonical; lia|]. split; [symmetry; apply firstn_skipn|]. assert (Lf : len (firstn (N.to_nat num) (skipn (N.to_nat pos) src)) = num).
  { unfold len in *. rewrite firstn_length, skipn_length. lia. }
  split; [intros X; rewrite X in Lf; unfold len in Lf; cbn in Lf; lia|]. split; [lia|]. split.
  - rewrite Lf. intros X. specialize (Hn3 X). apply length_zero_iff_nil. rewrite !skipn_length. unfold len in *. lia.
  - replace (pos + num - pos) with num by lia. reflexivity.
Qed.
(** AbnfErrors.Write: newest first, numbered from 1, one line each. *)
Lemma writeFrom_some nl : forall es k, Forall (fun y => len (rSrc (snd y)) < two64) es -> exists t, writeFrom nl k es = Some t.
Proof.
  induction es as [|[loc x] es IH]; intros k F; [eexists; reflexivity|]. inversion F as [|? ? F1 F2]; subst. cbn [writeFrom]. destruct (C54_one_error loc x F1) as (t & -> & _). destruct (IH (k + 1) F2) as [r ->]. eexists. reflexivity.
Qed.
Inductive numbered (nl : bytes) : N -> list (bytes * rerr) -> bytes -> Prop :=
  | NumNil k : numbered nl k [] []
  | NumCons k loc x es ds t r : decimal k ds -> writeErr loc x = Some t -> numbered nl (k + 1) es r -> numbered nl k ((loc, x) :: es) (s2b "[" ++ ds ++ s2b "]: " ++ t ++ nl ++ r).
Theorem C54_all_errors : forall nl es, Forall (fun y => len (rSrc (snd y)) < two64) es -> N.of_nat (List.length es) < two64 -> exists t, writeErrs nl es = Some t /\ numbered nl 1 (rev es) t.
Proof.
  intros nl es F Hl. unfold writeErrs. assert (F' : Forall (fun y => len (rSrc (snd y)) < two64) (rev es)) by now apply Forall_rev. assert (L : 1 + N.of_nat (List.length (rev es)) <= two64) by (rewrite rev_length; lia).
  clear F Hl. revert F' L. generalize 1 as k. generalize (rev es) as l. clear es. induction l as [|[loc x] l IH]; intros k F L; [exists []; split; [reflexivity|constructor]|].
  inversion F as [|? ? F1 F2]; subst. cbn [List.length] in L. destruct (IH (k + 1) F2 ltac:(lia)) as (r & Er & Nr). cbn [writeFrom]. destruct (C54_one_error loc x F1) as (t & Et & _). rewrite Et, Er.
  eexists. split; [reflexivity|]. constructor; [apply encUInt_canonical; lia|exact Et|exact Nr].
Qed.
Example ex_write : writeErrs [10] [(s2b "f.go:7", mkrerr (s2b "sip:a@b:70000") 13 "bad"); (s2b "g.go:9", mkrerr (s2b "INVITE x") 7 "worse")] = Some (s2b "[1]: g.go:9: worse at src[7]: x" ++ [10] ++ s2b "[2]: f.go:7: bad" ++ [10]).
Proof. vm_compute. reflexivity. Qed.

Print Assumptions C51_one_call.
Print Assumptions C51_tel_uri.
Print Assumptions C51_addresses.
Print Assumptions C51_encode.
Print Assumptions C52_newest_error.
Print Assumptions C52_missing_boundary.
Print Assumptions C53_errors_kept.
Print Assumptions C53_empty_iff_all_ok.
Print Assumptions C54_one_error.
Print Assumptions C54_all_errors.
