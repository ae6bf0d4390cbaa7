(** How much memory each parser needs (see Nine.v). *)
From Verif Require Import Base Charset CharsetSpec CharsetProofs BaseLemmas Num Lws LwsProofs Str StrSpec StrProofs Monad Good Seq Thrift IndexTree IndexProofs MethodTree HeaderTree Lookup NameSpec NameProofs
  Host HostProofs Uri Tel GenParam Addr AddrProofs StartLine StartLineProofs Headers HeadersProofs RawHeaders RawProofs Msg MsgProofs Inv Room Nine.
From Coq Require Import ZArith.
Local Open Scope Z_scope.

Create HintDb nine.
#[export] Hint Extern 1 (nineAt _ (paCString _) _ _) => apply n_cstring : nine.
#[export] Hint Extern 1 (nineAt _ (paTelNumber _) _ _) => apply n_tel : nine.
#[export] Hint Extern 1 (nineAt _ (paEscapable _) _ _) => apply n_esc : nine.
#[export] Hint Extern 1 (nineAt _ (paEscapableEmpty _) _ _) => apply n_escEmpty : nine.
#[export] Hint Extern 1 (nineAt _ paQuoted _ _) => apply n_quoted : nine.
#[export] Hint Extern 1 (nineAt _ pSWS _ _) => apply n_SWS : nine.
#[export] Hint Extern 1 (nineAt _ pLWS _ _) => apply n_LWS : nine.
#[export] Hint Extern 1 (nineAt _ pHcolon _ _) => apply n_Hcolon : nine.
#[export] Hint Extern 1 (nineAt _ (pSWSMark _) _ _) => apply n_Mark : nine.
#[export] Hint Extern 1 (nineAt _ (pSWSMarkCanOmmit _) _ _) => apply n_Omit : nine.
#[export] Hint Extern 1 (nineAt _ pLeftAngleQuote _ _) => apply n_LAQ : nine.
#[export] Hint Extern 1 (nineAt _ pRightAngleQuote _ _) => apply n_RAQ : nine.
#[export] Hint Extern 1 (nineAt _ pCRLF _ _) => apply n_CRLF : nine.

Ltac zz := cbn beta iota; unfold tok; zl.
Ltac nn1 :=
  lazymatch goal with
  | |- nine _ _ _ => intro
  | |- nineAt _ (onRest _) _ _ => apply n_onRest
  | |- nineAt _ (withEnv _) _ _ => apply n_withEnv; [reflexivity|intro]
  | |- nineAt _ (ret _) _ _ => apply n_ret; zz
  | |- nineAt _ pfail _ _ => apply n_pfail
  | |- nineAt _ panic _ _ => apply n_panic
  | |- nineAt _ (goto _) _ _ => apply n_gotoEnd; zz
  | |- nineAt _ (bind (goto _) _) _ _ => apply n_goto
  | |- nineAt _ (bind (allocStruct _) _) _ _ => apply n_alloc; [zz|]
  | |- nineAt _ (match ?x with _ => _ end) _ _ => first [is_var x; destruct x|destruct x eqn:?]
  | |- nineAt _ (bind _ _) _ _ => eapply n_bind; [solve [auto 1 with nine]|zz|intros]
  | |- nineAt _ _ _ _ => eapply n_weak; [solve [auto 1 with nine]|zz|intros; zz]
  end.
Ltac nn := repeat nn1.

Lemma n_UInt : nine pUInt 0 (fun _ => -9).
Proof. unfold pUInt. nn. apply ParseUInt_suffix in Heqo as [_ K]. unfold L, len. lia. Qed.
#[export] Hint Extern 1 (nineAt _ pUInt _ _) => apply n_UInt : nine.
Lemma n_UIntW w : nine (pUIntW w) 0 (fun _ => -9).
Proof. unfold pUIntW. nn. Qed.
#[export] Hint Extern 1 (nineAt _ (pUIntW _) _ _) => apply n_UIntW : nine.
Lemma n_expect c : nine (expect c) 0 (fun _ => -9).
Proof. unfold expect. nn. Qed.
#[export] Hint Extern 1 (nineAt _ (expect _) _ _) => apply n_expect : nine.

Lemma octet_L r v r' : octet r = Some (v, r') -> L r' + 1 <= L r.
Proof. unfold octet. destruct (ParseUInt r) as [[[n k] q]|] eqn:E; [|discriminate]. apply ParseUInt_suffix in E as [_ K]. destruct (255 <? n)%N; [discriminate|]. intros [= <- <-]. unfold L, len. lia. Qed.
Lemma quad_L r a b c d r' : parseIpv4 r = Some (a, b, c, d, r') -> L r' + 1 <= L r.
Proof.
  unfold parseIpv4. destruct (octet r) as [[w r1]|] eqn:E; [|discriminate]. apply octet_L in E.
  assert (D : forall q v q', dotOctet q = Some (v, q') -> L q' <= L q).
  { intros [|y q] v q'; [discriminate|]. cbn [dotOctet]. destruct (y =? 46)%N; [|discriminate]. intros H. apply octet_L in H. ln. lia. }
  destruct (dotOctet r1) as [[w1 r2]|] eqn:E1; [|discriminate]. destruct (dotOctet r2) as [[w2 r3]|] eqn:E2; [|discriminate]. destruct (dotOctet r3) as [[w3 r4]|] eqn:E3; [|discriminate].
  apply D in E1, E2, E3. destruct r4 as [|y q]; [|destruct (IsHostname y); [discriminate|]]; intros [= <- <- <- <- <-]; ln; lia.
Qed.
Lemma n_host : nine parseHost 16 (fun _ => -2).
Proof.
  assert (Hn : nine parseHostname 16 (fun _ => -2)) by (unfold parseHostname; nn).
  unfold parseHost, parseIpv6. intros r. apply n_onRest. destruct r as [|x r1]; [nn|]. destruct (x =? 91)%N.
  - apply n_goto, n_onRest. destruct (span (fun x0 => negb (x0 =? 93)%N) r1) as [t r2] eqn:Es. apply span_L in Es. nn.
  - destruct (IsAlpha x); [apply Hn|]. destruct (parseIpv4 (x :: r1)) as [[[[[a b] c] d] r2]|] eqn:E; [|apply Hn]. apply quad_L in E. nn.
Qed.
#[export] Hint Extern 1 (nineAt _ parseHost _ _) => apply n_host : nine.
Lemma n_hostPort : nine parseHostPort 16 (fun _ => -2).
Proof. unfold parseHostPort. nn. Qed.
#[export] Hint Extern 1 (nineAt _ parseHostPort _ _) => apply n_hostPort : nine.

Lemma n_uriParam cn cv : nine (parseUriParam cn cv) 2 (fun p => tok (upName p)).
Proof. unfold parseUriParam. nn; cbn [upName]; zz. Qed.
#[export] Hint Extern 1 (nineAt _ (parseUriParam _ _) _ _) => apply n_uriParam : nine.

(** The names of a table are long enough to pay for it. *)
Definition cheap (names : list bytes) : Prop := Forall (fun x => 2 * Z.of_nat (List.length names) + 1 <= 8 * L x) names /\ 2 * Z.of_nat (List.length names) <= 12.
Lemma equalNoCase_L n x : equalNoCase n x = true -> L n = L x.
Proof. unfold equalNoCase, CStringEqualNoCase. destruct (Nat.eqb_spec (List.length x) (List.length n)) as [E|E]; [|discriminate]. intros _. unfold L, len. now rewrite E. Qed.
Lemma findName_L names n : forall i j, findName names n i = Some j -> exists x, In x names /\ L n = L x.
Proof.
  induction names as [|x names IH]; intros i j; [discriminate|]. cbn [findName]. destruct (equalNoCase n x) eqn:E.
  - intros _. exists x. split; [left; reflexivity|now apply equalNoCase_L].
  - intros H. destruct (IH _ _ H) as (y & I1 & I2). exists y. split; [now right|exact I2].
Qed.
Definition known8 (n : bytes) : Z := Z.max 0 (8 * L n - 1).
Lemma n_setKnown {A} names (name : A -> bytes) t p : cheap names -> nine (setKnown names name t p) 12 (fun _ => known8 (name p)).
Proof.
  intros [H1 H2] r. unfold setKnown, known8. destruct (findName names (name p) 0) as [i|] eqn:E; [|nn]. destruct t as [tbl|]; [nn|].
  apply findName_L in E as (x & I1 & E). rewrite Forall_forall in H1. apply H1 in I1. rewrite <- E in I1. intros e s Hs. unfold phi. rewrite Hs. split.
  - intros m Hm Hr. rewrite leMem_none, (room_le _ _ _ Hm); [reflexivity|]. pose proof (L_pos r). lia.
  - destruct (leMem e _); [|destruct (Nat.ltb i 4); [|discriminate]]; intros a s' [= <- <-]; cbn [rest used]; rewrite ?Hs; pose proof (L_pos r); lia.
Qed.
Lemma n_addParam {A} b names (name : A -> bytes) a p : cheap names -> nine (addParam b names name a p) 12 (fun _ => known8 (name p)).
Proof.
  intros H r. unfold addParam. destruct b; [|apply n_ret; unfold known8; lia]. eapply n_bind; [apply n_setKnown, H|lia|]. intros o r'. apply n_ret. lia.
Qed.
Lemma cheap_uri : cheap sipUriKnownNames. Proof. split; [repeat constructor|reflexivity]; vm_compute; discriminate. Qed.
Lemma cheap_tel : cheap telKnownNames. Proof. split; [repeat constructor|]; vm_compute; discriminate. Qed.
Lemma cheap_hdr k : cheap (knownNames k). Proof. split; destruct k; repeat constructor; vm_compute; discriminate. Qed.
Lemma cheap_no : cheap []. Proof. split; [constructor|]; vm_compute; discriminate. Qed.
Lemma n_sipUriSet a p : nine (sipUriSet a p) 12 (fun _ => known8 (upName p)).
Proof. intros r. unfold sipUriSet. apply n_withEnv; [reflexivity|]. intros e. apply n_addParam, cheap_uri. Qed.
Lemma n_telSet a p : nine (telSet a p) 12 (fun _ => known8 (upName p)).
Proof.
  intros r. unfold telSet. destruct (equalNoCase _ _).
  - nn; unfold known8; lia.
  - eapply n_bind; [apply n_withEnv; [reflexivity|]; intros e; apply n_addParam, cheap_tel|lia|]. intros b r'. apply n_ret. lia.
Qed.
Lemma n_contIf {A} c (a : A) : nine (contIf c a) 0 (fun x => match x with inl _ => -9 | inr _ => 0 end).
Proof. unfold contIf. nn. Qed.
Lemma n_sepLoop {A} c (one : A -> P A) a0 : (forall a, nine (one a) 20 (fun _ => 7)) -> nine (sepLoop c one a0) 20 (fun _ => 7).
Proof.
  intros H r0. unfold sepLoop. apply n_loop. intros a q. apply n_onRest. destruct q as [|x q]; [nn|]. eapply n_bind; [apply H|lia|]. intros b r'.
  eapply n_weak; [apply n_contIf|lia|]. intros [y|y]; lia.
Qed.
Lemma n_uriParams {S} cn cv (set : S -> uparam -> P S) a : (forall a p, nine (set a p) 12 (fun _ => known8 (upName p))) -> nine (parseUriParams cn cv set a) 20 (fun _ => 7).
Proof.
  intros H r. unfold parseUriParams. apply n_onRest. destruct r as [|x r]; [nn|]. apply n_sepLoop. intros b q. unfold uriParamOne. apply n_alloc; [zz|].
  eapply n_bind; [apply n_uriParam|zz|]. intros p r'. eapply n_weak; [apply H|zz|]. intros y. unfold known8. zz.
Qed.
Lemma n_uriHeaders : nine parseUriHeaders 20 (fun _ => 7).
Proof. intros r. unfold parseUriHeaders. apply n_onRest. destruct r as [|x r]; [nn|]. apply n_sepLoop. intros b q. unfold uriHeaderOne, parseUriHeader. apply n_alloc; [zz|].
  eapply n_bind with (D1 := 2) (C1 := fun _ => 0).
  - nn.
  - lia.
  - intros. nn.
Qed.
#[export] Hint Extern 1 (nineAt _ parseUriHeaders _ _) => apply n_uriHeaders : nine.
#[export] Hint Extern 1 (nineAt _ (parseUriParams _ _ sipUriSet _) _ _) => (apply n_uriParams; intros; apply n_sipUriSet) : nine.
#[export] Hint Extern 1 (nineAt _ (parseUriParams _ _ telSet _) _ _) => (apply n_uriParams; intros; apply n_telSet) : nine.
Lemma n_password : nine parsePassword 2 (fun _ => 0).
Proof. unfold parsePassword. nn. Qed.
#[export] Hint Extern 1 (nineAt _ parsePassword _ _) => apply n_password : nine.
Lemma n_userinfo : nine parseUserinfo 2 (fun _ => 0).
Proof. unfold parseUserinfo. nn. Qed.
#[export] Hint Extern 1 (nineAt _ parseUserinfo _ _) => apply n_userinfo : nine.
Lemma n_uriAfter b : nine (parseUriAfterScheme b) 20 (fun _ => -2).
Proof.
  unfold parseUriAfterScheme. intros r. eapply n_bind; [apply n_userinfo|lia|]. intros up r1. eapply n_bind; [apply n_hostPort|lia|]. intros h r2. apply n_onRest. destruct r2 as [|x r3]; [nn|].
  eapply n_bind with (D1 := 20) (C1 := fun _ => 0); [|lia|].
  - nn.
  - intros kp r4. nn.
Qed.
#[export] Hint Extern 1 (nineAt _ (parseUriAfterScheme _) _ _) => apply n_uriAfter : nine.
Lemma n_uriAfterNo b : nine (parseUriAfterSchemeNoParam b) 20 (fun _ => -2).
Proof. unfold parseUriAfterSchemeNoParam. nn. Qed.
#[export] Hint Extern 1 (nineAt _ (parseUriAfterSchemeNoParam _) _ _) => apply n_uriAfterNo : nine.
Lemma n_sipUri : nine parseSipUri 20 (fun _ => -38).
Proof.
  unfold parseSipUri. intros r. eapply n_bind with (D1 := 0) (C1 := fun _ => -36); [|lia|].
  - unfold parseSipScheme. nn.
  - intros b r'. nn.
Qed.
Lemma n_telNumber : nine parseTelNumber 2 (fun _ => -6).
Proof. unfold parseTelNumber. nn. Qed.
#[export] Hint Extern 1 (nineAt _ parseTelNumber _ _) => apply n_telNumber : nine.
Lemma n_telAfter : nine parseTelAfterScheme 20 (fun _ => -6).
Proof. unfold parseTelAfterScheme. nn. Qed.
#[export] Hint Extern 1 (nineAt _ parseTelAfterScheme _ _) => apply n_telAfter : nine.
Lemma n_telAfterNo : nine parseTelAfterSchemeNoParam 20 (fun _ => -6).
Proof. unfold parseTelAfterSchemeNoParam. nn. Qed.
#[export] Hint Extern 1 (nineAt _ parseTelAfterSchemeNoParam _ _) => apply n_telAfterNo : nine.
Lemma n_telUri : nine parseTelUri 20 (fun _ => -42).
Proof.
  unfold parseTelUri. intros r. eapply n_bind with (D1 := 0) (C1 := fun _ => -36); [|lia|].
  - unfold parseTelScheme. nn.
  - intros b r'. nn.
Qed.

Lemma cutAfter_L c r a b : cutAfter c r = Some (a, b) -> L r = L a + L b.
Proof. intros H. apply cutAfter_some in H as (x & -> & -> & _). ln. lia. Qed.
Lemma n_slice t r' r D C : L t + L r' <= L r -> L t + 2 <= D + 9 * L r -> (forall b, 2 + L t + 9 * (L r' - L r) <= C b) -> nineAt r (paSlice t r') D C.
Proof.
  intros H1 H2 H3. unfold paSlice. intros e s Hs. unfold bind, allocCString, phi. rewrite Hs. split.
  - intros m Hm Hr. rewrite leMem_none, (room_le _ _ _ Hm); [reflexivity|]. unfold L in *. lia.
  - destruct (leMem e _); [|discriminate]. unfold goto, ret. intros a s' [= <- <-]. cbn [rest used]. specialize (H3 t). unfold L in *. lia.
Qed.
Lemma n_genValue : nine parseGenValue 2 (fun _ => -6).
Proof.
  unfold parseGenValue. intros r. apply n_onRest. destruct r as [|v r]; [nn|]. destruct (IsSipToken v); [nn|]. destruct (_ || _)%bool; [nn|]. destruct (v =? 91)%N; [|nn].
  destruct (cutAfter 93 (v :: r)) as [[t r']|] eqn:E; [|nn]. assert (K := cutAfter_L _ _ _ _ E). apply cutAfter_some in E as (y & -> & _ & _). pose proof (L_pos r').
  eapply n_bind with (D1 := 2) (C1 := fun _ => -6); [|lia|].
  - apply n_slice; intros; zz.
  - intros. nn.
Qed.
#[export] Hint Extern 1 (nineAt _ parseGenValue _ _) => apply n_genValue : nine.
Lemma n_genParam : nine parseGenParam 2 (fun p => tok (gpName p)).
Proof. unfold parseGenParam. nn; cbn [gpName]; zz. Qed.
#[export] Hint Extern 1 (nineAt _ parseGenParam _ _) => apply n_genParam : nine.
Lemma n_genParams sep on names : cheap names -> (forall e m, on (withMem m e) = on e) -> nine (parseGenParams sep on names) 20 (fun _ => 0).
Proof.
  intros H Hon r0. unfold parseGenParams. apply n_loop. intros a r. unfold gpBody. apply n_onRest. destruct r as [|x r]; [nn|]. destruct (IsOnlyCRLF _); [nn|]. destruct (_ && _)%bool; [nn|].
  destruct (ParseSWSMarkCanOmmit sep (x :: r)) as [[r' mt] ok] eqn:E. apply omit_L in E. destruct mt, ok; nn.
  eapply n_bind; [apply n_withEnv; [intros; now rewrite Hon|]; intros e; apply n_addParam, H|zz|]. intros. apply n_ret. unfold known8. zz.
Qed.
Lemma n_params k : nine (parseParams k) 20 (fun _ => 0).
Proof. unfold parseParams. apply n_genParams; [apply cheap_hdr|]. intros. destruct k; reflexivity. Qed.
#[export] Hint Extern 1 (nineAt _ (parseParams _) _ _) => apply n_params : nine.

Definition schemeCost (s : uscheme) : Z := match s with UUrn | UAbsolute => 0 | _ => -36 end.
Lemma n_other : nine otherScheme 2 schemeCost.
Proof. unfold otherScheme. nn; cbn [schemeCost]; zz. Qed.
Lemma n_scheme : nine parseScheme 2 schemeCost.
Proof. unfold parseScheme. intros r. apply n_onRest. nn; try apply n_other; cbn [schemeCost]; zz. Qed.
#[export] Hint Extern 1 (nineAt _ parseScheme _ _) => apply n_scheme : nine.
Lemma n_spec ps s : nine (parseSpec ps s) (2 - schemeCost s) (fun _ => 16).
Proof. intros r. destruct s; destruct ps; cbv beta iota delta [parseSpec]; nn; cbn [schemeCost]; zz. Qed.
Lemma n_addrSpec : nine parseAddrSpec 20 (fun _ => -20).
Proof.
  intros r. unfold parseAddrSpec. eapply n_bind; [apply n_scheme|zz|]. intros s r1. destruct s; cbn [schemeCost]; try (cbn [parseSpec]; apply n_bind with (D1 := 0) (C1 := fun _ => -100); [nn|zz|intros; nn]; fail);
  (eapply n_bind; [apply n_spec|cbn [schemeCost]; zz|intros; nn]).
Qed.

(** A display name written as tokens: the run has at least [T] bytes, which pay for its copy. *)
Lemma tokens_pure : forall f e e' s, iterP f tokensBody tt e s = iterP f tokensBody tt e' s /\
  (forall a s', iterP f tokensBody tt e s = Ok a s' -> used s' = used s /\ suffix (rest s') (rest s)).
Proof.
  induction f as [|f IH]; intros e e' s; [split; [reflexivity|discriminate]|]. cbn [iterP]. unfold tokensBody, bind, onRest. destruct (rest s) as [|x r] eqn:R.
  - split; [reflexivity|]. intros a s' [= <- <-]. split; [reflexivity|]. rewrite R. apply suffix_refl.
  - destruct (negb (IsSipToken x)).
    + split; [reflexivity|]. intros a s' [= <- <-]. split; [reflexivity|]. rewrite R. apply suffix_refl.
    + pose proof (ParseLWS_suffix (snd (span (inset SIP_TOKEN) (x :: r)))) as S1. destruct (ParseLWS _) as [r1 [|]]; [|split; [reflexivity|discriminate]]. unfold goto, ret. cbn [fst] in S1.
      destruct (IH e e' (mkst r1 (used s))) as [I1 I2]. split; [exact I1|]. intros a s' H. destruct (I2 _ _ H) as [I3 I4]. cbn [rest used] in *. split; [exact I3|].
      eapply suffix_trans; [exact I4|]. eapply suffix_trans; [exact S1|]. apply suffix_span.
Qed.
Lemma n_tokens r D C : let T := L (fst (span (inset SIP_TOKEN) r)) in 2 - 8 * T <= D -> (forall b, 2 - 8 * T <= C b) -> nineAt r parseTokens D C.
Proof.
  intros T HD HC e s Hs. destruct (tokens_pure (S (List.length (rest s))) e (withMem None e) s) as [E1 E2].
  pose proof (tokens_eat e s) as Eat. rewrite Hs in Eat. revert Eat.
  unfold parseTokens, onRest, bind, loopP, phi. rewrite <- E1. rewrite Hs in *.
  destruct (iterP _ tokensBody tt e s) as [a s1|s1| |] eqn:EI; [|split; [reflexivity|discriminate]..].
  destruct (E2 _ _ eq_refl) as [U Su]. unfold storeSince, onRest, allocCString. intros Eat.
  assert (LF : L (firstn (List.length r - List.length (rest s1)) r) = L r - L (rest s1)).
  { apply suffix_length in Su. unfold L, len. rewrite firstn_length. lia. }
  assert (LT : T <= L r). { unfold T. pose proof (span_len (inset SIP_TOKEN) r). unfold L. lia. }
  split.
  - intros m Hm Hr. rewrite leMem_none, (room_le _ _ _ Hm); [reflexivity|]. rewrite U. pose proof (L_pos (rest s1)). unfold L in *. lia.
  - intros b s'. specialize (Eat b s'). unfold storeSince, onRest, allocCString in Eat. destruct (leMem e _); [|discriminate]. intros H. specialize (Eat H). injection H as <- <-. cbn [rest used] in *.
    rewrite U. match goal with |- context [C ?b] => specialize (HC b) end. unfold T, L in *. lia.
Qed.
Lemma token_run x r : IsSipToken x = true -> 1 <= L (fst (span (inset SIP_TOKEN) (x :: r))).
Proof. unfold IsSipToken. intros H. cbn [span]. rewrite H. destruct (span _ r) as [a b]. cbn [fst]. ln. pose proof (L_pos a). lia. Qed.
Lemma n_display : nine parseDisplayName 2 (fun _ => 0).
Proof.
  intros r. unfold parseDisplayName. apply n_onRest. destruct r as [|x r]; [nn|]. destruct (IsSipToken x) eqn:E; [|nn]. pose proof (token_run x r E).
  eapply n_bind; [apply (n_tokens (x :: r) 2 (fun _ => -6)); intros; lia|lia|]. intros. nn.
Qed.
Definition nameTail (n : option (bool * bytes)) : P addr := s <- parseScheme ;; u <- parseSpec true s ;; pRightAngleQuote ;;; ret (mkaddr true n u).
Lemma n_nameTail n : nine (nameTail n) 20 (fun _ => -29).
Proof.
  intros r. unfold nameTail. eapply n_bind; [apply n_scheme|zz|]. intros s r1. destruct s; cbn [schemeCost]; try (cbn [parseSpec]; apply n_bind with (D1 := 0) (C1 := fun _ => -100); [nn|zz|intros; eapply n_bind; [apply n_RAQ|zz|]; intros; nn]; fail);
  (eapply n_bind; [apply n_spec|cbn [schemeCost]; zz|intros; nn]).
Qed.
Lemma n_nameAddr : nine parseNameAddr 20 (fun _ => -38).
Proof.
  intros r. unfold parseNameAddr. eapply n_bind; [apply n_SWS|lia|]. intros y r1. eapply n_bind with (D1 := 20) (C1 := fun _ => -9); [|lia|].
  - apply n_onRest. destruct r1 as [|x r2]; [nn|]. destruct (negb _); [|nn]. eapply n_bind; [apply n_display|lia|]. intros. nn.
  - intros n r2. eapply n_weak; [apply (n_nameTail n)|lia|intros; lia].
Qed.
Lemma n_noSWS {A} r (q : P A) D C : ParseSWS_2 r = r -> nineAt r q D C -> nineAt r (pSWS ;;; q) D C.
Proof.
  intros E H e s Hs. unfold bind, pSWS. rewrite Hs, E. replace (mkst r (used s)) with s by (rewrite <- Hs; destruct s; reflexivity). exact (H e s Hs).
Qed.
Lemma n_nameAddr_scheme r : nineAt r parseNameAddr (20 - Z.of_N (schemeRun r)) (fun _ => -22 - Z.of_N (schemeRun r)).
Proof.
  unfold schemeRun. destruct r as [|x r]; [eapply n_weak; [apply n_nameAddr|lia|intros; lia]|]. destruct (IsAlpha x) eqn:Ex; [|eapply n_weak; [apply n_nameAddr|lia|intros; lia]].
  destruct (alpha_scheme x Ex) as (X1 & X2 & X3). pose proof (span_sub (inset URI_SCHEME) (inset SIP_TOKEN) (x :: r) scheme_token) as HS. pose proof (scheme_token _ X1) as HT.
  assert (T1 := token_run x r HT). set (q := len (fst (span (inset URI_SCHEME) (x :: r)))) in *.
  unfold parseNameAddr. apply n_noSWS; [apply ParseSWS_noop; cbn; now rewrite X2|]. set (T := L (fst (span (inset SIP_TOKEN) (x :: r)))) in *. assert (Hq : Z.of_N q <= T) by (unfold T, L; lia).
  eapply n_bind with (D1 := 20 - Z.of_N q) (C1 := fun _ => - 7 - 8 * T); [|lia|].
  - apply n_onRest. rewrite (proj2 (N.eqb_neq x 60) X3). cbn [negb]. eapply n_bind with (D1 := 20 - Z.of_N q) (C1 := fun _ => 2 - 8 * T); [|lia|].
    + unfold parseDisplayName. apply n_onRest. unfold IsSipToken. rewrite HT. eapply n_bind; [apply (n_tokens (x :: r) (20 - Z.of_N q) (fun _ => 2 - 8 * T)); intros; unfold T in *; lia|lia|]. intros. nn.
    + intros. eapply n_bind; [apply n_LAQ|lia|]. intros. nn.
  - intros n r2. eapply n_weak; [apply (n_nameTail n)|lia|intros; lia].
Qed.
Lemma n_orRestore {A} r (p q : P A) D C Y : (forall e s s', rest s = r -> p e s = Fail s' -> Z.of_N (used s') <= Z.of_N (used s) + Y) -> nineAt r p D C -> nineAt r q (D - Y) (fun a => C a - Y) ->
  nineAt r (orRestore p q) D C.
Proof.
  intros HF Hp Hq e s Hs. destruct (Hp e s Hs) as [S1 K1]. unfold orRestore. split.
  - intros m Hm Hr. rewrite (S1 m Hm Hr). destruct (p (withMem None e) s) as [a s1|s1| |] eqn:E; try reflexivity. specialize (HF _ _ _ Hs E).
    destruct (Hq e (mkst (rest s) (used s1)) Hs) as [S2 _]. apply (S2 m Hm). unfold phi in *. cbn [rest used]. lia.
  - intros a s' H. destruct (p e s) as [b s1|s1| |] eqn:E; try discriminate; [injection H as <- <-; exact (K1 _ _ eq_refl)|]. specialize (HF _ _ _ Hs E).
    destruct (Hq e (mkst (rest s) (used s1)) Hs) as [_ K2]. specialize (K2 _ _ H). unfold phi in *. cbn [rest used] in *. lia.
Qed.
Lemma n_addr ps : nine (parseAddr ps) 22 (fun _ => -20).
Proof.
  intros r. unfold parseAddr. apply n_onRest. destruct r as [|x r]; [nn|]. destruct (_ || _)%bool; [eapply n_weak; [apply n_nameAddr|lia|intros; lia]|].
  eapply n_bind with (D1 := 22) (C1 := fun o => match o with inl s => schemeCost s | inr _ => -20 end); [|lia|].
  - apply n_orRestore with (Y := 2 + Z.of_N (schemeRun (x :: r))).
    + intros e s s' Hs H. unfold bind in H. destruct (parseScheme e s) as [y s1|s1| |] eqn:E; try discriminate. injection H as <-. apply scheme_fail in E. rewrite Hs in E. lia.
    + eapply n_bind; [apply n_scheme|lia|]. intros s r1. apply n_ret. lia.
    + eapply n_bind; [apply n_nameAddr_scheme|lia|]. intros a r1. apply n_ret. lia.
  - intros [s|a] r1; [|apply n_ret; lia]. destruct s; cbn [schemeCost];
    try (cbn [parseSpec]; apply n_bind with (D1 := 0) (C1 := fun _ => -100); [nn|zz|intros; nn]; fail); (eapply n_bind; [apply n_spec|cbn [schemeCost]; zz|intros; nn]).
Qed.
#[export] Hint Extern 1 (nineAt _ (parseAddr _) _ _) => apply n_addr : nine.
#[export] Hint Extern 1 (nineAt _ parseNameAddr _ _) => apply n_nameAddr : nine.
#[export] Hint Extern 1 (nineAt _ parseAddrSpec _ _) => apply n_addrSpec : nine.

(** ** Start lines *)
Lemma n_method : nine parseMethod 2 (fun _ => 0).
Proof.
  intros r. unfold parseMethod. apply n_onRest. destruct (GetSipMethodIndex r) as [[i mid]|] eqn:E; [|nn]. apply method_skips in E as (p & -> & _).
  assert (Su : suffix mid (p ++ mid)) by (exists p; reflexivity). destruct (_ =? _)%N; [|nn]. eapply n_bind; [apply n_fromPos, Su|lia|]. intros. nn.
Qed.
#[export] Hint Extern 1 (nineAt _ parseMethod _ _) => apply n_method : nine.
Lemma n_digits r : nineAt r (versionDigits r) 2 (fun _ => 0).
Proof.
  unfold versionDigits. destruct (span (inset DIGIT) r) as [a b] eqn:E. apply span_app in E. destruct a as [|y a]; [nn|]. destruct b as [|x b]; [nn|]. destruct (negb _); [nn|]. subst r.
  eapply n_bind; [apply n_fromPos; exists ((y :: a) ++ [x]); rewrite <- app_assoc; reflexivity|lia|]. intros. nn.
Qed.
Lemma n_versionAfter : nine parseVersionAfter 2 (fun _ => 0).
Proof. intros r. unfold parseVersionAfter. apply n_onRest. nn; apply n_digits. Qed.
#[export] Hint Extern 1 (nineAt _ parseVersionAfter _ _) => apply n_versionAfter : nine.
Lemma versionStart_L r q : versionStart r = Some q -> L q + 4 = L r.
Proof.
  unfold versionStart. destruct r as [|a [|b [|c [|d [|x [|y [|z q']]]]]]]; try discriminate. destruct (_ && _)%bool; [|discriminate]. intros [= <-]. ln. lia.
Qed.
Lemma n_version : nine parseVersion 2 (fun _ => -36).
Proof. intros r. unfold parseVersion. apply n_onRest. destruct (versionStart r) as [q|] eqn:E; [|nn]. apply versionStart_L in E. nn. Qed.
#[export] Hint Extern 1 (nineAt _ parseVersion _ _) => apply n_version : nine.
Lemma n_startLine : nine parseStartLine 20 (fun _ => -18).
Proof.
  intros r. unfold parseStartLine. apply n_onRest. destruct (versionStart r) as [q|] eqn:E.
  - apply versionStart_L in E. unfold parseStatusLine. nn.
  - unfold parseRequestLine. nn.
Qed.
#[export] Hint Extern 1 (nineAt _ parseStartLine _ _) => apply n_startLine : nine.

(** ** Headers *)
Lemma n_otherProtocol : nine otherProtocol 20 (fun _ => -20).
Proof. unfold otherProtocol. nn. Qed.
Lemma n_sentProtocol : nine parseSentProtocol 20 (fun _ => -20).
Proof. intros r. unfold parseSentProtocol. apply n_onRest. nn; apply n_otherProtocol. Qed.
#[export] Hint Extern 1 (nineAt _ parseSentProtocol _ _) => apply n_sentProtocol : nine.
Lemma n_fromTo k : nine (parseFromTo k) 22 (fun _ => -20).
Proof. unfold parseFromTo. nn. Qed.
#[export] Hint Extern 1 (nineAt _ (parseFromTo _) _ _) => apply n_fromTo : nine.
(** What the value of a header of this type leaves over for the struct that holds it. *)
Definition valueCost (k : hkind) : Z :=
  match k with
  | KFrom | KTo => -20 | KVia => -26 | KContact => -9 | KRoute | KRecordRoute | KPath | KServiceRoute => -38 | KPai => -20 | KCSeq => -9 | KRAck => -18
  | KRSeq | KExpires | KMaxForwards | KContentLength => -9 | KContentType => -21 | KContentDisposition => -6 | KCallID => -6
  end.
Lemma n_hval k : nine (parseHVal k) 22 (fun _ => valueCost k).
Proof.
  destruct k; cbn [parseHVal valueCost]; unfold parseVia, parseContact, parseRoute, parsePai, parseCSeq, parseRAck, parseNum, parseContentType, parseContentDisposition, parseCallID; nn.
Qed.
Lemma n_sipX k : nine (parseSipX k) 40 (fun _ => match k with KContact => 9 | _ => 0 end).
Proof.
  intros r. unfold parseSipX. destruct k; (apply n_alloc; [cbn [hvalSize]; zz|]; eapply n_weak; [apply n_hval|cbn [hvalSize]; zz|intros a; cbn [hvalSize valueCost]; zz]).
Qed.
Lemma n_header k : nine (parseHeader k) 22 (fun _ => -9 + valueCost k).
Proof.
  intros r. unfold parseHeader. eapply n_bind with (D1 := 0) (C1 := fun _ => 0); [|lia|].
  - unfold parseHName. apply n_onRest. destruct (firstMatch _ r) as [r'|] eqn:E; [|nn]. apply firstMatch_suffix, L_suffix in E. nn.
  - intros. eapply n_bind; [apply n_Hcolon|lia|]. intros. eapply n_weak; [apply n_hval|lia|]. intros. zz.
Qed.

(** ** Header blocks *)
Lemma n_rawValue : nine rawValue 2 (fun _ => -7).
Proof.
  intros r. unfold rawValue. apply n_onRest. destruct (FindCrlf r) as [[v r']|] eqn:E; [|nn]. apply FindCrlf_suffix in E as (_ & _ & E). apply n_goto.
  assert (K : L v + L r' + 1 <= L r) by (unfold L; lia). eapply n_weak; [apply (n_allocCString r' v (2 + L v)); zz|zz|]. intros. zz.
Qed.
#[export] Hint Extern 1 (nineAt _ rawValue _ _) => apply n_rawValue : nine.
Lemma n_headerName : nine parseHeaderName 2 (fun _ => -9).
Proof.
  intros r. unfold parseHeaderName. apply n_onRest. destruct (GetSipHeaderIndex r) as [[i mid]|] eqn:E; [|nn]. apply header_skips in E as (p & -> & _).
  assert (Su : suffix mid (p ++ mid)) by (exists p; reflexivity). eapply n_bind with (D1 := 2) (C1 := fun _ => 0); [|lia|].
  - destruct (_ =? _)%N; [|nn]. eapply n_bind; [apply n_fromPos, Su|lia|]. intros. nn.
  - intros. nn.
Qed.
#[export] Hint Extern 1 (nineAt _ parseHeaderName _ _) => apply n_headerName : nine.
Lemma n_rawHeader n i : nine (rawHeader n i) 10 (fun _ => 1).
Proof. unfold rawHeader. nn. Qed.
#[export] Hint Extern 1 (nineAt _ (rawHeader _ _) _ _) => apply n_rawHeader : nine.
Lemma n_headersBody {A} (hdr : A -> option bytes -> N -> P A) a : (forall a n i, nine (hdr a n i) 40 (fun _ => 9)) -> nine (headersBody hdr a) 40 (fun _ => 0).
Proof.
  intros H r. unfold headersBody. apply n_onRest. destruct r as [|x r]; [nn|]. destruct (IsCRLF _).
  - destruct r as [|y r]; cbn [tl]; nn.
  - eapply n_bind; [apply n_headerName|lia|]. intros ni r1. eapply n_bind; [apply H|lia|]. intros. apply n_ret. lia.
Qed.
Lemma n_block {A} (hdr : A -> option bytes -> N -> P A) a : (forall a n i, nine (hdr a n i) 40 (fun _ => 9)) -> nine (loopP (headersBody hdr) a) 40 (fun _ => 0).
Proof. intros H r. apply n_loop. intros b q. eapply n_weak; [apply n_headersBody, H|lia|]. intros [x|x]; lia. Qed.
Lemma n_rawHeaders : nine parseRawHeaders 40 (fun _ => 0).
Proof. unfold parseRawHeaders. apply n_block. intros a n i r. nn. Qed.
Lemma n_multi k set st : nine (multiBody k set st) 31 (fun _ => 0).
Proof.
  intros r. unfold multiBody. apply n_onRest. destruct r as [|x r]; [nn|]. destruct (IsOnlyCRLF _).
  - destruct r as [|y r]; cbn [tl]; nn.
  - destruct (ParseSWSMarkCanOmmit 44 (x :: r)) as [[r' mt] ok] eqn:E. apply omit_L in E. destruct mt, ok; nn.
    eapply n_bind; [apply n_sipX|zz|]. intros. apply n_ret. destruct k; zz.
Qed.
Lemma n_oneHeader o a n i : nine (oneHeader o a n i) 40 (fun _ => 9).
Proof.
  intros r. unfold oneHeader. apply n_withEnv; [reflexivity|]. intros e. destruct (needParse o e i) as [[k multi]|]; [|nn]. eapply n_bind; [apply n_sipX|lia|]. intros v r1. destruct multi.
  - apply n_loop. intros b q. eapply n_weak; [apply n_multi|destruct k; lia|]. intros [x|x]; destruct k; lia.
  - eapply n_bind; [apply n_CRLF|destruct k; lia|]. intros. apply n_ret. destruct k; lia.
Qed.
Lemma n_headers o : nine (parseHeaders o) 40 (fun _ => 0).
Proof. unfold parseHeaders. apply n_block. intros. apply n_oneHeader. Qed.
#[export] Hint Extern 1 (nineAt _ (parseHeaders _) _ _) => apply n_headers : nine.
Lemma n_rawScan : nine rawScan 0 (fun _ => 0).
Proof.
  intros r0. unfold rawScan. apply n_loop. intros a r. apply n_onRest. destruct r as [|x r]; [nn|]. destruct (IsCRLF _).
  - destruct r as [|y r]; cbn [tl]; nn.
  - destruct (FindCrlf _) as [[v r']|] eqn:E; [|nn]. apply FindCrlf_suffix in E as (Su & _). apply L_suffix in Su. nn.
Qed.

(** ** Bodies and messages *)
Lemma n_attempt {A} r b r4 (q : option bytes -> P A) D C : L b + 2 <= D + 9 * L r ->
  (forall o, nineAt r4 (q o) (D - 2 - L b + 9 * (L r - L r4)) (fun x => C x - 2 - L b + 9 * (L r - L r4))) -> nineAt r (o <- attempt (allocCString b) ;; goto r4 ;;; q o) D C.
Proof.
  intros Hb Hq e s Hs. unfold attempt, bind, allocCString, goto, phi. rewrite Hs. split.
  - intros m Hm Hr. rewrite leMem_none, (room_le _ _ _ Hm) by (unfold L in *; lia). destruct (Hq (Some b) e (mkst r4 (used s + (len b + 2))%N) eq_refl) as [S1 _]. apply (S1 m Hm). unfold phi. cbn [rest used]. unfold L in *. lia.
  - intros a s' H. destruct (leMem e _).
    + destruct (Hq (Some b) e (mkst r4 (used s + (len b + 2))%N) eq_refl) as [_ K]. specialize (K _ _ H). unfold phi in K. cbn [rest used] in K. unfold L in *. lia.
    + destruct (Hq None e (mkst r4 (used s)) eq_refl) as [_ K]. specialize (K _ _ H). unfold phi in K. cbn [rest used] in K. unfold L in *. lia.
Qed.
Lemma n_multipart d bs : 4 <= L d -> nine (multipartBody d bs) 56 (fun _ => 0).
Proof.
  intros Hd r. unfold multipartBody. apply n_onRest. destruct r as [|x [|y r2]]; [nn|nn|]. destruct (_ || _)%bool; [nn|].
  destruct (FindCrlf (x :: y :: r2)) as [[v r1]|] eqn:E; [|nn]. apply FindCrlf_suffix in E as (_ & _ & E). assert (K : L v + L r1 + 1 <= L (x :: y :: r2)) by (unfold L; lia).
  apply n_goto. apply n_alloc; [zz|]. eapply n_bind; [apply n_headers|zz|]. intros h r3. apply n_onRest. destruct (splitAt d r3) as [[b r4]|] eqn:Es; [|nn].
  apply splitAt_app in Es. subst r3. apply n_attempt; [zz|]. intros o. apply n_ret. zz.
Qed.
Lemma n_parseMulti b : nine (parseMultiBody b) 56 (fun _ => 0).
Proof.
  intros r. unfold parseMultiBody. apply n_onRest. destruct (stripPrefix _ r) as [r'|] eqn:E; [|nn]. apply stripPrefix_app in E. subst r. apply n_goto. apply n_loop. intros bs q.
  eapply n_weak; [apply n_multipart; ln; pose proof (L_pos b); lia|zz|]. intros [x|x]; zz.
Qed.
Definition bodyBytes (bs : list body) : Z := fold_right (fun b n => L (bData b) + n) 0 bs.
Lemma bodyBytes_pos bs : 0 <= bodyBytes bs. Proof. induction bs as [|b bs IH]; cbn [bodyBytes fold_right]; [lia|]. pose proof (L_pos (bData b)). unfold bodyBytes in IH. lia. Qed.
Lemma n_single h : nine (parseSingleBody h) 20 (fun bs => 18 + bodyBytes bs).
Proof.
  intros r. unfold parseSingleBody. apply n_onRest. set (size := match contentLengthOf h with Some (VNum n) => N.min n (len r) | _ => 0%N end). destruct (size =? 0)%N; [apply n_ret; cbn; lia|].
  apply n_alloc; [zz|]. assert (K : L (firstn (N.to_nat size) r) <= L r) by (unfold L, len; rewrite firstn_length; lia). set (d := firstn (N.to_nat size) r) in *.
  intros e s Hs. unfold bind, allocCString, ret, phi. rewrite Hs. split.
  - intros m Hm Hr. rewrite leMem_none, (room_le _ _ _ Hm) by (unfold L in *; lia). reflexivity.
  - destruct (leMem e _); [|discriminate]. intros a s' [= <- <-]. cbn [rest used bodyBytes fold_right bData]. rewrite ?Hs. unfold L. lia.
Qed.
Lemma n_msgBody h : nine (parseMsgBody h) 56 (fun bs => 18 + bodyBytes bs).
Proof.
  intros r. unfold parseMsgBody. destruct (contentTypeOf h) as [v|]; [|apply n_ret; cbn; lia]. destruct v; try (apply n_ret; cbn; lia).
  destruct (CStringEqualNoCase _ _) as [[|]|]; [|eapply n_weak; [apply n_single|lia|intros; cbn beta; lia]|nn]. destruct (boundaryParam _); [|nn].
  eapply n_weak; [apply n_parseMulti|lia|]. intros bs. pose proof (bodyBytes_pos bs). cbn beta; lia.
Qed.
Lemma n_msg : nine parseMsg 56 (fun m => bodyBytes (mBodies m)).
Proof.
  intros r. unfold parseMsg. eapply n_bind; [apply n_startLine|lia|]. intros l r1. apply n_onRest. destruct r1 as [|x r1]; [nn|].
  eapply n_bind; [apply n_headers|lia|]. intros h r2. eapply n_bind; [apply n_msgBody|lia|]. intros bs r3. apply n_ret. cbn [mBodies]. lia.
Qed.
(** In whatever way the body is read, the whole message needs no more than nine bytes for each byte of the text. *)
Lemma msg_nine e s m s' : parseMsg e s = Ok m s' -> Z.of_N (used s') <= phi s.
Proof.
  unfold parseMsg. intros H. apply bind_inv in H as (l & s1 & E1 & H). unfold onRest in H. destruct (rest s1) as [|x r1] eqn:R; [discriminate|]. apply bind_inv in H as (h & s2 & E2 & H).
  apply bind_inv in H as (bs & s3 & E3 & H). injection H as _ <-.
  pose proof (proj2 (n_startLine _ _ _ eq_refl) _ _ E1) as K1. pose proof (proj2 (n_headers OMsg _ _ _ eq_refl) _ _ E2) as K2. cbn beta in K1, K2.
  assert (K3 : Z.of_N (used s3) <= phi s2 + 18); [|lia]. revert E3. unfold parseMsgBody, phi. pose proof (L_pos (rest s2)).
  assert (Hm : forall bo, parseMultiBody bo e s2 = Ok bs s3 -> Z.of_N (used s3) <= Z.of_N (used s2) + 9 * L (rest s2) + 18).
  { intros bo Hb. pose proof (proj2 (n_parseMulti bo _ _ _ eq_refl) _ _ Hb) as K3. unfold phi in K3. pose proof (L_pos (rest s3)). lia. }
  assert (Hs : parseSingleBody h e s2 = Ok bs s3 -> Z.of_N (used s3) <= Z.of_N (used s2) + 9 * L (rest s2) + 18).
  { unfold parseSingleBody, onRest. destruct (_ =? 0)%N; [intros [= _ <-]; lia|]. unfold bind, allocStruct, allocCString. destruct (leMem _ _); [|discriminate]. cbn [rest used]. destruct (leMem _ _); [|discriminate].
    intros [= _ <-]. cbn [used]. unfold L, len in *. rewrite firstn_length. lia. }
  assert (Hr : ret [] e s2 = Ok bs s3 -> Z.of_N (used s3) <= Z.of_N (used s2) + 9 * L (rest s2) + 18) by (intros [= _ <-]; lia).
  destruct (contentTypeOf h) as [v|]; [|exact Hr]. destruct v; try exact Hr. destruct (CStringEqualNoCase _ _) as [[|]|]; [|exact Hs|discriminate]. destruct (boundaryParam _); [|discriminate]. apply Hm.
Qed.

(** Fifty-seven bytes more than nine for every byte of the text are enough. *)
Lemma nine_enough {A} (p : P A) D C e s m : nine p D C -> D <= 56 -> (used s + 57 + 9 * len (rest s) <= m)%N -> p (withMem (Some m) e) s = p (withMem None e) s.
Proof. intros H HD Hm. destruct (H _ (withMem (Some m) e) s eq_refl) as [S1 _]. rewrite (S1 m eq_refl); [reflexivity|]. unfold phi, L. lia. Qed.
Lemma nine_room {A} (p : P A) D C e s : nine p D C -> D <= 56 -> roomFor e (used s + 57 + 9 * len (rest s)) -> p e s = p (withMem None e) s.
Proof. intros H HD R. unfold roomFor in R. destruct (memend e) as [m|] eqn:Em; [|now rewrite <- Em, withMem_self]. rewrite <- (nine_enough p D C e s m H HD R). now rewrite <- Em, withMem_self. Qed.
Lemma nine_used {A} (p : P A) D C e s a s' : nine p D C -> C a <= 0 -> p e s = Ok a s' -> (used s' + 9 * len (rest s') <= used s + 9 * len (rest s))%N.
Proof. intros H HC E0. pose proof (proj2 (H _ _ _ eq_refl) _ _ E0) as K. unfold phi, L in K. lia. Qed.
Lemma msg_used e s m s' : parseMsg e s = Ok m s' -> (used s' <= used s + 9 * len (rest s))%N.
Proof. intros H. apply msg_nine in H. unfold phi, L in H. lia. Qed.
