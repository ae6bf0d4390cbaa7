(** The logged parsers, one by one. *)
From Verif Require Import Base Charset BaseLemmas Num Lws LwsProofs Str StrProofs Monad MethodTree HeaderTree Lookup Host Uri Tel GenParam Addr StartLine Headers RawHeaders Msg HostProofs
  Good Rt Seq GoodAuto UriGood TelProofs GenParamProofs AddrProofs StartLineProofs HeadersProofs RawProofs MsgProofs Log LogProofs.

Lemma lg_goto_bind {A} b r (lq : L A) q e s : suffix r (rest s) -> lgAt b lq q e (mkst r (used s)) -> lgAt b (gotoL r ;+> lq) (goto r ;;; q) e s.
Proof. intros Sr H. apply lg_bind; [apply lg_goto, Sr|]. intros a s' [= <- <-]. exact H. Qed.
Lemma lg_hcolon b e s : lgAt b hcolonL pHcolon e s.
Proof. apply (lg_errEnd b false). apply lg_quiet. eapply (sfx_good 100). apply gd_Hcolon. Qed.
Lemma lg_swsMark b m e s : lgAt b (swsMarkL m) (pSWSMark m) e s.
Proof. apply (lg_errEnd b false). apply lg_quiet. eapply (sfx_good 100). apply gd_SWSMark. Qed.
Lemma lg_swsMark2 b m e s : lgAt b (swsMarkCanOmmitL m) (pSWSMarkCanOmmit m) e s.
Proof. apply (lg_orErr b false). apply lg_quiet. eapply (sfx_good 100). apply gd_Mark2. Qed.
Lemma lg_leftAngle b e s : lgAt b leftAngleL pLeftAngleQuote e s.
Proof.
  assert (Q : lgAt false (silent pLeftAngleQuote) pLeftAngleQuote e s) by (apply lg_quiet; eapply (sfx_good 100); apply gd_LAQ).
  assert (H : lgAt b (match rest s with [] => orErr "LAQUOT parse: reach end at begining" (silent pLeftAngleQuote)
                      | _ => errEnd "LAQUOT parse: reach end before '<'" "LAQUOT parse: no '<'" (silent pLeftAngleQuote) end) pLeftAngleQuote e s).
  { destruct (rest s); [apply (lg_orErr b false), Q|apply (lg_errEnd b false), Q]. }
  destruct H as [G1 G2 G3]. split; assumption.
Qed.
Lemma lg_rightAngle b e s : lgAt b rightAngleL pRightAngleQuote e s.
Proof. apply (lg_errEnd b false). apply lg_quiet. eapply (sfx_good 100). apply gd_RAQ. Qed.
Lemma sfx_ok {A} (p : P A) e s : (forall a s', p e s = Ok a s' -> suffix (rest s') (rest s)) -> (forall s', p e s = Fail s' -> suffix (rest s') (rest s)) -> sfx p e s.
Proof. intros H1 H2. unfold sfx. destruct (p e s) eqn:E; eauto. Qed.
#[export] Hint Resolve lg_paCString lg_paFromPos lg_paTel lg_paEscapable lg_paEscapableEmpty lg_paQuoted lg_hcolon lg_swsMark lg_swsMark2 lg_leftAngle lg_rightAngle lg_contIf lg_pfail : lg.

Lemma lg_keeps {A} b (p : P A) e s : match p e s with Ok _ s' => rest s' = rest s | Fail _ => False | _ => True end -> lgAt b (silent p) p e s.
Proof. intros H. apply lg_silent; [unfold sfx|intros _ s' E; now rewrite E in H]. destruct (p e s); auto; [rewrite H; apply suffix_refl|contradiction]. Qed.
Lemma setKnown_keeps {A} names (name : A -> bytes) t p e s : match setKnown names name t p e s with Ok _ s' => rest s' = rest s | Fail _ => False | _ => True end.
Proof. unfold setKnown. destruct (findName names (name p) 0); [|reflexivity]. destruct t; [reflexivity|]. destruct (leMem _ _); [reflexivity|]. destruct (Nat.ltb _ _); cbn; auto. Qed.
Lemma addParam_keeps {A} on names (name : A -> bytes) a p e s : match addParam on names name a p e s with Ok _ s' => rest s' = rest s | Fail _ => False | _ => True end.
Proof. unfold addParam. destruct on; [|reflexivity]. unfold bind. pose proof (setKnown_keeps names name (fst a) p e s) as H. destruct (setKnown names name (fst a) p e s); cbn; auto. Qed.
Lemma lg_sipUriSet b a p e s : lgAt b (silent (sipUriSet a p)) (sipUriSet a p) e s.
Proof. apply lg_keeps. apply addParam_keeps. Qed.
Lemma lg_addParam {A} b on names (name : A -> bytes) a p e s : lgAt b (silent (withEnv (fun e => addParam (on e) names name a p))) (withEnv (fun e => addParam (on e) names name a p)) e s.
Proof. apply lg_keeps. apply addParam_keeps. Qed.
Lemma lg_telSet b a p e s : lgAt b (silent (telSet a p)) (telSet a p) e s.
Proof.
  apply lg_keeps. unfold telSet. destruct (equalNoCase _ _); [destruct (upValue p) as [[|x v]|]; cbn; auto; destruct (negb _); reflexivity|]. unfold bind, withEnv.
  pose proof (addParam_keeps (fTelUriKnown e) telKnownNames upName (snd a) p e s) as H. destruct (addParam _ _ _ _ _ e s); cbn; auto.
Qed.
#[export] Hint Resolve lg_sipUriSet lg_addParam lg_telSet : lg.
Lemma lg_alloc_bind {A} b d n (lq : L A) q e s : (forall u, lgAt b lq q e (mkst (rest s) u)) -> lgAt b (orErr d (silent (allocStruct n)) ;+> lq) (allocStruct n ;;; q) e s.
Proof.
  intros H. apply lg_bind; [apply (lg_orErr b false), lg_quiet; eapply (sfx_good 100); apply gd_alloc|]. intros a s'. unfold allocStruct. destruct (leMem _ _); [|discriminate]. intros [= _ <-]. apply H.
Qed.
#[export] Hint Resolve gd_sipScheme gd_telScheme gd_expect gd_UIntW gd_rawHeader gd_hname : good.

Ltac lg1 := cbn [rest used fst snd];
  lazymatch goal with
  | |- lgAt _ (retL _) _ _ _ => apply lg_ret
  | |- lgAt _ (gotoL _) _ _ _ => apply lg_goto; cbn [rest]; solve [auto 8 with suf]
  | |- lgAt _ (failL _) _ _ _ => apply lg_fail
  | |- lgAt _ (silent panic) _ _ _ => apply lg_panic
  | |- lgAt _ (onRestL _) _ _ ?s => (tryif is_var s then destruct s else idtac); apply lg_onRest; cbn [rest]
  | |- lgAt _ (withEnvL _) _ _ _ => apply lg_withEnv; cbv beta
  | |- lgAt _ (orErr _ _) _ _ _ => apply (lg_orErr _ false)
  | |- lgAt _ (errEnd _ _ _) _ _ _ => apply (lg_errEnd _ false)
  | |- lgAt _ (bindL (gotoL _) _) _ _ _ => apply lg_goto_bind; [cbn [rest]; solve [auto 8 with suf]|]
  | |- lgAt _ (bindL (orErr _ (silent (allocStruct _))) _) _ _ _ => apply lg_alloc_bind; intros; cbn [rest]
  | |- lgAt _ (bindL _ _) _ _ _ => apply lg_bind; [|intros]
  | |- lgAt _ (match ?x with _ => _ end) _ _ _ => destruct x eqn:?
  | |- lgAt false (silent pfail) _ _ _ => apply lg_pfail
  | |- lgAt false (silent _) _ _ _ => first [solve [eauto 2 with lg] |  apply lg_quiet; eapply (sfx_good 2000); solve [eauto 2 with good]]
  | |- _ => solve [eauto 2 with lg]
  end.
Ltac lg := repeat lg1.

(** ** Hosts, URIs *)
Lemma lg_ipv6 b e s : lgAt b parseIpv6L parseIpv6 e s.
Proof.
  unfold parseIpv6L, parseIpv6. destruct s as [r u]. apply lg_onRest. cbn [rest]. pose proof (suffix_span (fun x => negb (x =? 93)) r) as Su.
  destruct (span (fun x => negb (x =? 93)) r) as [txt r1]. cbn [snd] in Su. lg.
Qed.
#[export] Hint Resolve lg_ipv6 : lg.
Lemma lg_hostname b e s : lgAt b parseHostnameL parseHostname e s.
Proof. unfold parseHostnameL, parseHostname. lg. Qed.
#[export] Hint Resolve lg_hostname : lg.
Lemma lg_host b e s : lgAt b parseHostL parseHost e s.
Proof.
  unfold parseHostL, parseHost. lg1. destruct rest as [|x r]; [lg|]. destruct (x =? 91); [lg|]. destruct (IsAlpha x); [lg|].
  destruct (parseIpv4 (x :: r)) as [[[[[a b0] c] d] r2]|] eqn:E; [|lg]. apply quad_suffix in E. lg.
Qed.
#[export] Hint Resolve lg_host : lg.
Lemma lg_hostport b e s : lgAt b parseHostPortL parseHostPort e s.
Proof. unfold parseHostPortL, parseHostPort. lg. Qed.
#[export] Hint Resolve lg_hostport : lg.
Lemma lg_uriParam b cn cv e s : lgAt b (parseUriParamL cn cv) (parseUriParam cn cv) e s.
Proof. unfold parseUriParamL, parseUriParam. lg. Qed.
#[export] Hint Resolve lg_uriParam : lg.
Lemma lg_uriParams {S} b cn cv (set : S -> uparam -> P S) a e s : (forall a p s, lgAt b (silent (set a p)) (set a p) e s) -> lgAt b (parseUriParamsL cn cv set a) (parseUriParams cn cv set a) e s.
Proof.
  intros H. unfold parseUriParamsL, parseUriParams. lg1. destruct rest as [|x r]; [lg|]. apply lg_sepLoop. intros a0 s0. unfold uriParamOneL, uriParamOne. lg.
Qed.
Lemma lg_sipUriParams b cn cv a e s : lgAt b (parseUriParamsL cn cv sipUriSet a) (parseUriParams cn cv sipUriSet a) e s.
Proof. apply lg_uriParams. auto with lg. Qed.
Lemma lg_telUriParams b cn cv a e s : lgAt b (parseUriParamsL cn cv telSet a) (parseUriParams cn cv telSet a) e s.
Proof. apply lg_uriParams. auto with lg. Qed.
Lemma lg_uriHeader b e s : lgAt b parseUriHeaderL parseUriHeader e s.
Proof. unfold parseUriHeaderL, parseUriHeader. lg. Qed.
#[export] Hint Resolve lg_uriHeader lg_sipUriParams lg_telUriParams : lg.
Lemma lg_uriHeaders b e s : lgAt b parseUriHeadersL parseUriHeaders e s.
Proof. unfold parseUriHeadersL, parseUriHeaders. lg1. destruct rest as [|x r]; [lg|]. apply lg_sepLoop. intros a0 s0. unfold uriHeaderOneL, uriHeaderOne. lg. Qed.
#[export] Hint Resolve lg_uriHeaders : lg.
Lemma lg_password b e s : lgAt b parsePasswordL parsePassword e s.
Proof. unfold parsePasswordL, parsePassword. lg. Qed.
#[export] Hint Resolve lg_password : lg.
Lemma lg_userinfo b e s : lgAt b parseUserinfoL parseUserinfo e s.
Proof. unfold parseUserinfoL, parseUserinfo. lg. Qed.
#[export] Hint Resolve lg_userinfo : lg.
Lemma lg_uriAfterScheme b sec e s : lgAt b (parseUriAfterSchemeL sec) (parseUriAfterScheme sec) e s.
Proof. unfold parseUriAfterSchemeL, parseUriAfterScheme. lg. Qed.
Lemma lg_uriNoParam b sec e s : lgAt b (parseUriAfterSchemeNoParamL sec) (parseUriAfterSchemeNoParam sec) e s.
Proof. unfold parseUriAfterSchemeNoParamL, parseUriAfterSchemeNoParam. lg. Qed.
#[export] Hint Resolve lg_uriAfterScheme lg_uriNoParam : lg.
Lemma lg_sipUri b e s : lgAt b parseSipUriL parseSipUri e s.
Proof. unfold parseSipUriL, parseSipUri. lg. Qed.
Lemma lg_telNumber b e s : lgAt b parseTelNumberL parseTelNumber e s.
Proof. unfold parseTelNumberL, parseTelNumber. lg. Qed.
#[export] Hint Resolve lg_telNumber : lg.
Lemma lg_telAfterScheme b e s : lgAt b parseTelAfterSchemeL parseTelAfterScheme e s.
Proof. unfold parseTelAfterSchemeL, parseTelAfterScheme. lg. Qed.
Lemma lg_telNoParam b e s : lgAt b parseTelAfterSchemeNoParamL parseTelAfterSchemeNoParam e s.
Proof. unfold parseTelAfterSchemeNoParamL, parseTelAfterSchemeNoParam. lg. Qed.
#[export] Hint Resolve lg_telAfterScheme lg_telNoParam : lg.
Lemma lg_telUri e s : lgAt false parseTelUriL parseTelUri e s.
Proof. unfold parseTelUriL, parseTelUri. lg. Qed.

(** ** Parameters *)
Lemma lg_genValue b e s : lgAt b parseGenValueL parseGenValue e s.
Proof.
  unfold parseGenValueL, parseGenValue. lg1. destruct rest as [|v r]; [lg|]. destruct (IsSipToken v); [lg|]. destruct (_ || _)%bool; [lg|]. destruct (v =? 91); [|lg].
  destruct (cutAfter 93 (v :: r)) as [[tok r']|] eqn:E; [|lg]. apply cutAfter_app in E. lg1; [|lg]. lg1. apply lg_quiet. eapply (sfx_good 100). apply goodAt_paSlice; cbn [Base.rest]; [lia|apply N.le_refl|exists tok; exact E|rewrite E, len_app; lia].
Qed.
#[export] Hint Resolve lg_genValue : lg.
Lemma lg_genParam b e s : lgAt b parseGenParamL parseGenParam e s.
Proof. unfold parseGenParamL, parseGenParam. lg. Qed.
#[export] Hint Resolve lg_genParam : lg.
Lemma lg_gpBody b sep on names a e s : lgAt b (gpBodyL sep (fun a p => withEnv (fun e => addParam (on e) names gpName a p)) a) (gpBody sep (fun a p => withEnv (fun e => addParam (on e) names gpName a p)) a) e s.
Proof.
  unfold gpBodyL, gpBody. lg1. destruct rest as [|x r]; [lg|]. destruct (IsOnlyCRLF (x :: r)); [lg|]. destruct (_ && _)%bool; [lg|].
  pose proof (ParseSWSMarkCanOmmit_suffix sep (x :: r)) as Su. destruct (ParseSWSMarkCanOmmit sep (x :: r)) as [[r' []] []]; cbn [fst] in Su; lg.
Qed.
#[export] Hint Resolve lg_gpBody : lg.
Lemma lg_genParams b sep on names e s : lgAt b (parseGenParamsL sep on names) (parseGenParams sep on names) e s.
Proof. unfold parseGenParamsL, parseGenParams. apply lg_loop. auto with lg. Qed.
#[export] Hint Resolve lg_genParams : lg.
