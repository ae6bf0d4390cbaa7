(** The logged parsers of addresses, start lines, header values and header blocks. *)
From Verif Require Import Base Charset BaseLemmas Num Lws LwsProofs Str StrProofs Monad MethodTree HeaderTree Lookup Host Uri Tel GenParam Addr StartLine Headers RawHeaders Msg NameSpec NameProofs
  Good Rt Seq GoodAuto Inv UriGood TelProofs GenParamProofs AddrProofs StartLineProofs HeadersProofs RawProofs MsgProofs Log LogProofs LogAuto.

(** ** Addresses *)
Lemma lg_otherScheme e s : lgAt false otherSchemeL otherScheme e s.
Proof. unfold otherSchemeL, otherScheme. lg. Qed.
#[export] Hint Resolve lg_otherScheme : lg.
Lemma lg_scheme e s : lgAt false parseSchemeL parseScheme e s.
Proof. unfold parseSchemeL, parseScheme. lg. Qed.
#[export] Hint Resolve lg_scheme : lg.
Lemma lg_spec b ps sch e s : (b = true -> sch <> UUrn /\ sch <> UAbsolute) -> lgAt b (parseSpecL ps sch) (parseSpec ps sch) e s.
Proof.
  intros H. unfold parseSpecL, parseSpec. destruct sch; [lg..| |]; (destruct b; [destruct (H eq_refl); congruence|lg]).
Qed.
Lemma lg_specQ ps sch e s : lgAt false (parseSpecL ps sch) (parseSpec ps sch) e s. Proof. apply lg_spec. discriminate. Qed.
Lemma lg_tokens b e s : lgAt b parseTokensL parseTokens e s.
Proof.
  unfold parseTokensL, parseTokens. destruct s as [r u]. apply lg_onRest. cbn [rest]. apply lg_bind.
  - apply (lg_orErr b false), lg_quiet. eapply (sfx_good 0 0). apply (goodAt_loopP 0 0); [apply tok_progresses|lia|lia|]. intros. apply gd_tokensBody.
  - intros _ s' _. apply (lg_orErr b false), lg_quiet. unfold sfx. destruct (storeSince r e s') as [x s2|s2| |] eqn:E; auto.
    + rewrite (storeSince_inv _ _ _ _ _ E). apply suffix_refl.
    + unfold storeSince, onRest, allocCString in E. destruct (leMem _ _); [discriminate|]. injection E as <-. apply suffix_refl.
Qed.
#[export] Hint Resolve lg_specQ lg_tokens : lg.
Lemma lg_displayName b e s : lgAt b parseDisplayNameL parseDisplayName e s.
Proof. unfold parseDisplayNameL, parseDisplayName. lg. Qed.
#[export] Hint Resolve lg_displayName : lg.
Lemma lg_nameAddr e s : lgAt false parseNameAddrL parseNameAddr e s.
Proof. unfold parseNameAddrL, parseNameAddr. lg. Qed.
#[export] Hint Resolve lg_nameAddr : lg.
Lemma lg_addrSpec e s : lgAt false parseAddrSpecL parseAddrSpec e s.
Proof. unfold parseAddrSpecL, parseAddrSpec. lg. Qed.
#[export] Hint Resolve lg_addrSpec : lg.

(** An error of the scheme parser means too little memory for the scheme run. *)
Definition tight (e : env) (s : st) : Prop := exists m, memend e = Some m /\ m <= used s + 2 + schemeRun (rest s).
Lemma otherScheme_err e s s' l : otherSchemeL e s = (Fail s', l) -> l = [] \/ (s' = s /\ tight e s /\ 0 < schemeRun (rest s)).
Proof.
  unfold otherSchemeL, onRestL, tight, schemeRun. destruct (rest s) as [|x r] eqn:R; [intros [= _ <-]; auto|]. destruct (IsAlpha x) eqn:Ex; [|intros [= _ <-]; auto].
  destruct (alpha_scheme x Ex) as (X1 & _). unfold bindL, paCStringL. rewrite R.
  assert (Pos : 0 < len (fst (span (inset URI_SCHEME) (x :: r)))). { cbn [span]. rewrite X1. destruct (span _ r). cbn [fst]. rewrite len_cons. lia. }
  destruct (negb (ltMem e (used s + 2))) eqn:M1.
  { intros [= <- _]. right. split; [reflexivity|]. split; [|exact Pos]. unfold ltMem in M1. destruct (memend e) as [m|]; [|discriminate]. exists m. split; [reflexivity|]. apply negb_true_iff, N.ltb_ge in M1. lia. }
  destruct (span (inset URI_SCHEME) (x :: r)) as [tok r1]. cbn [fst] in Pos |- *. destruct (negb (fits e (used s + 2) (len tok))); [discriminate|]. destruct tok as [|y tok]; [unfold len in Pos; cbn in Pos; lia|].
  destruct (negb (ltMem e (used s + 2 + len (y :: tok)))) eqn:M2.
  { intros [= <- _]. right. split; [reflexivity|]. split; [|exact Pos]. unfold ltMem in M2. destruct (memend e) as [m|]; [|discriminate]. exists m. split; [reflexivity|]. apply negb_true_iff, N.ltb_ge in M2. lia. }
  cbn [rest]. destruct r1 as [|z r2]; [intros [= _ <-]; auto|]. destruct (negb (z =? 58)); [intros [= _ <-]; auto|]. discriminate.
Qed.
Lemma scheme_err e s s' l : parseSchemeL e s = (Fail s', l) -> l = [] \/ (s' = s /\ tight e s /\ 0 < schemeRun (rest s)).
Proof.
  unfold parseSchemeL, onRestL. pose proof (otherScheme_err e s s' l) as O. destruct (rest s) as [|a [|b [|c [|d r]]]]; try exact O. destruct (_ && (d =? 58))%bool; [discriminate|].
  destruct (_ && lc d 115)%bool. { destruct r as [|x r]; [intros [= _ <-]; auto|]. destruct (x =? 58); [discriminate|exact O]. }
  destruct (_ && (d =? 58))%bool; [discriminate|]. destruct (_ && (d =? 58))%bool; [discriminate|exact O].
Qed.
Lemma tokens_used e s n s' : parseTokens e s = Ok n s' -> used s' = used s + (len n + 2) /\ (forall m, memend e = Some m -> used s' <= m) /\ len n = len (rest s) - len (rest s').
Proof.
  intros E. pose proof (tokens_eat _ _ _ _ E) as Te. unfold parseTokens, onRest in E. apply bind_inv in E as (x & s1 & E1 & E2). 
  assert (U : used s1 = used s). { unfold loopP in E1. revert E1. apply iterP_keeps. intros a0 s0 x0 s2. apply tokensBody_used. }
  unfold storeSince, onRest, allocCString in E2. destruct (leMem e _) eqn:M; [|discriminate]. injection E2 as <- <-. cbn [used rest] in *. rewrite U in *. split; [reflexivity|]. split.
  - intros m Hm. unfold leMem in M. rewrite Hm in M. apply N.leb_le in M. exact M.
  - unfold len in *. rewrite firstn_length. lia.
Qed.
Lemma spec_used ps sch e s u s' m : parseSpec ps sch e s = Ok u s' -> memend e = Some m -> used s + 10 <= m.
Proof.
  intros E Hm. unfold parseSpec in E. destruct sch; try discriminate; apply bind_inv in E as (x & s1 & E & _); unfold allocStruct, leMem in E; rewrite Hm in E;
    (destruct (_ <=? _) eqn:M; [|discriminate]); apply N.leb_le in M; lia.
Qed.
Lemma nameAddr_tight e s a s' : tight e s -> 0 < schemeRun (rest s) -> parseNameAddr e s <> Ok a s'.
Proof.
  intros (m & Hm & T) Pos E. unfold parseNameAddr in E. unfold schemeRun in *. destruct (rest s) as [|x r] eqn:R; [lia|]. destruct (IsAlpha x) eqn:Ex; [|lia].
  destruct (alpha_scheme x Ex) as (X1 & X2 & X3). apply bind_inv in E as (z & s1 & E1 & E). injection E1 as _ <-. rewrite R in E. rewrite ParseSWS_noop in E by (cbn; now rewrite X2).
  apply bind_inv in E as (n & s2 & E1 & E). unfold onRest in E1. cbn [rest] in E1. rewrite (proj2 (N.eqb_neq x 60) X3) in E1. cbn [negb] in E1.
  apply bind_inv in E1 as (d & s3 & E1 & E2). unfold parseDisplayName, onRest in E1. cbn [rest] in E1. unfold IsSipToken in E1. rewrite (scheme_token _ X1) in E1. apply bind_inv in E1 as (d0 & s4 & E1 & E3).
  injection E3 as _ <-. pose proof (tokens_eat _ _ _ _ E1) as Te. apply tokens_used in E1 as (U4 & _ & L4). cbn [rest used] in *.
  assert (U2 : used s4 <= used s2). { apply bind_inv in E2 as (? & s5 & E5 & E3). injection E3 as _ <-. destruct (Seq.good_suffix 0 0 _ _ _ _ _ (gd_LAQ 0 _ _) E5) as [_ Q]. exact Q. }
  apply bind_inv in E as (sch & s6 & E3 & E). assert (U6 : used s2 <= used s6) by (destruct (Seq.good_suffix 1 3 _ _ _ _ _ (gd_scheme 1 _ _ (N.le_refl 1)) E3) as [_ Q]; exact Q).
  apply bind_inv in E as (u & s7 & E4 & E). apply (spec_used _ _ _ _ _ _ m) in E4; [|exact Hm].
  pose proof (span_sub (inset URI_SCHEME) (inset SIP_TOKEN) (x :: r) scheme_token). lia.
Qed.
Lemma lg_orRestore {A B} (e : env) (s : st) :
  forall (lp : L A) p (lq : L B) q, lgAt false lp p e s -> (forall u, lgAt false lq q e (mkst (rest s) u)) ->
  (forall s' l, lp e s = (Fail s', l) -> l = [] \/ (s' = s /\ forall b s2, q e s <> Ok b s2)) ->
  lgAt false (orRestoreL (x <+ lp ;+ retL (inl x)) (y <+ lq ;+ retL (inr y))) (orRestore (x <- p ;; ret (inl x)) (y <- q ;; ret (inr y))) e s.
Proof.
  intros lp p lq q Hp Hq H. assert (Gp : lgAt false (x <+ lp ;+ @retL (A + B) (inl x)) (x <- p ;; ret (inl x)) e s) by (apply lg_bind; [exact Hp|intros; apply lg_ret]).
  assert (Gq : forall u, lgAt false (y <+ lq ;+ @retL (A + B) (inr y)) (y <- q ;; ret (inr y)) e (mkst (rest s) u)) by (intros u; apply lg_bind; [apply Hq|intros; apply lg_ret]).
  assert (H' : forall s' l, (x <+ lp ;+ @retL (A + B) (inl x)) e s = (Fail s', l) -> l = [] \/ (s' = s /\ forall b s2, (y <- q ;; @ret (A + B) (inr y)) e s <> Ok b s2)).
  { intros s' l Er. unfold bindL in Er. destruct (lp e s) as [[a s1|s1| |] l1] eqn:El; try discriminate. injection Er as <- <-. destruct (H _ _ eq_refl) as [->|[-> N]]; [auto|]. right. split; [reflexivity|].
    intros b s2 Eq. apply bind_inv in Eq as (y & s3 & Eq & _). exact (N _ _ Eq). }
  clear H Hp Hq. destruct Gp as [G1 G2 G3].
  destruct ((x <+ lp ;+ @retL (A + B) (inl x)) e s) as [[a s1|s1| |] l1] eqn:El; cbn [fst snd] in G1, G2, G3; try (split; unfold orRestoreL, orRestore; rewrite ?El, <- ?G1; cbn [fst snd]; auto; fail).
  destruct (Gq (used s1)) as [F1 F2 F3]. cbn [rest] in *. split; unfold orRestoreL, orRestore; rewrite ?El, <- ?G1;
    destruct ((y <+ lq ;+ @retL (A + B) (inr y)) e (mkst (rest s) (used s1))) as [r2 l2] eqn:E2; cbn [fst snd] in *.
  - exact F1.
  - destruct r2 as [b s2|s2| |]; auto.
    + destruct F2 as [-> F2]. rewrite app_nil_r. split; [|exact F2]. destruct (H' _ _ eq_refl) as [->|[-> N]]; [reflexivity|]. exfalso. destruct s as [r0 u0]. cbn [rest used] in *. exact (N _ _ (eq_sym F1)).
    + destruct F2 as [_ F2]. split; [discriminate|exact F2].
  - apply Forall_app. split; assumption.
Qed.
Lemma lg_addr ps e s : lgAt false (parseAddrL ps) (parseAddr ps) e s.
Proof.
  unfold parseAddrL, parseAddr. destruct s as [r u]. apply lg_onRest. cbn [rest]. destruct r as [|x r]; [lg|]. destruct (_ || _)%bool; [lg|]. apply lg_bind; [|intros [sch|a] s' _; lg].
  apply lg_orRestore; [apply lg_scheme|intros; apply lg_nameAddr|]. intros s' l E. destruct (scheme_err _ _ _ _ E) as [->|(-> & T & Pos)]; [auto|]. right. split; [reflexivity|].
  intros b s2. apply nameAddr_tight; assumption.
Qed.
#[export] Hint Resolve lg_addr : lg.

(** ** Start lines *)
Lemma lg_method b e s : lgAt b parseMethodL parseMethod e s.
Proof.
  unfold parseMethodL, parseMethod. destruct s as [r u]. apply lg_onRest. cbn [rest]. destruct (GetSipMethodIndex r) as [[i mid]|] eqn:E; [|lg].
  apply method_skips in E as (p & -> & _). assert (Su : suffix mid (p ++ mid)) by (exists p; reflexivity). destruct (_ =? _); [|lg]. apply lg_bind; [apply lg_paFromPos; exact Su|intros; lg].
Qed.
#[export] Hint Resolve lg_method : lg.
Lemma lg_versionDigits b e s : lgAt b (versionDigitsL (rest s)) (versionDigits (rest s)) e s.
Proof.
  unfold versionDigitsL, versionDigits. destruct (span (inset DIGIT) (rest s)) as [major r1] eqn:E. pose proof (span_app _ _ _ _ E) as E0. destruct major as [|d major]; [lg|]. destruct r1 as [|x mid]; [lg|].
  assert (S1 : suffix (x :: mid) (rest s)) by (exists (d :: major); exact E0). destruct (negb _); [lg|]. apply lg_bind; [apply (lg_orErr b false), lg_paFromPos; eapply suffix_cons; exact S1|].
  intros. lg.
Qed.
Lemma lg_versionAfter b e s : lgAt b parseVersionAfterL parseVersionAfter e s.
Proof.
  unfold parseVersionAfterL, parseVersionAfter. apply lg_onRest. pose proof (lg_versionDigits b e s) as G. destruct s as [r u]. cbn [rest] in *.
  repeat match goal with |- lgAt _ (match ?x with _ => _ end) _ _ _ => destruct x end; auto; lg.
Qed.
#[export] Hint Resolve lg_versionAfter : lg.
Lemma lg_version b e s : lgAt b parseVersionL parseVersion e s.
Proof.
  unfold parseVersionL, parseVersion. destruct s as [r u]. apply lg_onRest. cbn [rest]. destruct (versionStart r) as [r4|] eqn:E; [|lg]. apply versionStart_inv in E as [_ Su]. lg.
Qed.
#[export] Hint Resolve lg_version : lg.
Lemma lg_expect b c d1 d2 e s : lgAt b (expectL c d1 d2) (expect c) e s.
Proof. unfold expectL. lg. Qed.
#[export] Hint Resolve lg_expect : lg.
Lemma lg_requestLine b e s : lgAt b parseRequestLineL parseRequestLine e s.
Proof. unfold parseRequestLineL, parseRequestLine. lg. Qed.
Lemma lg_statusLine b e s : lgAt b parseStatusLineL parseStatusLine e s.
Proof. unfold parseStatusLineL, parseStatusLine. lg. Qed.
#[export] Hint Resolve lg_requestLine lg_statusLine : lg.
Lemma lg_startLine b e s : lgAt b parseStartLineL parseStartLine e s.
Proof.
  unfold parseStartLineL, parseStartLine. destruct s as [r u]. apply lg_onRest. cbn [rest]. destruct (versionStart r) as [r4|] eqn:E; [|lg]. apply versionStart_inv in E as [_ Su]. lg.
Qed.
#[export] Hint Resolve lg_startLine : lg.

(** ** Header values *)
Lemma lg_params b k e s : lgAt b (parseParamsL k) (parseParams k) e s.
Proof. unfold parseParamsL, parseParams. lg. Qed.
#[export] Hint Resolve lg_params : lg.
Lemma lg_otherProtocol b e s : lgAt b otherProtocolL otherProtocol e s.
Proof. unfold otherProtocolL, otherProtocol. lg. Qed.
#[export] Hint Resolve lg_otherProtocol : lg.
Lemma lg_sentProtocol b e s : lgAt b parseSentProtocolL parseSentProtocol e s.
Proof.
  unfold parseSentProtocolL, parseSentProtocol. lg1. destruct rest as [|a [|b0 [|c [|d [|x [|y [|z [|w r]]]]]]]]; solve [lg].
Qed.
#[export] Hint Resolve lg_sentProtocol : lg.
Lemma lg_fromTo b k e s : lgAt b (parseFromToL k) (parseFromTo k) e s.
Proof. unfold parseFromToL, parseFromTo. lg. Qed.
#[export] Hint Resolve lg_fromTo : lg.
Lemma lg_SWS b e s : lgAt b (silent pSWS) pSWS e s.
Proof. apply lg_silent; [eapply (sfx_good 0); apply gd_SWS|]. intros _ s'. discriminate. Qed.
#[export] Hint Resolve lg_SWS : lg.
Lemma lg_hval b k e s : lgAt b (parseHValL k) (parseHVal k) e s.
Proof.
  destruct k; cbn [parseHVal parseHValL]; unfold parseVia, parseContact, parsePai, parseCSeq, parseRAck, parseNum, parseContentType, parseContentDisposition, parseCallID, parseRoute,
    parseViaL, parseContactL, parsePaiL, parseCSeqL, parseRAckL, parseNumL, parseContentTypeL, parseContentDispositionL, parseCallIDL, parseRouteL; solve [lg].
Qed.
#[export] Hint Resolve lg_hval : lg.
Lemma lg_sipX b k e s : lgAt b (parseSipXL k) (parseSipX k) e s.
Proof. unfold parseSipXL, parseSipX. lg. Qed.
#[export] Hint Resolve lg_sipX : lg.
Lemma lg_header b k e s : lgAt b (parseHeaderL k) (parseHeader k) e s.
Proof. unfold parseHeaderL, parseHeader. lg. Qed.

(** ** Header blocks *)
Lemma lg_headerName b e s : lgAt b parseHeaderNameL parseHeaderName e s.
Proof.
  unfold parseHeaderNameL, parseHeaderName. destruct s as [r u]. apply lg_onRest. cbn [rest]. destruct (GetSipHeaderIndex r) as [[i mid]|] eqn:E; [|lg].
  apply header_skips in E as (p & -> & _). assert (Su : suffix mid (p ++ mid)) by (exists p; reflexivity). apply lg_bind; [|intros; lg]. destruct (i =? _); [|lg]. apply lg_bind; [apply lg_paFromPos; exact Su|intros; lg].
Qed.
#[export] Hint Resolve lg_headerName : lg.
Lemma lg_headersBody {A} b (name : L (option bytes * N)) (lh : A -> option bytes -> N -> L A) hdr a e s :
  (forall s, lgAt b name parseHeaderName e s) -> (forall a n i s, lgAt b (lh a n i) (hdr a n i) e s) -> lgAt b (headersBodyL name lh a) (headersBody hdr a) e s.
Proof.
  intros Hn Hh. unfold headersBodyL, headersBody. destruct s as [r u]. apply lg_onRest. cbn [rest]. destruct r as [|x r1]; [lg|]. destruct (IsCRLF (x :: r1)) eqn:E.
  - apply IsCRLF_spec in E as (t & E). injection E as -> ->. apply lg_goto_bind; [exists [13; 10]; reflexivity|lg].
  - apply lg_bind; [apply Hn|intros]. apply lg_bind; [apply Hh|intros; lg].
Qed.
Lemma lg_rawHeaders e s : lgAt false parseRawHeadersL parseRawHeaders e s.
Proof.
  unfold parseRawHeadersL, parseRawHeaders. apply lg_loop. intros a s0. apply lg_headersBody; [auto with lg|]. intros a0 n i s1. apply lg_quiet. eapply (sfx_good 1). apply gd_rawHdr. lia.
Qed.
