From Verif Require Import Base Charset BaseLemmas Num Lws Str Monad Good Rt Seq GoodAuto Host HostProofs Uri.

Lemma gd_host K e s : 1 <= K -> goodAt K 16 parseHost e s.
Proof. intros. apply (goodAt_weaken K 16 1 16); [lia|lia|apply goodAt_parseHost]. Qed.
Lemma gd_hostport K e s : 1 <= K -> goodAt K 16 parseHostPort e s.
Proof. intros. apply (goodAt_weaken K 16 1 16); [lia|lia|apply goodAt_parseHostPort]. Qed.
#[export] Hint Resolve gd_host gd_hostport : good.
Lemma gd_uriParam K cn cv e s : 1 <= K -> goodAt K 6 (parseUriParam cn cv) e s.
Proof. intros. unfold parseUriParam. good. Qed.
#[export] Hint Resolve gd_uriParam : good.
Lemma gd_uriParams {S} K Cs cn cv (set : S -> uparam -> P S) a e s : (forall a p e s, goodAt 1 Cs (set a p) e s) -> 13 + Cs <= K ->
  goodAt K (12 + Cs) (parseUriParams cn cv set a) e s.
Proof.
  intros G HK. unfold parseUriParams. good1. good1; [good|]. apply (goodAt_sepLoop 1 (12 + Cs)); [|lia|lia]. intros. unfold uriParamOne.
  good1. good1. replace (12 + Cs - 6 - 6) with Cs by lia. apply G.
Qed.
Lemma gd_uriHeader K e s : 1 <= K -> goodAt K 6 parseUriHeader e s.
Proof. intros. unfold parseUriHeader. good. Qed.
#[export] Hint Resolve gd_uriHeader : good.
Lemma gd_uriHeaders K e s : 13 <= K -> goodAt K 12 parseUriHeaders e s.
Proof.
  intros. unfold parseUriHeaders. good1. good1; [good|]. apply (goodAt_sepLoop 1 12); [|lia|lia]. intros. unfold uriHeaderOne. good.
Qed.
#[export] Hint Resolve gd_uriHeaders : good.
Lemma gd_sipUriSet K a p e s : goodAt K 12 (sipUriSet a p) e s.
Proof. unfold sipUriSet. good1. apply goodAt_addParam. discriminate. Qed.
Lemma gd_sipUriParams K a e s : 25 <= K -> goodAt K 24 (parseUriParams SIP_PNAME SIP_PVALUE sipUriSet a) e s.
Proof. intros. apply (gd_uriParams K 12); [|lia]. intros. apply gd_sipUriSet. Qed.
#[export] Hint Resolve gd_sipUriParams : good.
Lemma gd_password K x r u e : 1 <= K -> goodAt K 3 parsePassword e (mkst (x :: r) u).
Proof. intros. unfold parsePassword. good. Qed.
#[export] Hint Resolve gd_password : good.
Lemma gd_userinfo K e s : 1 <= K -> goodAt K 6 parseUserinfo e s.
Proof. intros. unfold parseUserinfo. good. Qed.
#[export] Hint Resolve gd_userinfo : good.
Lemma gd_uriNoParam K sec e s : 1 <= K -> goodAt K 22 (parseUriAfterSchemeNoParam sec) e s.
Proof. intros. unfold parseUriAfterSchemeNoParam. good. Qed.
Lemma gd_uriAfterScheme K sec e s : 25 <= K -> goodAt K 58 (parseUriAfterScheme sec) e s.
Proof.
  intros. unfold parseUriAfterScheme. do 4 good1; [good|]. eapply (goodAt_bind _ _ 24); [good|lia|intros]. good.
Qed.
#[export] Hint Resolve gd_uriNoParam gd_uriAfterScheme : good.
Lemma gd_sipScheme K e s : goodAt K 0 parseSipScheme e s.
Proof. unfold parseSipScheme. good. Qed.
#[export] Hint Resolve gd_sipScheme : good.
Lemma gd_sipUri K e s : 25 <= K -> goodAt K 58 parseSipUri e s.
Proof. intros. unfold parseSipUri. good. Qed.
#[export] Hint Resolve gd_sipUri : good.
