(** Automation for [goodAt]. *)
From Verif Require Import Base Charset BaseLemmas Num Lws Str Monad Good Rt Seq.

Lemma goodAt_tail {A} K C C' (p : P A) e s : goodAt K C' p e s -> C' <= C -> goodAt K C p e s.
Proof. intros H L. apply (goodAt_weaken K C K C'); [lia|exact L|exact H]. Qed.
Lemma gd_cstring K cs e s : 1 <= K -> goodAt K 3 (paCString cs) e s. Proof. intros. apply goodAt_paCString; lia. Qed.
Lemma gd_cstringEmpty K cs e s : 1 <= K -> goodAt K 3 (paCStringEmpty cs) e s. Proof. intros. apply goodAt_paCStringEmpty; lia. Qed.
Lemma gd_escapable K cs e s : 1 <= K -> goodAt K 3 (paEscapable cs) e s. Proof. intros. apply goodAt_paEscapable; lia. Qed.
Lemma gd_escapableEmpty K cs e s : 1 <= K -> goodAt K 3 (paEscapableEmpty cs) e s. Proof. intros. apply goodAt_paEscapableEmpty; lia. Qed.
Lemma gd_tel K cs e s : 1 <= K -> goodAt K 3 (paTelNumber cs) e s. Proof. intros. apply goodAt_paTelNumber; lia. Qed.
Lemma gd_quoted K e s : 1 <= K -> rest s <> [] -> goodAt K 3 paQuoted e s. Proof. intros. apply goodAt_paQuoted; auto; lia. Qed.
Lemma gd_alloc K n e s : goodAt K n (allocStruct n) e s. Proof. intros. apply goodAt_allocStruct; lia. Qed.
Lemma gd_SWS K e s : goodAt K 0 pSWS e s. Proof. apply goodAt_pSWS. Qed.
Lemma gd_LWS K e s : goodAt K 0 pLWS e s. Proof. apply goodAt_pLWS. Qed.
Lemma gd_Hcolon K e s : goodAt K 0 pHcolon e s. Proof. apply goodAt_pHcolon. Qed.
Lemma gd_SWSMark K m e s : goodAt K 0 (pSWSMark m) e s. Proof. apply goodAt_pSWSMark. Qed.
Lemma gd_Mark2 K m e s : goodAt K 0 (pSWSMarkCanOmmit m) e s. Proof. apply goodAt_pSWSMarkCanOmmit. Qed.
Lemma gd_LAQ K e s : goodAt K 0 pLeftAngleQuote e s. Proof. apply goodAt_pLeftAngleQuote. Qed.
Lemma gd_RAQ K e s : goodAt K 0 pRightAngleQuote e s. Proof. apply goodAt_pRightAngleQuote. Qed.
Lemma gd_CRLF K e s : goodAt K 0 pCRLF e s. Proof. apply goodAt_pCRLF. Qed.
Lemma gd_UInt K e s : goodAt K 0 pUInt e s. Proof. apply goodAt_pUInt. Qed.
Lemma gd_ret {A} K (a : A) e s : goodAt K 0 (ret a) e s. Proof. apply goodAt_ret. Qed.
Lemma gd_pfail {A} K e s : goodAt K 0 (@pfail A) e s. Proof. apply goodAt_pfail. Qed.
Lemma gd_setKnown {A} K names (name : A -> bytes) t p e s : goodAt K (2 * N.of_nat (List.length names)) (setKnown names name t p) e s.
Proof. apply goodAt_setKnown. lia. Qed.
Lemma gd_addParam {A} K en names (name : A -> bytes) t p e s : goodAt K (2 * N.of_nat (List.length names)) (addParam en names name t p) e s.
Proof. apply goodAt_addParam. lia. Qed.
#[export] Hint Resolve gd_cstring gd_cstringEmpty gd_escapable gd_escapableEmpty gd_tel gd_quoted gd_alloc gd_SWS gd_LWS gd_Hcolon gd_SWSMark gd_Mark2 gd_LAQ gd_RAQ gd_CRLF gd_UInt
  gd_ret gd_pfail gd_setKnown gd_addParam : good.
#[export] Hint Extern 0 (N.le _ _) => lia : good.
#[export] Hint Extern 0 (_ <> []) => (cbn [rest]; discriminate) : good.

(** One structural step. *)
Ltac good1 := cbn [rest used fst snd];
  lazymatch goal with
  | |- goodAt _ _ (ret _) _ _ => apply goodAt_ret
  | |- goodAt _ _ pfail _ _ => apply goodAt_pfail
  | |- goodAt _ _ (goto _) _ _ => apply goodAt_goto; cbn [rest]; auto 6 with suf
  | |- goodAt _ _ (onRest _) _ ?s => (tryif is_var s then destruct s else idtac); apply goodAt_onRest; cbn [rest]
  | |- goodAt _ _ (withEnv _) _ _ => apply goodAt_withEnv; [intros; reflexivity|cbv beta]
  | |- goodAt _ _ (bind (goto _) _) _ _ => apply goodAt_goto_bind; [cbn [rest]; solve [auto 6 with suf]|]
  | |- goodAt _ _ (bind _ _) _ _ => eapply goodAt_bind; [solve [eauto 2 with good]|lia|intros]
  | |- goodAt _ _ (match ?x with _ => _ end) _ _ => destruct x eqn:?
  | |- goodAt _ _ _ _ _ => eapply goodAt_tail; [solve [eauto 2 with good]|lia]
  end.
Ltac good := repeat good1.
