(** Messages that were read: the library's own spelling of them, and what is written for them. *)
From Verif Require Import Base Charset CharsetSpec CharsetProofs BaseLemmas Num NumSpec NumProofs Lws LwsSpec LwsProofs Str StrSpec StrProofs Monad Good Rt Seq GoodAuto Inv
  IndexTree IndexProofs MethodTree HeaderTree Lookup NameSpec NameProofs Room Host HostSpec HostProofs Uri UriSpec UriGood UriProofs UriSound Tel TelSpec TelProofs TelSound GenParam GenParamSpec GenParamProofs Addr AddrSpec AddrProofs
  StartLine StartLineSpec StartLineProofs Headers HeadersSpec HeadersProofs RawHeaders RawSpec RawProofs Msg MsgSpec MsgProofs MsgRt MsgEnc MsgWhole MsgSound P12_Messages ParsedSpec ParsedWf P20_Stable ParsedMsg RelEnc.

Lemma msg_out e s m s' : parseMsg e s = Ok m s' -> (exists s1 s2, parseStartLine e s1 = Ok (mStart m) s2) /\ hdrsOut OMsg e (mHdrs m) /\ exists s1, parseMsgBody (mHdrs m) e s1 = Ok (mBodies m) s'.
Proof.
  unfold parseMsg. intros E. apply bind_inv in E as (l & s1 & E1 & E). unfold onRest in E. destruct (rest s1) as [|x r]; [discriminate|]. apply bind_inv in E as (h & s2 & E2 & E). apply bind_inv in E as (bs & s3 & E3 & E). unfold ret in E. injection E as <- <-. cbn [mStart mHdrs mBodies].
  split; [eauto|]. split; [eapply headers_out; eauto|eauto].
Qed.
(** ** Slots *)
Lemma nth_map_combine (g : N -> hval -> hval) (l : list N) : forall cs, List.length l = List.length cs -> forall j, nth j (map (fun iv => map (g (fst iv)) (snd iv)) (combine l cs)) [] = map (g (nth j l 0)) (nth j cs []).
Proof. induction l as [|i l IH]; intros [|c cs] L [|j]; try discriminate; try reflexivity. cbn [combine map nth]. apply IH. cbn in L. lia. Qed.
Lemma nth_canon o h j : List.length (hsCommon h) = List.length (slotIndexes o) -> nth j (hsCommon (canonHdrs o h)) [] = map (canonAt (nth j (slotIndexes o) 0)) (nth j (hsCommon h) []).
Proof. intros L. unfold canonHdrs, mapHdrs. cbn [hsCommon]. apply nth_map_combine. lia. Qed.
Lemma canon_len o h : List.length (hsCommon h) = List.length (slotIndexes o) -> List.length (hsCommon (canonHdrs o h)) = List.length (slotIndexes o).
Proof. intros L. unfold canonHdrs, mapHdrs. cbn [hsCommon]. rewrite map_length, combine_length. lia. Qed.
Lemma encSlot_canon e i v : encSlotValue e i (canonAt i v) = encSlotValue e i v.
Proof. unfold encSlotValue, canonAt. destruct (hiKind _); [apply encHVal_canon|reflexivity]. Qed.
Lemma canon_rel o e0 e h : netGood e0 -> hdrsOut o e0 h -> plainHdrs o e0 h -> relHdrs o e h (canonHdrs o h).
Proof.
  intros NG (L & F & R) (P0 & Ps & Pr). split; [reflexivity|]. split; [now rewrite canon_len|]. intros j. rewrite nth_canon by exact L. destruct (Nat.le_gt_cases (List.length (hsCommon h)) j) as [Lj|Lj]; [rewrite (nth_overflow (hsCommon h)) by exact Lj; constructor|].
  assert (Hn : nth_error (slotIndexes o) j = Some (nth j (slotIndexes o) 0)) by (apply nth_error_nth'; lia). pose proof (combine_at _ (hsCommon h) _ _ [] Hn Lj) as Hi. rewrite Forall_forall in F. specialize (F _ Hi). destruct F as [F|(k & m & Np & Fv & _)]; cbn [fst snd] in *; [rewrite F; constructor|].
  apply readAs_need in Np as Rd. specialize (Ps _ _ _ _ Hi (proj1 Rd)). pose proof (need_kind _ _ _ _ _ Np) as Hk. set (i := nth j (slotIndexes o) 0) in *. generalize (nth j (hsCommon h) []) Fv Ps. clear - NG Hk. intros vs Fv Ps.
  induction vs as [|v vs IH]; [constructor|]. inversion Fv as [|v0 l0 (s & s' & Ev) Fv']; subst. inversion Ps as [|v0 l0 [P1 P2] Ps']; subst. cbn [map]. constructor; [|now apply IH]. split; [|symmetry; apply encSlot_canon]. unfold canonAt. rewrite Hk. apply same_relType. exact (proj2 (hval_out _ _ _ _ _ NG Ev P1)).
Qed.
Lemma plain_mem o m e h : plainHdrs o (withMem m e) h -> plainHdrs o e h. Proof. exact (fun H => H). Qed.
(** ** The bodies *)
Lemma strip_ok p : forall r t, stripPrefix p r = Some t -> r = p ++ t.
Proof. induction p as [|x p IH]; intros r t E; cbn in E; [now injection E as ->|]. destruct r as [|y r]; [discriminate|]. destruct (N.eqb_spec x y) as [->|]; [|discriminate]. cbn [app]. f_equal. now apply IH. Qed.
Lemma split_ok p : forall r a t, splitAt p r = Some (a, t) -> r = a ++ p ++ t.
Proof.
  induction r as [|x r IH]; intros a t; cbn [splitAt].
  - destruct (stripPrefix p []) as [t'|] eqn:E; [|discriminate]. intros [= <- <-]. exact (strip_ok _ _ _ E).
  - destruct (stripPrefix p (x :: r)) as [t'|] eqn:E; [intros [= <- <-]; exact (strip_ok _ _ _ E)|]. destruct (splitAt p r) as [[a' t']|]; [|discriminate]. intros [= <- <-]. cbn [app]. f_equal. now apply IH.
Qed.
Lemma split_first p a1 : forall q x y, splitAt p (a1 ++ p ++ q) = Some (x, y) -> (List.length x <= List.length a1)%nat.
Proof.
  induction a1 as [|c a1 IH]; intros q x y; cbn [app].
  - assert (H : stripPrefix p (p ++ q) = Some q) by (apply stripPrefix_app; reflexivity). destruct (p ++ q); cbn [splitAt]; rewrite H; intros [= <- <-]; cbn; lia.
  - cbn [splitAt]. destruct (stripPrefix p (c :: a1 ++ p ++ q)); [intros [= <- <-]; cbn; lia|]. destruct (splitAt p (a1 ++ p ++ q)) as [[x' y']|] eqn:E; [|discriminate]. intros [= <- <-]. specialize (IH _ _ _ E). cbn. lia.
Qed.
Lemma split_clean p r a t : p <> [] -> splitAt p r = Some (a, t) -> ~ occurs p a.
Proof.
  intros Hp E (a1 & a2 & Ha). pose proof (split_ok _ _ _ _ E) as Er. subst a. rewrite <- !app_assoc in Er. rewrite Er in E. apply split_first in E. rewrite !app_length in E. destruct p; [congruence|cbn in E; lia].
Qed.
Definition partOut (e : env) (b : bytes) (x : body) : Prop := hdrsOut OBody e (bHdrs x) /\ ~ occurs (CRLF ++ s2b "--" ++ b) (bData x).
Lemma parts_out e b s bs s' : parseMultiBody b e s = Ok bs s' -> Forall (partOut e b) bs.
Proof.
  unfold parseMultiBody, onRest. destruct (stripPrefix _ _) as [r'|]; [|discriminate]. rewrite goto_bind. intros E.
  apply (loopP_rule (multipartBody (13 :: 10 :: 45 :: 45 :: b)) e (fun bs _ => Forall (partOut e b) bs) (fun bs _ => Forall (partOut e b) bs) (multipart_progresses _)) with (3 := E); [|constructor].
  intros a s1 x s2 Ha Eb. unfold multipartBody, onRest in Eb. destruct (rest s1) as [|c [|d r2]]; try discriminate Eb. destruct (_ || _)%bool; [rewrite goto_bind in Eb; injection Eb as <- _; exact Ha|].
  destruct (FindCrlf _) as [[q0 r1]|]; [|discriminate]. rewrite goto_bind in Eb. apply bind_inv in Eb as (u0 & s3 & _ & Eb). apply bind_inv in Eb as (h & s4 & Eh & Eb). destruct (splitAt _ (rest s4)) as [[d0 r4]|] eqn:Es; [|discriminate].
  apply bind_inv in Eb as (o & s5 & Eo & Eb). rewrite goto_bind in Eb. injection Eb as <- _. apply Forall_app. split; [exact Ha|]. constructor; [|constructor]. split; [cbn [bHdrs]; eapply headers_out; exact Eh|]. cbn [bData].
  assert (D : o = Some d0 \/ o = None) by (unfold attempt, allocCString in Eo; destruct (leMem e _); injection Eo as Eo _; auto).
  destruct D as [-> | ->]; [eapply split_clean; [|exact Es]; discriminate|]. intros (q1 & q2 & H). destruct q1; discriminate H.
Qed.
