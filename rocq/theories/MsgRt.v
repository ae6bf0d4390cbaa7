(** Reading back what EncodeHeaders, EncodeMultiMsgBody and Encode write. *)
From Verif Require Import Base Charset CharsetSpec CharsetProofs BaseLemmas Num NumSpec NumProofs Lws LwsSpec LwsProofs Str StrSpec StrProofs Monad Good Rt Seq GoodAuto Inv
  IndexTree IndexProofs MethodTree HeaderTree Lookup NameSpec NameProofs Room Host HostSpec HostProofs Uri UriSpec UriGood UriProofs Tel TelSpec TelProofs GenParam GenParamSpec GenParamProofs Addr AddrSpec AddrProofs
  StartLine StartLineSpec StartLineProofs Headers HeadersSpec HeadersProofs RawHeaders RawSpec RawProofs Msg MsgSpec MsgProofs.

(** ** One value *)
Lemma rt_value e k v r : infinite e -> eUriNoEscape e = false -> wfHVal e k v -> hFollow e k v r -> forall u,
  exists u', parseSipX k e (mkst (ParseSWS_2 (32 :: encHVal e k v ++ r)) u) = Ok (asWritten e v) (mkst r u').
Proof.
  intros HI He W F u. unfold parseSipX. rewrite (bind_ok _ _ _ _ _ _ (rt_alloc e _ _ u HI)). destruct (rt_header e k v r (u + hvalSize k) HI He W F) as [u' E]. exists u'. rewrite <- E.
  unfold parseHeader, encHeader. replace ((hName k ++ s2b ": " ++ encHVal e k v) ++ r) with (hName k ++ 58 :: 32 :: encHVal e k v ++ r) by (rewrite <- app_assoc; reflexivity).
  rewrite (bind_ok _ _ _ _ _ _ (rt_hname e k _ _)). rewrite (bind_ok _ _ _ _ _ _ (rt_Hcolon_gen e [] (32 :: encHVal e k v ++ r) (u + hvalSize k) ltac:(constructor) : pHcolon e (mkst (58 :: 32 :: encHVal e k v ++ r) (u + hvalSize k)) = _)). reflexivity.
Qed.
(** No "@" in the parameters behind a bare address. *)
Lemma noAt_app A x q : ~ In 64 A -> rfcLWSchar x = true -> noAt (A ++ x :: q).
Proof.
  intros H Hx. induction A as [|y A IH]; [exists [], (x :: q); cbn; split; [reflexivity|]; split; [constructor|]; right; eauto|].
  destruct (N.eqb_spec y 62) as [->|N1]; [exists [], (62 :: A ++ x :: q); split; [reflexivity|]; split; [constructor|]; right; eauto|].
  destruct (rfcLWSchar y) eqn:Ey; [exists [], (y :: A ++ x :: q); split; [reflexivity|]; split; [constructor|]; right; eauto|].
  destruct IH as (a & b & E & F & B); [intros I0; apply H; now right|]. exists (y :: a), b. split; [cbn; now rewrite E|]. split; [|exact B]. constructor; [|exact F]. split; [|auto]. intros ->. apply H. now left.
Qed.
Lemma token_noAt t : wfToken t -> ~ In 64 t.
Proof. intros [_ H] I0. rewrite forallb_forall in H. apply H in I0. discriminate. Qed.
Lemma value_noAt v : match v with Some (GToken t) | Some (GQuoted t) | Some (GBracket t) => ~ In 64 t | None => True end -> ~ In 64 (encGenValue v).
Proof. destruct v as [[t|t|t]|]; cbn [encGenValue]; intros H I0; repeat (try apply in_app_or in I0; cbn [In s2b] in I0; destruct I0 as [I0|I0]); try discriminate; try contradiction; auto. Qed.
Lemma params_noAt sep names t ps : sep <> 64 -> Forall wfToken names -> Forall (fun p => wfToken (gpName p)) ps -> paramsNoAt t ps -> ~ In 64 (encGenParams sep names t ps).
Proof.
  intros Hs Hn Hp [P1 P2] I0. unfold encGenParams in I0. apply in_app_or in I0 as [I0|I0].
  - destruct t as [tbl|]; [|destruct I0]. unfold encKnown in I0. revert tbl P2 I0. induction Hn as [|n ns W _ IH]; intros tbl P2 I0; [destruct I0|].
    destruct tbl as [|o tbl]; [destruct I0|]. cbn [combine flat_map] in I0. apply in_app_or in I0 as [I0|I0]; [|eapply IH; [|exact I0]; intros p Ip; apply P2; now right].
    destruct o as [p|]; [|destruct I0]. cbn [fst snd] in I0. destruct I0 as [I0|I0]; [discriminate|]. apply in_app_or in I0 as [I0|I0]; [now apply token_noAt in I0|]. revert I0. apply value_noAt. apply (P2 p). now left.
  - apply in_flat_map in I0 as (p & Ip & I0). destruct I0 as [I0|I0]; [congruence|]. rewrite Forall_forall in *. unfold encGenParam in I0. apply in_app_or in I0 as [I0|I0]; [revert I0; apply token_noAt; now apply Hp|]. revert I0. apply value_noAt. now apply P1.
Qed.
Lemma encGen_head names t ps q : encGenParams 59 names t ps = [] \/ exists x, encGenParams 59 names t ps ++ q = 59 :: x.
Proof.
  unfold encGenParams. destruct ps as [|p ps].
  - cbn [flat_map]. rewrite app_nil_r. destruct t as [tbl|]; [|left; reflexivity]. unfold encKnown. revert tbl. induction names as [|n ns IH]; intros tbl; [left; reflexivity|]. destruct tbl as [|o tbl]; [left; reflexivity|]. cbn [combine flat_map fst snd].
    destruct o as [p|]; [right; eexists; reflexivity|]. exact (IH tbl).
  - right. destruct t as [tbl|]; [|eexists; reflexivity]. unfold encKnown. revert tbl. induction names as [|n ns IH]; intros tbl; [eexists; reflexivity|]. destruct tbl as [|o tbl]; [eexists; reflexivity|]. cbn [combine flat_map fst snd].
    destruct o as [p0|]; [eexists; reflexivity|]. exact (IH tbl).
Qed.
Lemma names_tok k : Forall wfToken (knownNames k).
Proof. destruct k; cbn [knownNames]; repeat constructor; (discriminate || (vm_compute; reflexivity)). Qed.
Lemma wfHVal_names e k a t ps : wfHVal e k (VAddr a t ps) -> Forall (fun p => wfToken (gpName p)) ps.
Proof.
  assert (G : forall on names t ps, wfGenParams on names t ps -> Forall (fun p => wfToken (gpName p)) ps) by (intros on names t0 ps0 [_ H]; eapply Forall_impl; [|exact H]; intros p [H0 _]; exact H0).
  destruct k; cbn [wfHVal]; intros H; try contradiction; try (eapply G; apply H). destruct t; [contradiction|]. destruct ps; [constructor|contradiction].
Qed.
Lemma follow_bare e k a t ps A x q : wfHVal e k (VAddr a t ps) -> delimited e (VAddr a t ps) -> bareForm e a -> ~ In 64 A -> rfcLWSchar x = true -> hostEnds (A ++ x :: q) -> stops (fun b => rfcHEXDIG b || rfcVisualSep b) (A ++ x :: q) = true ->
  bareUri (aUri a) /\ bareEnds (aUri a) (encGenParams 59 (knownNames k) t ps ++ A ++ x :: q).
Proof.
  intros W [D|[B D]] F NA Hx Hh Hv; [unfold bareForm in F; rewrite D in F; discriminate|]. split; [exact B|]. destruct (encGen_head (knownNames k) t ps (A ++ x :: q)) as [E|[y E]].
  - rewrite E. cbn [app]. unfold bareEnds. destruct (aUri a) as [w|w]; [|exact Hv]. split; [exact Hh|]. intros _. now apply noAt_app.
  - unfold bareEnds. destruct (aUri a) as [w|w]; [|rewrite E; reflexivity]. split; [rewrite E; split; [reflexivity|discriminate]|]. intros U. rewrite app_assoc. apply noAt_app; [|exact Hx]. intros I0. apply in_app_or in I0 as [I0|I0]; [|auto]. revert I0.
    apply params_noAt; [discriminate|apply names_tok|eapply wfHVal_names, W|now apply D].
Qed.
Lemma follow_line e k v q : wfHVal e k v -> delimited e v -> ~ startsWsp q -> hFollow e k v (CRLF ++ q).
Proof.
  intros W B Hq. assert (L : lineEnds (CRLF ++ q)) by (right; exists q; auto).
  destruct v; cbn [hFollow]; try (left; exact L).
  - split; [destruct k; solve [left; exact L]|]. intros F. apply (follow_bare e k _ _ _ [] 13 (10 :: q)); auto; split; [reflexivity|discriminate].
  - split; [left; exact L|]. split; [reflexivity|discriminate].
  - split; [discriminate|reflexivity].
  - split; [discriminate|reflexivity].
  - reflexivity.
  - split; reflexivity.
Qed.
Lemma follow_comma e k v q : wfHVal e k v -> delimited e v -> hFollow e k v (s2b ", " ++ q).
Proof.
  intros W B. assert (G : gpEnds 59 (s2b ", " ++ q)) by (right; exists 44, (32 :: q); repeat split; discriminate). assert (L : noSws (s2b ", " ++ q)) by (right; exists 44, (32 :: q); split; reflexivity).
  destruct v; cbn [hFollow]; auto.
  - split; [destruct k; auto|]. intros F. apply (follow_bare e k _ _ _ [44] 32 q); auto; [intros [H|[]]; discriminate|split; [reflexivity|discriminate]].
  - split; [exact G|]. split; [reflexivity|discriminate].
  - split; [discriminate|reflexivity].
  - split; [discriminate|reflexivity].

Qed.

(** ** The values of a multi-valued header *)
Lemma setNth_nth {A} (l : list A) n x d : (n < List.length l)%nat -> nth n (setNth l n x) d = x.
Proof. revert n. induction l as [|y l IH]; intros [|n] H; cbn in *; try lia; [reflexivity|apply IH; lia]. Qed.
Lemma setNth_nth_ne {A} (l : list A) n m x d : n <> m -> nth m (setNth l n x) d = nth m l d.
Proof. revert n m. induction l as [|y l IH]; intros [|n] [|m] H; cbn; try reflexivity; [congruence|apply IH; lia]. Qed.
Lemma setNth_len {A} (l : list A) n x : List.length (setNth l n x) = List.length l.
Proof. revert n. induction l as [|y l IH]; intros [|n]; cbn; auto. Qed.
Lemma setNth_twice {A} (l : list A) n x y : setNth (setNth l n x) n y = setNth l n y.
Proof. revert n. induction l as [|z l IH]; intros [|n]; cbn; auto. now rewrite IH. Qed.
Lemma setNth_same {A} (l : list A) n d : setNth l n (nth n l d) = l.
Proof. revert n. induction l as [|z l IH]; intros [|n]; cbn; auto. now rewrite IH. Qed.
Lemma fold_multi o i vs : forall a, (slotOf o i < List.length (hsCommon a))%nat ->
  fold_left (setCommon o i true) vs a = mkhset (setNth (hsCommon a) (slotOf o i) (nth (slotOf o i) (hsCommon a) [] ++ vs)) (hsRaw a).
Proof.
  induction vs as [|v vs IH]; intros a L; cbn [fold_left].
  - rewrite app_nil_r, setNth_same. destruct a; reflexivity.
  - rewrite IH; unfold setCommon; cbn [hsCommon hsRaw]; [|now rewrite setNth_len]. rewrite setNth_nth by exact L. rewrite setNth_twice, <- app_assoc. reflexivity.
Qed.
Lemma IsOnlyCRLF_line q : ~ startsWsp q -> IsOnlyCRLF (CRLF ++ q) = true.
Proof. intros H. unfold CRLF, IsOnlyCRLF. cbn [app]. destruct q as [|x q]; [reflexivity|]. destruct (IsWspChar x) eqn:E; cbn; rewrite ?E; [|reflexivity]. exfalso. apply H. exists x, q. split; [reflexivity|]. rewrite IsWspChar_isWsp in E. now apply isWsp_spec. Qed.
Lemma rt_multi e o i k vs q : infinite e -> eUriNoEscape e = false -> hiKind (slotInfo i) = Some k -> k <> KContentLength -> ~ startsWsp q ->
  Forall (fun v => wfHVal e k v /\ delimited e v) vs -> forall a v u,
  exists u', loopP (multiBody k (setCommon o i true)) (a, v) e (mkst (encMore e i vs ++ CRLF ++ q) u) = Ok (fold_left (setCommon o i true) (v :: map (asWritten e) vs) a) (mkst q u').
Proof.
  intros HI He Hk NL Hq W. induction W as [|w vs [Ww Bw] W IH]; intros a v u; rewrite loopP_unfold by apply multi_progresses; unfold multiBody at 1; rewrite onRest_eq.
  - cbn [encMore flat_map app]. change (CRLF ++ q) with (13 :: 10 :: q). cbv beta iota zeta. change (13 :: 10 :: q) with (CRLF ++ q). rewrite IsOnlyCRLF_line by exact Hq. exists u. reflexivity.
  - unfold encMore. cbn [flat_map]. fold (encMore e i vs). rewrite <- !app_assoc. set (r := encMore e i vs ++ CRLF ++ q) in *.
    assert (Ev : encSlotValue e i w = encHVal e k w) by (unfold encSlotValue; now rewrite Hk). rewrite Ev.
    change (s2b ", " ++ encHVal e k w ++ r) with (44 :: 32 :: encHVal e k w ++ r). cbv beta iota zeta. assert (C0 : IsOnlyCRLF (44 :: 32 :: encHVal e k w ++ r) = false) by (unfold IsOnlyCRLF; destruct (encHVal e k w ++ r); reflexivity). rewrite C0.
    assert (M : ParseSWSMarkCanOmmit 44 (44 :: 32 :: encHVal e k w ++ r) = (ParseSWS_2 (32 :: encHVal e k w ++ r), true, true)) by reflexivity. rewrite M. rewrite goto_bind. cbn [used].
    assert (F : hFollow e k w r).
    { unfold r. destruct W as [|w2 vs2 _ _]; [cbn [encMore flat_map app]; now apply follow_line|]. unfold encMore. cbn [flat_map]. rewrite <- !app_assoc. now apply follow_comma. }
    destruct (rt_value e k w r HI He Ww F u) as [u1 E1]. rewrite (bind_ok _ _ _ _ _ _ E1). cbn [ret fst snd]. destruct (IH (setCommon o i true a v) (asWritten e w) u1) as [u2 E2]. exists u2. exact E2.
Qed.
Lemma multi_kind : forallb (fun q => negb (hiMulti (snd q)) || match hiKind (snd q) with Some KContentLength => false | _ => true end) headerInfos = true.
Proof. vm_compute. reflexivity. Qed.
Lemma multi_notLength i x : infoOf i = Some x -> hiMulti x = true -> hiKind x <> Some KContentLength.
Proof. intros H M. apply lookupInfo_in in H. pose proof multi_kind as F. rewrite forallb_forall in F. apply F in H. cbn [snd] in H. rewrite M in H. cbn in H. intros E. rewrite E in H. discriminate. Qed.

(** ** One header *)
(** The array entry of a header that is parsed exists. *)
Lemma slot_bound o i : (slotOf o i < List.length (slotIndexes o))%nat.
Proof. unfold slotOf. destruct o; cbn [slotTable lookupSlot slotIndexes List.length]; repeat (destruct (i =? _); [lia|]); lia. Qed.
Lemma needParse_info o e i x k : infoOf i = Some x -> hiKind x = Some k -> needParse o e i <> None -> needParse o e i = Some (k, hiMulti x).
Proof. intros Hx Hk H. unfold needParse in *. rewrite Hx, Hk in *. destruct (if fHeaderAsRaw e then _ else _); [reflexivity|congruence]. Qed.
Definition hkind_eq_dec (a b : hkind) : {a = b} + {a <> b}. Proof. decide equality. Defined.
Lemma structured_info : forallb (fun q => match infoOf (fst q) with
  | Some x => match hiKind x with Some k => if hkind_eq_dec k (fst (snd q)) then Bool.eqb (hiMulti x) (snd (snd q)) else false | None => false end
  | None => false end && negb (Nat.eqb (slotOf OMsg (fst q)) 0)) structured = true.
Proof. vm_compute. reflexivity. Qed.
Lemma slots_structured : forallb (fun q => Nat.eqb (slotOf OMsg (fst q)) 0 || existsb (fun r => fst r =? fst q) structured) headerInfos = true.
Proof. vm_compute. reflexivity. Qed.
(** The headers that the code parses are those of the specification. *)
Lemma readAs_need o e i k m : readAs o e i k m <-> needParse o e i = Some (k, m).
Proof.
  assert (C3 : contentHdr i = true <-> In i [SIP_HDR_CONTENT_TYPE; SIP_HDR_CONTENT_LENGTH; SIP_HDR_CONTENT_DISPOSITION]).
  { unfold contentHdr. rewrite !orb_true_iff, !N.eqb_eq. cbn [In]. intuition congruence. }
  assert (T : (if fHeaderAsRaw e then contentHdr i else negb (Nat.eqb (slotOf o i) 0) && (contentHdr i || eNeed e i)) = true <->
    if fHeaderAsRaw e then In i [SIP_HDR_CONTENT_TYPE; SIP_HDR_CONTENT_LENGTH; SIP_HDR_CONTENT_DISPOSITION]
    else slotOf o i <> 0%nat /\ (In i [SIP_HDR_CONTENT_TYPE; SIP_HDR_CONTENT_LENGTH; SIP_HDR_CONTENT_DISPOSITION] \/ eNeed e i = true)).
  { destruct (fHeaderAsRaw e); [exact C3|]. rewrite andb_true_iff, orb_true_iff, negb_true_iff, Nat.eqb_neq, C3. reflexivity. }
  assert (B : slotOf OBody i <> 0%nat <-> In i [SIP_HDR_CONTENT_LENGTH; SIP_HDR_CONTENT_DISPOSITION]).
  { unfold slotOf. cbn [slotTable lookupSlot]. destruct (N.eqb_spec i SIP_HDR_CONTENT_TYPE) as [->|N0]; [split; [congruence|intros [H|[H|[]]]; discriminate]|].
    destruct (N.eqb_spec i SIP_HDR_CONTENT_LENGTH) as [->|N1]; [split; [left; reflexivity|discriminate]|].
    destruct (N.eqb_spec i SIP_HDR_CONTENT_DISPOSITION) as [->|N2]; [split; [right; left; reflexivity|discriminate]|].
    split; [congruence|]. intros [H|[H|[]]]; congruence. }
  unfold readAs, isRead, needParse. split.
  - intros [I R]. pose proof structured_info as F. rewrite forallb_forall in F. apply F in I. cbn [fst snd] in I. apply andb_prop in I as [I1 I2].
    apply negb_true_iff, Nat.eqb_neq in I2. destruct (infoOf i) as [x|]; [|discriminate]. destruct (hiKind x) as [k'|]; [|discriminate].
    destruct (hkind_eq_dec k' k) as [->|]; [|discriminate]. apply eqb_prop in I1. subst m.
    rewrite (proj2 T); [reflexivity|]. destruct (fHeaderAsRaw e); [exact R|]. destruct o; [split; [exact I2|exact R]|]. split; [now apply B|]. left. destruct R as [<-|[<-|[]]]; cbn; auto.
  - intros H. destruct (if fHeaderAsRaw e then _ else _); [|discriminate]. pose proof (proj1 T eq_refl) as T1. clear T.
    destruct (infoOf i) as [x|] eqn:Ex; [|discriminate]. destruct (hiKind x) as [k'|] eqn:Ek; [|discriminate]. injection H as -> <-.
    assert (Hs : slotOf OMsg i <> 0%nat).
    { destruct (fHeaderAsRaw e); [destruct T1 as [<-|[<-|[<-|[]]]]; discriminate|]. destruct T1 as [T1 _]. destruct o; [exact T1|]. apply B in T1. destruct T1 as [<-|[<-|[]]]; discriminate. }
    split; [|destruct (fHeaderAsRaw e); [exact T1|destruct T1 as [T1 T2]; destruct o; [exact T2|now apply B]]].
    pose proof (lookupInfo_in _ _ _ Ex) as Hi. pose proof slots_structured as F. rewrite forallb_forall in F. apply F in Hi. cbn [fst] in Hi. apply orb_prop in Hi as [Hi|Hi]; [apply Nat.eqb_eq in Hi; congruence|].
    apply existsb_exists in Hi as ([j [k2 m2]] & Hj & E). cbn [fst] in E. apply N.eqb_eq in E. subst j. pose proof structured_info as G. rewrite forallb_forall in G. pose proof (G _ Hj) as G1. cbn [fst snd] in G1.
    rewrite Ex, Ek in G1. apply andb_prop in G1 as [G1 _]. destruct (hkind_eq_dec k k2) as [<-|]; [|discriminate]. apply eqb_prop in G1. now subst.
Qed.
Lemma not_read o e i : (forall k m, ~ readAs o e i k m) <-> needParse o e i = None.
Proof.
  split; [|intros H k m R; apply readAs_need in R; congruence]. intros H. destruct (needParse o e i) as [[k m]|] eqn:E; [|reflexivity]. exfalso. apply (H k m). now apply readAs_need.
Qed.
Lemma slot_cases o e iv : wfSlot o e iv <-> snd iv = [] \/
  exists x k, infoOf (fst iv) = Some x /\ hiKind x = Some k /\ needParse o e (fst iv) <> None /\
    Forall (fun v => wfHVal e k v /\ delimited e v) (snd iv) /\ (hiMulti x = false -> List.length (snd iv) = 1%nat).
Proof.
  unfold wfSlot. split.
  - intros [H|(k & m & R & H)]; [left; exact H|]. right. apply readAs_need in R. assert (X : exists x, infoOf (fst iv) = Some x /\ hiKind x = Some k /\ hiMulti x = m).
    { unfold needParse in R. destruct (if fHeaderAsRaw e then _ else _); [|discriminate]. destruct (infoOf (fst iv)) as [x|]; [|discriminate]. destruct (hiKind x) as [k'|] eqn:Ek; [|discriminate]. injection R as -> <-. exists x. auto. }
    destruct X as (x & X1 & X2 & <-). exists x, k. rewrite R. split; [exact X1|]. split; [exact X2|]. split; [discriminate|exact H].
  - intros [H|(x & k & Hx & Hk & Np & H)]; [left; exact H|]. right. exists k, (hiMulti x). split; [|exact H]. apply readAs_need. now apply needParse_info.
Qed.
Definition putSlot (o : owner) (e : env) (a : hset) (iv : N * list hval) : hset := mkhset (setNth (hsCommon a) (slotOf o (fst iv)) (map (asWritten e) (snd iv))) (hsRaw a).
Lemma rt_slot e o iv q a u : infinite e -> eUriNoEscape e = false -> wfSlot o e iv -> snd iv <> [] -> ~ startsWsp q -> fst iv <> SIP_HDR_UNKNOWN ->
  (slotOf o (fst iv) < List.length (hsCommon a))%nat -> nth (slotOf o (fst iv)) (hsCommon a) [] = [] ->
  exists u', headersBody (oneHeader o) a e (mkst (encSlot e iv ++ q) u) = Ok (inl (putSlot o e a iv)) (mkst q u').
Proof.
  intros HI He W Hne Hq Hi L Hn. destruct iv as [i vs]. cbn [fst snd] in *. apply slot_cases in W. destruct W as [W|(x & k & Hx & Hk & Np & Wv & Hm)]; cbn [fst snd] in *; [congruence|].
  destruct vs as [|v vs]; [congruence|]. inversion Wv as [|? ? [Wv1 Bv1] Wvs]; subst. unfold encSlot. cbn [fst snd]. rewrite <- !app_assoc.
  assert (Es : slotInfo i = x) by (unfold slotInfo; now rewrite Hx). assert (Ev : encSlotValue e i v = encHVal e k v) by (unfold encSlotValue; now rewrite Es, Hk). rewrite Es, Ev.
  set (r := (if hiMulti x then encMore e i vs else []) ++ CRLF ++ q).
  assert (F : hFollow e k v r).
  { unfold r. destruct (hiMulti x); [|now apply follow_line]. destruct vs as [|w2 vs2]; [cbn [encMore flat_map app]; now apply follow_line|]. unfold encMore. cbn [flat_map]. rewrite <- !app_assoc. now apply follow_comma. }
  pose proof (info_recognised i x Hx Hi) as In1. unfold headersBody. rewrite onRest_eq.
  assert (Nm : nameIs (hiName x) None i) by (exact (NKnown _ _ _ In1 eq_refl)). destruct (name_start _ _ _ (s2b ": " ++ encHVal e k v ++ r) Nm) as (C1 & _ & C3).
  destruct (name_complete e (hiName x) None i [] (32 :: encHVal e k v ++ r) u HI Nm ltac:(constructor)) as [u1 E1]. cbn [app] in E1. change (s2b ": " ++ encHVal e k v ++ r) with (58 :: 32 :: encHVal e k v ++ r) in *.
  destruct (hiName x ++ 58 :: 32 :: encHVal e k v ++ r) as [|z zs]; [congruence|]. rewrite C1. rewrite (bind_ok _ _ _ _ _ _ E1). cbn [fst snd].
  assert (E2 : exists u2, oneHeader o a None i e (mkst (ParseSWS_2 (32 :: encHVal e k v ++ r)) u1) = Ok (putSlot o e a (i, v :: vs)) (mkst q u2)).
  { unfold oneHeader, withEnv. rewrite (needParse_info o e i x k Hx Hk Np). destruct (rt_value e k v r HI He Wv1 F u1) as [u2 E2]. rewrite (bind_ok _ _ _ _ _ _ E2). unfold r. unfold putSlot. cbn [fst snd].
    destruct (hiMulti x) eqn:Mx.
    - destruct (rt_multi e o i k vs q HI He ltac:(now rewrite Es) ltac:(intros ->; exact (multi_notLength i x Hx Mx Hk)) Hq Wvs a (asWritten e v) u2) as [u3 E3]. exists u3. rewrite E3. f_equal.
      rewrite fold_multi by exact L. rewrite Hn. reflexivity.
    - assert (vs = []) as -> by (specialize (Hm eq_refl); destruct vs; [reflexivity|discriminate]). cbn [app]. rewrite (bind_ok _ _ _ _ _ _ (eq_refl : pCRLF e (mkst (CRLF ++ q) u2) = Ok tt (mkst q u2))).
      exists u2. unfold ret, setCommon. cbn [map]. reflexivity. }
  destruct E2 as [u2 E2]. exists u2. rewrite (bind_ok _ _ _ _ _ _ E2). reflexivity.
Qed.

(** ** All headers *)
Lemma one_progresses o : progresses (headersBody (oneHeader o)).
Proof. apply (headers_progresses 230 408). intros. apply gd_oneHeader. lia. Qed.
Lemma slot_start e o iv q : wfSlot o e iv -> snd iv <> [] -> fst iv <> SIP_HDR_UNKNOWN -> ~ startsWsp (encSlot e iv ++ q).
Proof.
  intros W Hne Hi. apply slot_cases in W as [W|(x & k & Hx & Hk & Np & Wv & Hm)]; [congruence|]. destruct iv as [i vs]. cbn [fst snd] in *. destruct vs as [|v vs]; [congruence|]. unfold encSlot. cbn [fst snd].
  assert (Es : slotInfo i = x) by (unfold slotInfo; now rewrite Hx). rewrite Es, <- !app_assoc. pose proof (info_recognised i x Hx Hi) as In1.
  apply (name_start _ None i _ (NKnown _ _ _ In1 eq_refl)).
Qed.
Lemma slots_start e o sl q : Forall (wfSlot o e) sl -> Forall (fun iv => fst iv <> SIP_HDR_UNKNOWN) sl -> ~ startsWsp q -> ~ startsWsp (flat_map (encSlot e) sl ++ q).
Proof.
  intros W U Hq. induction W as [|iv sl Wi W IH]; cbn [flat_map app]; [exact Hq|]. inversion U; subst. rewrite <- app_assoc. destruct iv as [i [|v vs]]; [cbn [encSlot snd app]; auto|]. apply (slot_start e o); auto. discriminate.
Qed.
Lemma rt_slots e o q : infinite e -> eUriNoEscape e = false -> ~ startsWsp q -> forall sl a u, Forall (wfSlot o e) sl -> Forall (fun iv => fst iv <> SIP_HDR_UNKNOWN) sl ->
  NoDup (map (fun iv => slotOf o (fst iv)) sl) -> Forall (fun iv => nth (slotOf o (fst iv)) (hsCommon a) [] = []) sl -> List.length (hsCommon a) = List.length (slotIndexes o) ->
  exists u', loopP (headersBody (oneHeader o)) a e (mkst (flat_map (encSlot e) sl ++ q) u) = loopP (headersBody (oneHeader o)) (fold_left (putSlot o e) sl a) e (mkst q u').
Proof.
  intros HI He Hq. induction sl as [|iv sl IH]; intros a u W U Nd Em L; [exists u; reflexivity|]. inversion W as [|? ? Wi W']; subst. inversion U as [|? ? Ui U']; subst. inversion Nd as [|? ? Nx Nd']; subst. inversion Em as [|? ? Ei Em']; subst.
  cbn [flat_map fold_left]. rewrite <- app_assoc. assert (Bd := slot_bound o (fst iv)).
  assert (L2 : List.length (hsCommon (putSlot o e a iv)) = List.length (slotIndexes o)) by (unfold putSlot; cbn [hsCommon]; now rewrite setNth_len).
  assert (Em2 : Forall (fun iv0 => nth (slotOf o (fst iv0)) (hsCommon (putSlot o e a iv)) [] = []) sl).
  { apply Forall_forall. intros y Hy. rewrite Forall_forall in Em'. unfold putSlot. cbn [hsCommon]. rewrite setNth_nth_ne; [auto|]. intros E. apply Nx. rewrite E. apply in_map_iff. exists y. auto. }
  destruct iv as [i [|v vs]].
  - cbn [encSlot snd app]. assert (Ea : putSlot o e a (i, []) = a) by (unfold putSlot; cbn [fst snd map] in *; rewrite <- Ei, setNth_same; destruct a; reflexivity). rewrite Ea in *. auto.
  - set (q2 := flat_map (encSlot e) sl ++ q) in *. assert (Hq2 : ~ startsWsp q2) by (now apply (slots_start e o)).
    destruct (rt_slot e o (i, v :: vs) q2 a u HI He Wi ltac:(discriminate) Hq2 Ui ltac:(lia) Ei) as [u1 E1]. rewrite loopP_unfold by apply one_progresses. rewrite E1. apply IH; auto.
Qed.
Lemma rt_rawHdrs2 e o hs t : infinite e -> Forall (fun x => wfRaw x /\ forall k several, ~ readAs o e (rId x) k several) hs -> forall a u,
  exists u', loopP (headersBody (oneHeader o)) a e (mkst (encRawHeaders hs ++ CRLF ++ t) u) = Ok (mkhset (hsCommon a) (hsRaw a ++ hs)) (mkst t u').
Proof.
  intros HI W. induction W as [|h hs [Wh Np] W IH]; [|apply not_read in Np]; intros a u; rewrite loopP_unfold by apply one_progresses; unfold headersBody at 1; rewrite onRest_eq.
  - cbn [encRawHeaders flat_map app]. exists u. rewrite app_nil_r. destruct a; reflexivity.
  - unfold encRawHeaders. cbn [flat_map]. fold (encRawHeaders hs). set (q := encRawHeaders hs ++ CRLF ++ t) in *.
    assert (Q : ~ startsWsp q) by (apply encRaw_nowsp; eapply Forall_impl; [|exact W]; intros ? [H _]; exact H).
    replace ((encRaw h ++ encRawHeaders hs) ++ CRLF ++ t) with (rawName h ++ s2b ": " ++ rValue h ++ CRLF ++ q) by (unfold encRaw, q; now rewrite <- !app_assoc).
    destruct (token_start (rawName h) (s2b ": " ++ rValue h ++ CRLF ++ q) (rawName_token _ Wh)) as (C1 & _ & C3).
    pose proof (proj1 Wh) as Wv. destruct (rt_rawName e h (rValue h ++ CRLF ++ q) u HI Wh (rawValue_plain _ _ Wv)) as [u1 E1].
    destruct (rawName h ++ s2b ": " ++ rValue h ++ CRLF ++ q) as [|z zs]; [congruence|]. rewrite C1.
    rewrite (bind_ok _ _ _ _ _ _ E1). cbn [fst snd].
    destruct (rt_rawValue e (rValue h) q (u1 + 8) HI Wv Q) as [u2 E2].
    assert (E3 : oneHeader o a (rName h) (rId h) e (mkst (rValue h ++ CRLF ++ q) u1) = Ok (addRaw a h) (mkst q u2)).
    { unfold oneHeader, withEnv. rewrite Np. unfold rawHeader. rewrite (bind_ok _ _ _ _ _ _ (eq_trans (bind_ok _ _ _ _ _ _ (rt_alloc e 8 _ u1 HI)) (bind_ok _ _ _ _ _ _ E2))). destruct h; reflexivity. }
    rewrite (bind_ok _ _ _ _ _ _ E3). unfold ret at 1. destruct (IH (addRaw a h) u2) as [u3 E4]. exists u3. rewrite E4. unfold addRaw. cbn [hsCommon hsRaw]. now rewrite <- app_assoc.
Qed.
Lemma slotIndexes_known o : Forall (fun i => i <> SIP_HDR_UNKNOWN) (tl (slotIndexes o)).
Proof. apply Forall_forall. intros i Hi. destruct o; vm_compute in Hi; intuition (subst; discriminate). Qed.
Lemma slotIndexes_nodup o : map (slotOf o) (tl (slotIndexes o)) = seq 1 (List.length (slotIndexes o) - 1).
Proof. destruct o; vm_compute; reflexivity. Qed.
Lemma combine_tl {A B} (l : list A) (m : list B) : tl (combine l m) = combine (tl l) (tl m).
Proof. destruct l, m; cbn; try reflexivity. now destruct l. Qed.
Lemma map_fst_combine {A B} (l : list A) : forall (m : list B), List.length l = List.length m -> map fst (combine l m) = l.
Proof. induction l as [|x l IH]; intros [|y m] H; try discriminate; cbn; [reflexivity|]. f_equal. apply IH. now injection H. Qed.
Lemma Forall_tl {A} (Q : A -> Prop) l : Forall Q l -> Forall Q (tl l). Proof. intros H. destruct H; cbn; auto. Qed.
Lemma len_tl {A} (l : list A) : List.length (tl l) = (List.length l - 1)%nat. Proof. destruct l; cbn; lia. Qed.
Lemma fold_slots o e (cs : list (list hval)) : List.length cs = List.length (slotIndexes o) -> nth 0 cs [] = [] ->
  fold_left (putSlot o e) (tl (combine (slotIndexes o) cs)) (emptyHdrs o) = mkhset (map (map (asWritten e)) cs) [].
Proof.
  intros L H0. destruct o; cbn [slotIndexes List.length] in L.
  - do 19 (destruct cs as [|? cs]; [discriminate L|]). destruct cs; [|discriminate L]. cbn [nth] in H0. subst. reflexivity.
  - do 3 (destruct cs as [|? cs]; [discriminate L|]). destruct cs; [|discriminate L]. cbn [nth] in H0. subst. reflexivity.
Qed.
Lemma encHdrs_start o e h t : wfHdrs o e h -> ~ startsWsp (encHdrs o e h ++ CRLF ++ t).
Proof.
  intros (L & H0 & Ws & Wr). unfold encHdrs. rewrite <- app_assoc. apply (slots_start e o); [now apply Forall_tl| |].
  - rewrite combine_tl. apply Forall_forall. intros [i v] Hi. apply in_combine_l in Hi. cbn [fst]. pose proof (slotIndexes_known o) as F. rewrite Forall_forall in F. auto.
  - apply encRaw_nowsp. eapply Forall_impl; [|exact Wr]. intros ? [H _]; exact H.
Qed.
Lemma rt_headers e o h t u : infinite e -> eUriNoEscape e = false -> wfHdrs o e h -> exists u', parseHeaders o e (mkst (encHdrs o e h ++ CRLF ++ t) u) = Ok (hdrsAsWritten e h) (mkst t u').
Proof.
  intros HI He (L & H0 & Ws & Wr). unfold parseHeaders, encHdrs. rewrite <- app_assoc. set (sl := tl (combine (slotIndexes o) (hsCommon h))).
  assert (Ksl : map fst sl = tl (slotIndexes o)) by (unfold sl; rewrite combine_tl; apply map_fst_combine; rewrite !len_tl; lia).
  destruct (rt_slots e o (encRawHeaders (hsRaw h) ++ CRLF ++ t) HI He ltac:(apply encRaw_nowsp; eapply Forall_impl; [|exact Wr]; intros ? [H _]; exact H) sl (emptyHdrs o) u) as [u1 E1].
  - now apply Forall_tl.
  - apply Forall_forall. intros iv Hiv. pose proof (slotIndexes_known o) as F. rewrite Forall_forall in F. apply F. rewrite <- Ksl. apply in_map. exact Hiv.
  - rewrite <- (map_map fst (slotOf o)), Ksl, slotIndexes_nodup. apply seq_NoDup.
  - apply Forall_forall. intros iv _. unfold emptyHdrs. cbn [hsCommon]. apply nth_repeat.
  - unfold emptyHdrs. cbn [hsCommon]. apply repeat_length.
  - rewrite E1. unfold sl. rewrite fold_slots by auto. destruct (rt_rawHdrs2 e o (hsRaw h) t HI Wr (mkhset (map (map (asWritten e)) (hsCommon h)) []) u1) as [u2 E2]. exists u2. exact E2.
Qed.

(** ** Multipart bodies *)
Lemma splitAt_first b d t : ~ In 13 b -> ~ occurs (13 :: 10 :: 45 :: 45 :: b) d -> splitAt (13 :: 10 :: 45 :: 45 :: b) (d ++ (13 :: 10 :: 45 :: 45 :: b) ++ t) = Some (d, t).
Proof.
  intros Hb. set (dl := 13 :: 10 :: 45 :: 45 :: b).
  assert (Hdl : forall x p l, dl = x :: p ++ 13 :: l -> False).
  { intros x p l E. unfold dl in E. injection E as _ E. assert (I : In 13 (10 :: 45 :: 45 :: b)) by (rewrite E; apply in_or_app; right; left; reflexivity). destruct I as [I|[I|[I|I]]]; try discriminate. exact (Hb I). }
  induction d as [|x d IH]; intros Ho.
  - cbn [app]. assert (E : stripPrefix dl (dl ++ t) = Some t) by (now apply stripPrefix_app). unfold dl in *. cbn [app splitAt] in *. rewrite E. reflexivity.
  - cbn [app splitAt]. destruct (stripPrefix dl (x :: d ++ dl ++ t)) as [t'|] eqn:E.
    + exfalso. apply stripPrefix_app in E. change (x :: d ++ dl ++ t) with ((x :: d) ++ dl ++ t) in E. apply app_eq_app in E as (l & [(E1 & E2)|(E1 & E2)]).
      * apply Ho. exists [], l. exact E1.
      * destruct l as [|y l]; [apply Ho; exists [], []; rewrite app_nil_r in *; cbn [app]; congruence|]. cbn [app] in E1. assert (y = 13) by (unfold dl in E2; cbn [app] in E2; now injection E2). subst y. exact (Hdl x d l E1).
    + rewrite IH; [reflexivity|]. intros (p & q & ->). apply Ho. exists (x :: p), q. reflexivity.
Qed.
Lemma FindCrlf_empty q : ~ startsWsp q -> FindCrlf (CRLF ++ q) = Some ([13], q).
Proof.
  intros Hq. apply FindCrlf_spec. exists [13]. split; [split; [reflexivity|]; split; [|exact Hq]|].
  - intros a b E. destruct a as [|? [|? ?]]; discriminate.
  - right. split; [reflexivity|]. intros (p & Hp & E). destruct p as [|? [|? ?]]; try discriminate. congruence.
Qed.
Lemma rt_part e b bd bs t u : infinite e -> eUriNoEscape e = false -> ~ In 13 b -> wfPart e b bd ->
  exists u', multipartBody (13 :: 10 :: 45 :: 45 :: b) bs e (mkst (CRLF ++ encBody e bd ++ (13 :: 10 :: 45 :: 45 :: b) ++ t) u) = Ok (inl (bs ++ [partAsWritten e bd])) (mkst t u').
Proof.
  intros HI He Hb [Wh Wd]. unfold multipartBody. rewrite onRest_eq. set (dl := 13 :: 10 :: 45 :: 45 :: b) in *. unfold encBody. rewrite <- !app_assoc.
  assert (F : FindCrlf (CRLF ++ encHdrs OBody e (bHdrs bd) ++ CRLF ++ bData bd ++ dl ++ t) = Some ([13], encHdrs OBody e (bHdrs bd) ++ CRLF ++ bData bd ++ dl ++ t)) by (apply FindCrlf_empty, encHdrs_start, Wh).
  change (CRLF ++ encHdrs OBody e (bHdrs bd) ++ CRLF ++ bData bd ++ dl ++ t) with (13 :: 10 :: encHdrs OBody e (bHdrs bd) ++ CRLF ++ bData bd ++ dl ++ t) in *. cbv iota.
  change ((13 =? 45) || (10 =? 45))%bool with false. cbv iota. rewrite F. rewrite goto_bind. cbn [used]. rewrite (bind_ok _ _ _ _ _ _ (rt_alloc e 16 _ u HI)).
  destruct (rt_headers e OBody (bHdrs bd) (bData bd ++ dl ++ t) (u + 16) HI He Wh) as [u1 E1]. rewrite (bind_ok _ _ _ _ _ _ E1). rewrite onRest_eq. unfold dl at 1 2. rewrite splitAt_first by assumption. fold dl.
  unfold attempt, allocCString, bind, leMem. rewrite HI. cbn [goto ret used]. eexists. reflexivity.
Qed.
Lemma rt_parts e b t : infinite e -> eUriNoEscape e = false -> ~ In 13 b -> forall bs, Forall (wfPart e b) bs -> forall acc u,
  exists u', loopP (multipartBody (13 :: 10 :: 45 :: 45 :: b)) acc e (mkst (flat_map (fun x => CRLF ++ encBody e x ++ 13 :: 10 :: 45 :: 45 :: b) bs ++ 45 :: 45 :: t) u) = Ok (acc ++ map (partAsWritten e) bs) (mkst t u').
Proof.
  intros HI He Hb bs W. induction W as [|x bs Wx W IH]; intros acc u; rewrite loopP_unfold by apply multipart_progresses.
  - cbn [flat_map app map]. rewrite app_nil_r. exists u. reflexivity.
  - cbn [flat_map map]. rewrite <- !app_assoc. destruct (rt_part e b x acc (flat_map (fun y => CRLF ++ encBody e y ++ 13 :: 10 :: 45 :: 45 :: b) bs ++ 45 :: 45 :: t) u HI He Hb Wx) as [u1 E1]. rewrite E1.
    destruct (IH (acc ++ [partAsWritten e x]) u1) as [u2 E2]. exists u2. rewrite E2, <- app_assoc. reflexivity.
Qed.
Lemma encMultipart_shape e b bs : encMultipart e b bs = 45 :: 45 :: b ++ flat_map (fun x => CRLF ++ encBody e (fixLength x) ++ 13 :: 10 :: 45 :: 45 :: b) bs ++ [45; 45].
Proof.
  unfold encMultipart. induction bs as [|x bs IH]; cbn [flat_map]; [reflexivity|]. rewrite <- !app_assoc, IH. change (s2b "--") with [45; 45]. cbn [app]. reflexivity.
Qed.
Lemma fixLength_part b : len (bData b) < two32 -> fixLength b = partWithLength b.
Proof. intros H. unfold fixLength, partWithLength. destruct (nth 1 _ _); [reflexivity|]. now rewrite N.mod_small. Qed.
Lemma wf_partWithLength e bo b : wfPart e bo b -> len (bData b) < two32 -> wfPart e bo (partWithLength b).
Proof.
  intros [(L & H0 & Ws & Wr) Wd] HL. unfold partWithLength. destruct (nth 1 (hsCommon (bHdrs b)) []) as [|v vs] eqn:E1; [split; [split; auto|exact Wd]|]. split; [|exact Wd]. cbn [bHdrs bData].
  destruct (bHdrs b) as [cs rs]. cbn [hsCommon hsRaw slotIndexes List.length] in *. do 3 (destruct cs as [|? cs]; [discriminate L|]). destruct cs; [|discriminate L]. cbn [nth] in E1, H0. subst. unfold wfHdrs. cbn [hsCommon hsRaw setNth slotIndexes List.length nth].
  split; [reflexivity|]. split; [reflexivity|]. split; [|exact Wr]. cbn [combine] in *. inversion Ws as [|? ? W1 Ws1]; subst. inversion Ws1 as [|? ? W2 Ws2]; subst. constructor; [exact W1|]. constructor; [|exact Ws2].
  apply slot_cases. right. apply slot_cases in W2 as [W2|(x & k & Hx & Hk & Np & _)]; [discriminate|]. exists x, k. cbn [fst snd] in *. repeat split; auto. constructor; [|constructor]. split; [|exact I].
  vm_compute in Hx. injection Hx as <-. injection Hk as <-. exact HL.
Qed.
Lemma rt_multipart e b bs t u : infinite e -> eUriNoEscape e = false -> ~ In 13 b -> Forall (wfPart e b) bs -> Forall (fun x => len (bData x) < two32) bs ->
  exists u', parseMultiBody b e (mkst (encMultipart e b bs ++ t) u) = Ok (map (fun x => partAsWritten e (partWithLength x)) bs) (mkst t u').
Proof.
  intros HI He Hb W HL. unfold parseMultiBody. rewrite onRest_eq, encMultipart_shape. cbn [app]. rewrite <- !app_assoc.
  assert (E : stripPrefix (45 :: 45 :: b) (45 :: 45 :: b ++ flat_map (fun x => CRLF ++ encBody e (fixLength x) ++ 13 :: 10 :: 45 :: 45 :: b) bs ++ [45; 45] ++ t)
    = Some (flat_map (fun x => CRLF ++ encBody e (fixLength x) ++ 13 :: 10 :: 45 :: 45 :: b) bs ++ [45; 45] ++ t)) by (now apply stripPrefix_app). rewrite E. rewrite goto_bind. cbn [used].
  destruct (rt_parts e b t HI He Hb (map partWithLength bs)) with (acc := @nil body) (u := u) as [u' E'].
  - apply Forall_map. rewrite Forall_forall in *. intros x Hx. apply wf_partWithLength; auto.
  - exists u'. rewrite map_map in E'. cbn [app] in E'. rewrite <- E'. cbn [app]. f_equal. f_equal. f_equal. rewrite flat_map_concat_map, (flat_map_concat_map _ (map _ bs)), map_map. f_equal. apply map_ext_in. intros x Hx. rewrite Forall_forall in HL. now rewrite fixLength_part by auto.
Qed.
