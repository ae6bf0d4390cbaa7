(** C60: framing: the header section ends at the first empty line, and the body has no influence on how the header section is read. *)
From Verif Require Import Base BaseLemmas Charset CharsetSpec Num NumSpec Lws LwsSpec Str StrSpec MethodTree HeaderTree Monad Good Room Rt Seq Inv
  Host HostSpec Uri UriSpec Addr StartLine StartLineSpec Headers HeadersSpec RawHeaders RawSpec RawProofs Msg MsgSpec MsgProofs MsgRt
  GrammarSpec Exact GrammarMsg ExactMsg ExactHead GrammarWhole ExactName ExactWhole FramingSpec Behind Framing Nine NineParse P05_Uri P19_World P26_Grammar.
From Coq Require Import String.
Open Scope N_scope.

(** A message with an ordinary header section [a], an empty line - the first one - and a body [b]. Whatever is accepted, in any arena: the start line and the header fields are read from [a] and the two
    line ends, to their last byte and no further, and the bodies from [b]. *)
Theorem C60_framing : forall e a b u m s', parseMsg e (mkst (a ++ [13; 10; 13; 10] ++ b) u) = Ok m s' -> FirstAt [13; 10; 13; 10] a b -> ordinary a ->
  exists tl l tf fs tb bs, a ++ [13; 10; 13; 10] = tl ++ tf /\ StartLineRead e tl l (tf ++ b) /\ FieldsRead e OMsg tf fs b /\ m = mkmsg l (collect OMsg fs) bs /\
    b = tb ++ rest s' /\ BodiesRead e (collect OMsg fs) tb bs (rest s').
Proof.
  intros e a b u m s' E Fa Ho. destruct (msg_end _ _ _ _ _ _ E Fa Ho) as (tl & l & tf & fs & tb & bs & H1 & H2 & H3 & H4). exists tl, l, tf, fs, tb, bs. pose proof (closed_fields _ _ _ _ _ H3). auto.
Qed.
Print Assumptions C60_framing.
(** The same for a block of headers alone, of a message or a body part: the position is behind the empty line. *)
Theorem C60_block_framing : forall o e a b u h s', parseHeaders o e (mkst (a ++ [13; 10; 13; 10] ++ b) u) = Ok h s' -> FirstAt [13; 10; 13; 10] a b -> ordinary a -> ~ startsCRLF (a ++ [13; 10; 13; 10] ++ b) ->
  rest s' = b /\ exists fs, FieldsRead e o (a ++ [13; 10; 13; 10]) fs b /\ h = collect o fs.
Proof.
  intros o e a b u h s' E Fa Ho Hs. destruct (block_end _ _ _ _ _ _ _ E (first_endAt _ _ Fa Ho Hs)) as (R & t & fs & Et & C & Eh). split; [exact R|]. exists fs. rewrite app_assoc in Et. apply app_inv_tail in Et. subst t.
  split; [exact (closed_fields _ _ _ _ _ C)|exact Eh].
Qed.
Print Assumptions C60_block_framing.

(** ** Another body *)
Lemma msg_room e r u : roomFor e (u + 57 + 9 * len r) -> parseMsg e (mkst r u) = parseMsg (withMem None e) (mkst r u).
Proof. intros H. apply (nine_room _ _ _ _ _ n_msg); [lia|exact H]. Qed.
Lemma other_body e a b b' u m s' : memend e = None -> parseMsg e (mkst (a ++ [13; 10; 13; 10] ++ b) u) = Ok m s' -> FirstAt [13; 10; 13; 10] a b -> ordinary a ->
  exists tl tf fs, a ++ [13; 10; 13; 10] = tl ++ tf /\ StartLineRead e tl (mStart m) (tf ++ b') /\ ClosedRead e OMsg tf fs b' /\ mHdrs m = collect OMsg fs.
Proof.
  intros Hm E Fa Ho. destruct (msg_end _ _ _ _ _ _ E Fa Ho) as (tl & l & tf & fs & tb & bs & H1 & H2 & H3 & -> & _). exists tl, tf, fs. split; [exact H1|]. split; [|split; [eapply near_closed; exact H3|reflexivity]].
  eapply near_startLine; [|exact H2]. eapply closed_line. exact H3.
Qed.
Lemma fields_unique e : memend e = None -> forall t fs k t' fs' k', FieldsRead e OMsg t fs k -> FieldsRead e OMsg t' fs' k' -> t ++ k = t' ++ k' -> t = t' /\ collect OMsg fs = collect OMsg fs' /\ k = k'.
Proof.
  intros Hm t fs k t' fs' k' H H' E. exact (unambiguous e _ _ _ _ _ _ _ _ (exact_headers e OMsg) Hm (ex_intro _ fs (conj H eq_refl)) (ex_intro _ fs' (conj H' eq_refl)) E).
Qed.
Lemma first_any p a b b' : FirstAt p a b -> FirstAt p a b'.
Proof.
  intros H d k E. destruct (Nat.le_gt_cases (List.length a) (List.length d)) as [L|L]; [exact L|]. exfalso. assert (Q : exists x, a ++ p = d ++ p ++ x).
  { exists (firstn (List.length (a ++ p) - List.length (d ++ p)) k). assert (F := f_equal (firstn (List.length (a ++ p))) E). rewrite app_assoc, firstn_app, Nat.sub_diag, firstn_O, app_nil_r, firstn_all in F. etransitivity; [exact F|]. rewrite (app_assoc d p k), firstn_app, firstn_all2, <- app_assoc; [reflexivity|].
    rewrite !app_length. lia. }
  destruct Q as (x & Q). assert (G : a ++ p ++ b = d ++ p ++ x ++ b) by (rewrite app_assoc, Q, <- !app_assoc; reflexivity). specialize (H d (x ++ b) G). lia.
Qed.
(** Two messages with the same header section and different bodies, both accepted: the same start line and the same headers. *)
Theorem C60_same_head : forall e a b b' u u' m m' s s', FirstAt [13; 10; 13; 10] a b -> ordinary a ->
  roomFor e (u + 57 + 9 * len (a ++ [13; 10; 13; 10] ++ b)) -> roomFor e (u' + 57 + 9 * len (a ++ [13; 10; 13; 10] ++ b')) ->
  parseMsg e (mkst (a ++ [13; 10; 13; 10] ++ b) u) = Ok m s -> parseMsg e (mkst (a ++ [13; 10; 13; 10] ++ b') u') = Ok m' s' -> mStart m = mStart m' /\ mHdrs m = mHdrs m'.
Proof.
  intros e a b b' u u' m m' s s' Fa Ho R R' E E'. rewrite (msg_room _ _ _ R) in E. rewrite (msg_room _ _ _ R') in E'.
  destruct (other_body (withMem None e) _ _ b' _ _ _ eq_refl E Fa Ho) as (tl & tf & fs & H1 & H2 & H3 & ->). destruct (other_body (withMem None e) _ _ b' _ _ _ eq_refl E' (first_any _ _ _ _ Fa) Ho) as (tl' & tf' & fs' & H1' & H2' & H3' & ->).
  assert (Q : tl ++ tf ++ b' = tl' ++ tf' ++ b') by (rewrite !app_assoc, <- H1, <- H1'; reflexivity).
  destruct (unambiguous _ _ _ _ _ _ _ _ _ (exact_startLine (withMem None e)) eq_refl H2 H2' Q) as (_ & -> & Q2). split; [reflexivity|].
  exact (proj1 (proj2 (fields_unique (withMem None e) eq_refl _ _ _ _ _ _ (closed_fields _ _ _ _ _ H3) (closed_fields _ _ _ _ _ H3') Q2))).
Qed.
Print Assumptions C60_same_head.
(** Without a Content-Type, or with one that is not multipart, any other body is accepted too: with the same start line and headers, and no body or the stated part of the new one. *)
Lemma replace_body e a b b' u m s bs : memend e = None -> FirstAt [13; 10; 13; 10] a b -> ordinary a -> parseMsg e (mkst (a ++ [13; 10; 13; 10] ++ b) u) = Ok m s -> BodiesRead e (mHdrs m) [] bs b' ->
  forall u', exists w, parseMsg e (mkst (a ++ [13; 10; 13; 10] ++ b') u') = Ok (mkmsg (mStart m) (mHdrs m) bs) (mkst b' w).
Proof.
  intros Hm Fa Ho E B u'. destruct (other_body _ _ _ b' _ _ _ Hm E Fa Ho) as (tl & tf & fs & H1 & H2 & H3 & Eh). rewrite Eh in *.
  rewrite app_assoc, H1, <- app_assoc. destruct (ex_complete _ _ _ (exact_msg e) Hm (tl ++ tf ++ []) (mkmsg (mStart m) (collect OMsg fs) bs) b' u') as (w & Ew); [|rewrite app_nil_r, <- app_assoc in Ew; eauto].
  apply MRead; [exact H2| |exact (closed_fields _ _ _ _ _ H3)|exact B]. intros Q. apply app_eq_nil in Q as [Q _]. exact (closed_ne _ _ _ _ _ H3 Q).
Qed.
Theorem C60_no_type : forall e a b b' u u' m s, FirstAt [13; 10; 13; 10] a b -> ordinary a -> noType (mHdrs m) ->
  roomFor e (u + 57 + 9 * len (a ++ [13; 10; 13; 10] ++ b)) -> roomFor e (u' + 57 + 9 * len (a ++ [13; 10; 13; 10] ++ b')) ->
  parseMsg e (mkst (a ++ [13; 10; 13; 10] ++ b) u) = Ok m s -> exists w, parseMsg e (mkst (a ++ [13; 10; 13; 10] ++ b') u') = Ok (mkmsg (mStart m) (mHdrs m) []) (mkst b' w).
Proof.
  intros e a b b' u u' m s Fa Ho Ht R R' E. rewrite (msg_room _ _ _ R) in E. rewrite (msg_room _ _ _ R'). eapply (replace_body (withMem None e)); eauto. now apply BOnone.
Qed.
Print Assumptions C60_no_type.
Theorem C60_single : forall e a b b' u u' m s, FirstAt [13; 10; 13; 10] a b -> ordinary a -> singleType (mHdrs m) -> firstn (N.to_nat (statedLength (mHdrs m))) b' <> [] ->
  roomFor e (u + 57 + 9 * len (a ++ [13; 10; 13; 10] ++ b)) -> roomFor e (u' + 57 + 9 * len (a ++ [13; 10; 13; 10] ++ b')) ->
  parseMsg e (mkst (a ++ [13; 10; 13; 10] ++ b) u) = Ok m s ->
  exists w h, parseMsg e (mkst (a ++ [13; 10; 13; 10] ++ b') u') = Ok (mkmsg (mStart m) (mHdrs m) [mkbody h (firstn (N.to_nat (statedLength (mHdrs m))) b')]) (mkst b' w).
Proof.
  intros e a b b' u u' m s Fa Ho Ht Hn R R' E. rewrite (msg_room _ _ _ R) in E. rewrite (msg_room _ _ _ R'). edestruct (replace_body (withMem None e)) as (w & Ew); [reflexivity|exact Fa|exact Ho|exact E|apply BOone; eassumption|]. eexists. eexists. exact Ew.
Qed.
Print Assumptions C60_single.

(** ** Cases *)
Definition frHead : bytes := exLine "INVITE sip:bob@example.com SIP/2.0" ++ exLine "Via: SIP/2.0/UDP h;branch=z9" ++ s2b "X-y: [a] b".
Definition frBody : bytes := exLine "v=0" ++ exLine "" ++ exLine "CSeq: 1 ACK".
Lemma first_in p a b : splitAt p (a ++ p ++ b) = Some (a, b) -> FirstAt p a b.
Proof. intros H. now apply first_at in H. Qed.
(** Whether a text is ordinary can be seen by one pass over it. *)
Fixpoint scan (op : bool) (prev : N) (l : bytes) : bool :=
  match l with
  | [] => true
  | x :: r => if x =? 10 then (prev =? 13) && (negb op || match r with [] => true | y :: _ => (y =? 32) || (y =? 9) end) && scan op x r else scan (if x =? 91 then true else if x =? 93 then false else op) x r
  end.
Lemma scan_ok : forall l op prev, scan op prev l = true ->
  (forall p q, l = p ++ 10 :: q -> (p = [] -> prev = 13) /\ (p <> [] -> exists p', p = p' ++ [13])) /\ (forall p x y q, l = p ++ 91 :: x ++ 10 :: y :: q -> ~ In 93 x -> wsp y) /\ (op = true -> forall x y q, l = x ++ 10 :: y :: q -> ~ In 93 x -> wsp y).
Proof.
  induction l as [|x l IH]; intros op prev H; cbn [scan] in H.
  - split; [|split]; intros; try (destruct p; discriminate). destruct x; discriminate.
  - destruct (N.eqb_spec x 10) as [->|Hx].
    + apply andb_prop in H as [H H3]. apply andb_prop in H as [H1 H2]. apply N.eqb_eq in H1. destruct (IH _ _ H3) as (I1 & I2 & I3). split; [|split].
      * intros [|z p] q E; [split; [auto|congruence]|]. split; [discriminate|]. intros _. injection E as <- E. destruct (I1 p q E) as [Ia Ib]. destruct p as [|z p]; [specialize (Ia eq_refl); discriminate|]. destruct Ib as (p' & ->); [discriminate|]. exists (10 :: p'). reflexivity.
      * intros [|z p] v y q E Hi; [discriminate|]. injection E as <- E. exact (I2 p v y q E Hi).
      * intros -> v y q E Hi. destruct v as [|z v].
        -- injection E as ->. cbn in H2. apply orb_prop in H2 as [H2|H2]; apply N.eqb_eq in H2; subst y; [left|right]; reflexivity.
        -- injection E as <- E. apply (I3 eq_refl v y q E). intros Hj. apply Hi. now right.
    + destruct (IH _ _ H) as (I1 & I2 & I3). split; [|split].
      * intros [|z p] q E; [injection E as -> _; congruence|]. split; [discriminate|]. intros _. injection E as <- E. destruct (I1 p q E) as [Ia Ib]. destruct p as [|z p]; [exists []; rewrite (Ia eq_refl); reflexivity|]. destruct Ib as (p' & ->); [discriminate|]. exists (x :: p'). reflexivity.
      * intros [|z p] v y q E Hi.
        -- injection E as -> E. exact (I3 eq_refl v y q E Hi).
        -- injection E as <- E. exact (I2 p v y q E Hi).
      * intros -> v y q E Hi. destruct v as [|z v]; [injection E as -> _; congruence|]. injection E as <- E. apply (I3 ltac:(destruct (N.eqb_spec x 91) as [_|_]; [reflexivity|destruct (N.eqb_spec x 93) as [->|_]; [exfalso; apply Hi; now left|reflexivity]]) v y q E). intros Hj. apply Hi. now right.
Qed.
Lemma scan_ordinary a : scan false 0 (a ++ [13; 10; 13; 10]) = true -> ordinary a.
Proof.
  intros H. destruct (scan_ok _ _ _ H) as (H1 & H2 & _). split; [|exact H2]. intros p q E. destruct (H1 p (q ++ [13; 10; 13; 10])) as [Ha Hb]; [rewrite E, <- app_assoc; reflexivity|]. destruct p; [specialize (Ha eq_refl); discriminate|]. apply Hb. discriminate.
Qed.
Example C60_case_head : ordinary frHead /\ FirstAt [13; 10; 13; 10] frHead frBody.
Proof. split; [apply scan_ordinary; reflexivity|apply first_in; reflexivity]. Qed.
Definition frEnv : env := exNet (Some 1000000).
Example C60_case_accepted : exists m s, parseMsg frEnv (mkst (frHead ++ [13; 10; 13; 10] ++ frBody) 0) = Ok m s /\ noType (mHdrs m) /\ roomFor frEnv (0 + 57 + 9 * len (frHead ++ [13; 10; 13; 10] ++ frBody)).
Proof. eexists. eexists. split; [vm_compute; reflexivity|]. split; [vm_compute; reflexivity|vm_compute; discriminate]. Qed.
(** Without the premises it fails. An open "[" in a parameter of a header swallows the empty line and everything up to the next "]", so that text of the body is read as headers. *)
Definition frOpen : bytes := exLine "SIP/2.0 200 OK" ++ s2b "From: <sip:a@b>;x=[".
Definition frOpenBody : bytes := exLine "]" ++ exLine "CSeq: 7 INVITE" ++ exLine "".
Theorem C60_bracket_refuted : exists a b m s, FirstAt [13; 10; 13; 10] a b /\ parseMsg frEnv (mkst (a ++ [13; 10; 13; 10] ++ b) 0) = Ok m s /\ ~ suffix b (rest s) /\
  (forall q, b <> 13 :: q) /\ noType (mHdrs m) /\ nth (slotOf OMsg SIP_HDR_CSEQ) (hsCommon (mHdrs m)) [] = [VCSeq 7 (MKnown SIP_METHOD_INVITE)].
Proof.
  exists frOpen, frOpenBody. eexists. eexists. split; [apply first_in; reflexivity|]. split; [vm_compute; reflexivity|]. split; [intros (w & E); destruct w; discriminate|].
  split; [intros q [=]|]. split; reflexivity.
Qed.
Print Assumptions C60_bracket_refuted.
(** A header line that ends with a bare LF, followed by CRLF, ends the headers early. *)
Theorem C60_bare_lf_refuted : exists a b m s, FirstAt [13; 10; 13; 10] a b /\ parseMsg frEnv (mkst (a ++ [13; 10; 13; 10] ++ b) 0) = Ok m s /\ noType (mHdrs m) /\ rest s = s2b "CSeq: 7 INVITE" ++ [13; 10; 13; 10] ++ b.
Proof.
  exists (exLine "SIP/2.0 200 OK" ++ s2b "X: y" ++ [10; 13; 10] ++ s2b "CSeq: 7 INVITE"), (s2b "body"). eexists. eexists. split; [apply first_in; reflexivity|]. split; [vm_compute; reflexivity|]. split; reflexivity.
Qed.
Print Assumptions C60_bare_lf_refuted.
