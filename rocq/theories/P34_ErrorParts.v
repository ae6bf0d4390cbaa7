(** C66: the errors tell which part of the start line or of the body is wrong. *)
From Verif Require Import Base BaseLemmas Charset Num Lws Str Monad Good Inv Rt MethodTree HeaderTree Lookup Host Uri Tel GenParam Addr StartLine Headers RawHeaders Msg MsgSpec MsgProofs MsgRt Log LogProofs LogAuto LogAddr LogMsg Errors P05_Uri P22_Errors P33_ErrorNames.
From Coq Require Import String.
Local Open Scope N_scope.

(** ** Specification: start lines *)
(** The parts of a Request-Line and of a Status-Line. *)
Inductive linePart := RMethod | RSpace1 | RUri | RSpace2 | RVersion | REnd | TVersion | TSpace1 | TCode | TSpace2 | TReason | TEnd.
(** The parts before [g] can be read, [g] cannot; the parse stops at [s']. *)
Definition wrongPart (e : env) (s : st) (g : linePart) (s' : st) : Prop :=
  match g with
  | RMethod => versionStart (rest s) = None /\ parseMethod e s = Fail s'
  | RSpace1 => versionStart (rest s) = None /\ exists m s1, parseMethod e s = Ok m s1 /\ expect 32 e s1 = Fail s'
  | RUri => versionStart (rest s) = None /\ exists m s1 s2, parseMethod e s = Ok m s1 /\ expect 32 e s1 = Ok tt s2 /\ parseAddrSpec e s2 = Fail s'
  | RSpace2 => versionStart (rest s) = None /\ exists m s1 s2 a s3, parseMethod e s = Ok m s1 /\ expect 32 e s1 = Ok tt s2 /\ parseAddrSpec e s2 = Ok a s3 /\ expect 32 e s3 = Fail s'
  | RVersion => versionStart (rest s) = None /\ exists m s1 s2 a s3 s4, parseMethod e s = Ok m s1 /\ expect 32 e s1 = Ok tt s2 /\ parseAddrSpec e s2 = Ok a s3 /\ expect 32 e s3 = Ok tt s4 /\ parseVersion e s4 = Fail s'
  | REnd => versionStart (rest s) = None /\ exists m s1 s2 a s3 s4 v s5, parseMethod e s = Ok m s1 /\ expect 32 e s1 = Ok tt s2 /\ parseAddrSpec e s2 = Ok a s3 /\ expect 32 e s3 = Ok tt s4 /\ parseVersion e s4 = Ok v s5 /\ pCRLF e s5 = Fail s'
  | TVersion => exists r, versionStart (rest s) = Some r /\ parseVersionAfter e (mkst r (used s)) = Fail s'
  | TSpace1 => exists r v s1, versionStart (rest s) = Some r /\ parseVersionAfter e (mkst r (used s)) = Ok v s1 /\ expect 32 e s1 = Fail s'
  | TCode => exists r v s1 s2, versionStart (rest s) = Some r /\ parseVersionAfter e (mkst r (used s)) = Ok v s1 /\ expect 32 e s1 = Ok tt s2 /\ pUIntW 65536 e s2 = Fail s'
  | TSpace2 => exists r v s1 s2 n s3, versionStart (rest s) = Some r /\ parseVersionAfter e (mkst r (used s)) = Ok v s1 /\ expect 32 e s1 = Ok tt s2 /\ pUIntW 65536 e s2 = Ok n s3 /\ expect 32 e s3 = Fail s'
  | TReason => exists r v s1 s2 n s3 s4, versionStart (rest s) = Some r /\ parseVersionAfter e (mkst r (used s)) = Ok v s1 /\ expect 32 e s1 = Ok tt s2 /\ pUIntW 65536 e s2 = Ok n s3 /\ expect 32 e s3 = Ok tt s4 /\
      paEscapableEmpty SIP_REASON_PHRASE e s4 = Fail s'
  | TEnd => exists r v s1 s2 n s3 s4 t s5, versionStart (rest s) = Some r /\ parseVersionAfter e (mkst r (used s)) = Ok v s1 /\ expect 32 e s1 = Ok tt s2 /\ pUIntW 65536 e s2 = Ok n s3 /\ expect 32 e s3 = Ok tt s4 /\
      paEscapableEmpty SIP_REASON_PHRASE e s4 = Ok t s5 /\ pCRLF e s5 = Fail s'
  end.
(** The texts; [atEnd]: nothing is left of the input. *)
Definition partText (g : linePart) (atEnd : bool) : string :=
  match g with
  | RMethod | RUri => "wrong Method for Request-Line"
  | RSpace1 => if atEnd then "reach end after Method for Request-Line" else "no SP after Method for Request-Line"
  | RSpace2 => if atEnd then "reach end after Request-URI for Request-Line" else "no SP after Request-URI for Request-Line"
  | RVersion => "wrong SIP-Version for Request-Line"
  | REnd => "no CRLF for Request-Line"
  | TVersion => "wrong SIP-Version for Status-Line"
  | TSpace1 | TSpace2 => if atEnd then "reach end after SIP-Version for Status-Line" else "no SP after SIP-Version for Status-Line"
  | TCode => "wrong Status-Code for Status-Line"
  | TReason => "wrong Reason-Phrase for Status-Line"
  | TEnd => "no CRLF for Status-Line"
  end.
Definition nothingLeft (r : bytes) : bool := match r with [] => true | _ => false end.

Lemma orErr_failed {A} d (lp : L A) p e s s' l : lgAt false lp p e s -> orErr d lp e s = (Fail s', l) -> p e s = Fail s' /\ exists l0, l = l0 ++ [mkerr (rest s') d].
Proof. intros [G _ _] H. unfold orErr in H. destruct (lp e s) as [[a s1|s1| |] l1]; try discriminate. injection H as <- <-. cbn [fst] in G. split; [now symmetry|eauto]. Qed.
Lemma orErr_passed {A} d (lp : L A) p e s a s' l : lgAt false lp p e s -> orErr d lp e s = (Ok a s', l) -> p e s = Ok a s' /\ l = [].
Proof. intros [G G2 _] H. unfold orErr in H. destruct (lp e s) as [[b s1|s1| |] l1]; try discriminate. injection H as <- <- <-. cbn [fst snd] in *. split; [now symmetry|apply G2]. Qed.
Lemma expect_failed c d1 d2 e s s' l : expectL c d1 d2 e s = (Fail s', l) -> expect c e s = Fail s' /\ exists l0, l = l0 ++ [mkerr (rest s') (if nothingLeft (rest s') then d1 else d2)].
Proof.
  intros H. destruct (lg_expect false c d1 d2 e s) as [G _ _]. rewrite H in G. cbn [fst] in G. split; [now symmetry|]. unfold expectL, errEnd, silent in H. destruct (expect c e s) as [a s1|s1| |]; try discriminate. injection H as <- <-. exists []. unfold nothingLeft. now destruct (rest s1).
Qed.
Lemma expect_passed c d1 d2 e s a s' l : expectL c d1 d2 e s = (Ok a s', l) -> expect c e s = Ok tt s' /\ l = [].
Proof. intros H. destruct (lg_expect false c d1 d2 e s) as [G G2 _]. rewrite H in G, G2. cbn [fst snd] in *. destruct a. split; [now symmetry|apply G2]. Qed.
Lemma line_told e s s' l : parseStartLineL e s = (Fail s', l) -> exists g l0, wrongPart e s g s' /\ l = l0 ++ [mkerr (rest s') (partText g (nothingLeft (rest s')))].
Proof.
  unfold parseStartLineL, onRestL. destruct (versionStart (rest s)) as [r|] eqn:V; intros H.
  - apply bindL_fail in H as [H|(z0 & s0 & l1 & l2 & H1 & H & ->)]; [discriminate|]. injection H1 as _ <- <-. cbn [app]. unfold parseStatusLineL in H.
    apply bindL_fail in H as [H|(v & s1 & l3 & l4 & H1 & H & ->)].
    { apply (orErr_failed _ _ _ _ _ _ _ (lg_versionAfter false _ _)) in H as [H [l0 ->]]. exists TVersion, l0. split; [exists r; auto|reflexivity]. }
    apply (orErr_passed _ _ _ _ _ _ _ _ (lg_versionAfter false _ _)) in H1 as [E1 ->]. apply bindL_fail in H as [H|(v1 & s2 & l5 & l6 & H1 & H & ->)].
    { apply expect_failed in H as [H [l0 ->]]. exists TSpace1, l0. split; [exists r, v, s1; auto|reflexivity]. }
    apply expect_passed in H1 as [E2 ->]. apply bindL_fail in H as [H|(n & s3 & l7 & l8 & H1 & H & ->)].
    { unfold orErr, silent in H. destruct (pUIntW 65536 e s2) as [n s3|s3| |] eqn:E3; try discriminate. injection H as <- <-. exists TCode, []. split; [exists r, v, s1, s2; auto|reflexivity]. }
    unfold orErr, silent in H1. destruct (pUIntW 65536 e s2) as [n0 s30|s30| |] eqn:E3; try discriminate. injection H1 as -> -> <-. apply bindL_fail in H as [H|(v2 & s4 & l9 & l10 & H1 & H & ->)].
    { apply expect_failed in H as [H [l0 ->]]. exists TSpace2, l0. split; [exists r, v, s1, s2, n, s3; auto 9|reflexivity]. }
    apply expect_passed in H1 as [E4 ->]. apply bindL_fail in H as [H|(t & s5 & l11 & l12 & H1 & H & ->)].
    { apply (orErr_failed _ _ _ _ _ _ _ (lg_paEscapableEmpty false _ _ _)) in H as [H [l0 ->]]. exists TReason, l0. split; [exists r, v, s1, s2, n, s3, s4; auto 9|reflexivity]. }
    apply (orErr_passed _ _ _ _ _ _ _ _ (lg_paEscapableEmpty false _ _ _)) in H1 as [E5 ->]. apply bindL_fail in H as [H|(z & s6 & l13 & l14 & H1 & H & ->)]; [|discriminate].
    unfold orErr, silent in H. destruct (pCRLF e s5) as [z s6|s6| |] eqn:E6; try discriminate. injection H as <- <-. exists TEnd, []. split; [exists r, v, s1, s2, n, s3, s4, t, s5; auto 9|reflexivity].
  - unfold parseRequestLineL in H. apply bindL_fail in H as [H|(m & s1 & l3 & l4 & H1 & H & ->)].
    { apply (orErr_failed _ _ _ _ _ _ _ (lg_method false _ _)) in H as [H [l0 ->]]. exists RMethod, l0. split; [split; auto|reflexivity]. }
    apply (orErr_passed _ _ _ _ _ _ _ _ (lg_method false _ _)) in H1 as [E1 ->]. apply bindL_fail in H as [H|(v1 & s2 & l5 & l6 & H1 & H & ->)].
    { apply expect_failed in H as [H [l0 ->]]. exists RSpace1, l0. split; [split; [exact V|exists m, s1; auto]|reflexivity]. }
    apply expect_passed in H1 as [E2 ->]. apply bindL_fail in H as [H|(a & s3 & l7 & l8 & H1 & H & ->)].
    { apply (orErr_failed _ _ _ _ _ _ _ (lg_addrSpec _ _)) in H as [H [l0 ->]]. exists RUri, l0. split; [split; [exact V|exists m, s1, s2; auto]|reflexivity]. }
    apply (orErr_passed _ _ _ _ _ _ _ _ (lg_addrSpec _ _)) in H1 as [E3 ->]. apply bindL_fail in H as [H|(v2 & s4 & l9 & l10 & H1 & H & ->)].
    { apply expect_failed in H as [H [l0 ->]]. exists RSpace2, l0. split; [split; [exact V|exists m, s1, s2, a, s3; auto 9]|reflexivity]. }
    apply expect_passed in H1 as [E4 ->]. apply bindL_fail in H as [H|(v & s5 & l11 & l12 & H1 & H & ->)].
    { apply (orErr_failed _ _ _ _ _ _ _ (lg_version false _ _)) in H as [H [l0 ->]]. exists RVersion, l0. split; [split; [exact V|exists m, s1, s2, a, s3, s4; auto 9]|reflexivity]. }
    apply (orErr_passed _ _ _ _ _ _ _ _ (lg_version false _ _)) in H1 as [E5 ->]. apply bindL_fail in H as [H|(z & s6 & l13 & l14 & H1 & H & ->)]; [|discriminate].
    unfold orErr, silent in H. destruct (pCRLF e s5) as [z s6|s6| |] eqn:E6; try discriminate. injection H as <- <-. exists REnd, []. split; [split; [exact V|exists m, s1, s2, a, s3, s4, v, s5; auto 9]|reflexivity].
Qed.
Ltac chain := repeat match goal with H : exists _, _ |- _ => destruct H | H : _ /\ _ |- _ => destruct H end.
Lemma part_fails e s g s' : wrongPart e s g s' -> parseStartLine e s = Fail s'.
Proof.
  intros H. unfold parseStartLine, onRest. destruct g; cbn [wrongPart] in H; chain;
    match goal with V : versionStart (rest s) = _ |- _ => rewrite V end; unfold parseRequestLine, parseStatusLine; rewrite ?goto_bind; unfold bind;
    repeat match goal with E : ?x = Ok _ _ |- context [?x] => rewrite E | E : ?x = Fail _ |- context [?x] => rewrite E end; reflexivity.
Qed.
Lemma part_one e s g1 s1 g2 s2 : wrongPart e s g1 s1 -> wrongPart e s g2 s2 -> g1 = g2 /\ s1 = s2.
Proof.
  intros H1 H2. assert (X : @Fail startline s1 = Fail s2) by (rewrite <- (part_fails _ _ _ _ H1); exact (part_fails _ _ _ _ H2)). injection X as <-. split; [|reflexivity].
  destruct g1, g2; try reflexivity; exfalso; cbn [wrongPart] in *; chain;
  repeat match goal with
    | Ha : ?x = Some ?a, Hb : ?x = Some ?b |- _ => lazymatch a with b => fail | _ => idtac end; rewrite Ha in Hb; injection Hb as <-
    | Ha : ?x = Ok ?a ?t, Hb : ?x = Ok ?b ?t' |- _ => lazymatch t with t' => fail | _ => idtac end; rewrite Ha in Hb; injection Hb as; subst
    end; congruence.
Qed.

(** ** Specification: bodies *)
(** The message is a multipart one with the boundary [b]. *)
Definition multipartWith (h : hset) (b : bytes) : Prop :=
  exists m sb t ps p, contentTypeOf h = Some (VType m sb t ps) /\ CStringEqualNoCase m (s2b "multipart") = Some true /\ boundaryParam (VType m sb t ps) = Some p /\ b = match gvalueText (gpValue p) with Some b => b | None => [] end.
(** The message has a Content-Type that is not multipart, and the [d] bytes of the body are there. *)
Definition singleWith (h : hset) (s : st) (d : bytes) : Prop :=
  exists m sb t ps n, contentTypeOf h = Some (VType m sb t ps) /\ CStringEqualNoCase m (s2b "multipart") = Some false /\ contentLengthOf h = Some (VNum n) /\ d = firstn (N.to_nat n) (rest s) /\ d <> [].
(** Whole parts are read between the two positions. *)
Inductive partsRead (e : env) (dl : bytes) : st -> st -> Prop :=
| PRnone s : partsRead e dl s s
| PRone s bs bs' s1 s' : multipartBody dl bs e s = Ok (inl bs') s1 -> partsRead e dl s1 s' -> partsRead e dl s s'.
Definition another (s : st) : Prop := exists x y r, rest s = x :: y :: r /\ x <> 45 /\ y <> 45.
Inductive bodyFault := NoBoundary | NoFirst | NothingMore | OneByte | NoLine | NoMemory | InHeaders (f : fault) | NoDelimiter | NoMemorySingle | NoMemoryText.
Definition partFault (e : env) (dl : bytes) (s : st) (f : bodyFault) (s' : st) : Prop :=
  match f with
  | NothingMore => rest s = [] /\ s' = s
  | OneByte => (exists x, rest s = [x]) /\ s' = s
  | NoLine => another s /\ FindCrlf (rest s) = None /\ s' = mkst [] (used s)
  | NoMemory => exists t r, another s /\ FindCrlf (rest s) = Some (t, r) /\ allocStruct 16 e (mkst r (used s)) = Fail s'
  | InHeaders g => exists t r z s1, another s /\ FindCrlf (rest s) = Some (t, r) /\ allocStruct 16 e (mkst r (used s)) = Ok z s1 /\ faultIn OBody e s1 g s'
  | NoDelimiter => exists t r z s1 h, another s /\ FindCrlf (rest s) = Some (t, r) /\ allocStruct 16 e (mkst r (used s)) = Ok z s1 /\ parseHeaders OBody e s1 = Ok h s' /\ splitAt dl (rest s') = None
  | _ => False
  end.
Definition wrongBody (e : env) (h : hset) (s : st) (f : bodyFault) (s' : st) : Prop :=
  match f with
  | NoBoundary => s' = s /\ exists m sb t ps, contentTypeOf h = Some (VType m sb t ps) /\ CStringEqualNoCase m (s2b "multipart") = Some true /\ boundaryParam (VType m sb t ps) = None
  | NoFirst => s' = s /\ exists b, multipartWith h b /\ stripPrefix (45 :: 45 :: b) (rest s) = None
  | NoMemorySingle => exists d, singleWith h s d /\ allocStruct 16 e s = Fail s'
  | NoMemoryText => exists d z s1, singleWith h s d /\ allocStruct 16 e s = Ok z s1 /\ allocCString d e s1 = Fail s'
  | _ => exists b r s1, multipartWith h b /\ stripPrefix (45 :: 45 :: b) (rest s) = Some r /\ partsRead e (13 :: 10 :: 45 :: 45 :: b) (mkst r (used s)) s1 /\ partFault e (13 :: 10 :: 45 :: 45 :: b) s1 f s'
  end.
Definition bodyText (f : bodyFault) : string :=
  match f with
  | NoBoundary => "no boundary for multipart body"
  | NoFirst => "no first dash-bounday for sip multi msg-body"
  | NothingMore => ""
  | OneByte => "reach end without close-delimiter for sip multi msg-body"
  | NoLine => "no CRLF after dash-bounday for sip multi msg-body"
  | NoMemory => "no mem for sip msg body when parsing sip multi msg-body"
  | InHeaders _ => "parsed headers failed for sip multi msg-body"
  | NoDelimiter => "no delimiter after body for sip multi msg-body"
  | NoMemorySingle => "no mem for sip single msg-body"
  | NoMemoryText => "no mem for sip single msg-body value"
  end.
Definition toldBody (f : bodyFault) (s' : st) (l : list err) : Prop :=
  match f with
  | NothingMore => l = []
  | InHeaders g => exists l0, l = l0 ++ [mkerr (rest s') (bodyText f)] /\ told g s' l0
  | _ => l = [mkerr (rest s') (bodyText f)]
  end.
Lemma alloc_told {A} d (p : P A) e s s' l : orErr d (silent p) e s = (Fail s', l) -> p e s = Fail s' /\ l = [mkerr (rest s') d].
Proof. unfold orErr, silent. destruct (p e s); try discriminate. intros [= <- <-]. auto. Qed.
Lemma alloc_passed {A} d (p : P A) e s a s' l : orErr d (silent p) e s = (Ok a s', l) -> p e s = Ok a s' /\ l = [].
Proof. unfold orErr, silent. destruct (p e s); try discriminate. intros [= <- <- <-]. auto. Qed.
Lemma part_told e dl bs s s' l : multipartBodyL dl bs e s = (Fail s', l) -> exists f, partFault e dl s f s' /\ toldBody f s' l.
Proof.
  unfold multipartBodyL, onRestL. destruct (rest s) as [|x [|y r2]] eqn:R; intros H.
  - injection H as <- <-. exists NothingMore. split; [split; auto|reflexivity].
  - injection H as <- <-. exists OneByte. split; [split; eauto|]. cbn [toldBody]. reflexivity.
  - destruct ((x =? 45) || (y =? 45)) eqn:D. { apply bindL_fail in H as [H|(? & ? & ? & ? & _ & H & _)]; discriminate. }
    apply orb_false_elim in D as [Dx Dy]. apply N.eqb_neq in Dx, Dy. assert (A : another s) by (exists x, y, r2; auto). rewrite <- R in H. destruct (FindCrlf (rest s)) as [[t r1]|] eqn:F.
    + apply bindL_fail in H as [H|(z & s0 & l1 & l2 & H1 & H & ->)]; [discriminate|]. injection H1 as _ <- <-. cbn [app]. apply bindL_fail in H as [H|(z1 & s1 & l3 & l4 & H1 & H & ->)].
      { apply alloc_told in H as [H ->]. exists NoMemory. split; [exists t, r1; auto|reflexivity]. }
      apply alloc_passed in H1 as [E1 ->]. apply bindL_fail in H as [H|(h & s2 & l5 & l6 & H1 & H & ->)].
      { unfold orErr in H. destruct (parseHeadersL OBody e s1) as [[h s2|s2| |] lh] eqn:Eh; try discriminate. injection H as -> <-. apply headersL_told in Eh as (g & Fg & Tg). exists (InHeaders g). split; [exists t, r1, z1, s1; auto|]. exists lh. split; [reflexivity|exact Tg]. }
      apply (orErr_passed _ _ _ _ _ _ _ _ (lg_headers _ _ _)) in H1 as [E2 ->]. unfold onRestL in H. destruct (splitAt dl (rest s2)) as [[d r4]|] eqn:Sp.
      { apply bindL_fail in H as [H|(o & s3 & l7 & l8 & H1 & H & _)]; [unfold silent, attempt in H; destruct (allocCString d e s2); discriminate|]. apply bindL_fail in H as [H|(? & ? & ? & ? & _ & H & _)]; discriminate. }
      injection H as <- <-. exists NoDelimiter. split; [exists t, r1, z1, s1, h; auto 9|reflexivity].
    + apply bindL_fail in H as [H|(z & s0 & l1 & l2 & H1 & H & ->)]; [discriminate|]. injection H1 as _ <- <-. injection H as <- <-. exists NoLine. split; [split; [exact A|split; [exact F|reflexivity]]|reflexivity].
Qed.
Lemma parts_told e dl : forall n bs s s' l, iterL n (multipartBodyL dl) bs e s = (Fail s', l) -> exists f s1, partsRead e dl s s1 /\ partFault e dl s1 f s' /\ toldBody f s' l.
Proof.
  induction n as [|n IH]; intros bs s s' l H; [discriminate|]. cbn [iterL] in H. apply bindL_fail in H as [H|(x & s1 & l1 & l2 & H1 & H & ->)].
  - destruct (part_told _ _ _ _ _ _ H) as (f & F & T). exists f, s. split; [constructor|auto].
  - destruct x as [bs'|b]; [|discriminate]. destruct (lg_multipartBody dl bs e s) as [G1 G2 _]. rewrite H1 in G1, G2. cbn [fst snd] in *. destruct G2 as [-> _].
    destruct (IH _ _ _ _ H) as (f & s2 & R & F & T). exists f, s2. split; [exact (PRone _ _ _ _ _ _ _ (eq_sym G1) R)|auto].
Qed.
Lemma body_told h e s s' l : parseMsgBodyL h e s = (Fail s', l) -> exists f, wrongBody e h s f s' /\ toldBody f s' l.
Proof.
  unfold parseMsgBodyL. destruct (contentTypeOf h) as [v|] eqn:Ec; [|discriminate]. destruct v as [ad t1 ps| |pr tr hp t1 ps|n mt|rr c0 mt|n|mn sb t1 ps|d t1 ps|w0 w2]; try discriminate.
  destruct (CStringEqualNoCase mn (s2b "multipart")) as [[]|] eqn:Em; [| |discriminate].
  - destruct (boundaryParam (VType mn sb t1 ps)) as [p|] eqn:Eb.
    + intros H. assert (M : multipartWith h (match gvalueText (gpValue p) with Some b => b | None => [] end)) by (exists mn, sb, t1, ps, p; auto).
      remember (match gvalueText (gpValue p) with Some b => b | None => [] end) as b eqn:Hb. unfold parseMultiBodyL, onRestL in H. destruct (stripPrefix (45 :: 45 :: b) (rest s)) as [r|] eqn:Sp.
      * apply bindL_fail in H as [H|(z & s0 & l1 & l2 & H1 & H & ->)]; [discriminate|]. injection H1 as _ <- <-. cbn [app]. destruct (parts_told _ _ _ _ _ _ _ H) as (f & s1 & R & F & T). exists f. split; [|exact T].
        destruct f; try contradiction; exists b, r, s1; auto.
      * injection H as <- <-. exists NoFirst. split; [split; eauto|reflexivity].
    + intros H. injection H as <- <-. exists NoBoundary. split; [split; [reflexivity|exists mn, sb, t1, ps; auto]|reflexivity].
  - intros H. unfold parseSingleBodyL, onRestL in H. cbv zeta in H. destruct (contentLengthOf h) as [v|] eqn:El; [|discriminate]. destruct v as [ad t2 ps'| |pr tr hp t2 ps'|n mt|rr c0 mt|n|mn' sb' t2 ps'|d t2 ps'|w0 w2]; try discriminate.
    destruct (N.min n (len (rest s)) =? 0) eqn:Z; [discriminate|]. apply N.eqb_neq in Z.
    assert (Fd : firstn (N.to_nat (N.min n (len (rest s)))) (rest s) = firstn (N.to_nat n) (rest s)).
    { destruct (N.le_gt_cases n (len (rest s))) as [Hn|Hn]; [now rewrite N.min_l by exact Hn|]. rewrite N.min_r by lia. unfold len in *. rewrite Nnat.Nat2N.id, firstn_all, firstn_all2 by lia. reflexivity. }
    assert (Sw : singleWith h s (firstn (N.to_nat n) (rest s))).
    { exists mn, sb, t1, ps, n. repeat split; auto. intros Q. apply (f_equal (@List.length N)) in Q. rewrite firstn_length in Q. cbn in Q. unfold len in Z. lia. }
    rewrite Fd in H. apply bindL_fail in H as [H|(z & s1 & l1 & l2 & H1 & H & ->)].
    { apply alloc_told in H as [H ->]. exists NoMemorySingle. split; [eexists; split; [exact Sw|exact H]|reflexivity]. }
    apply alloc_passed in H1 as [E1 ->]. apply bindL_fail in H as [H|(z2 & s2 & l3 & l4 & _ & H & _)]; [|discriminate]. apply alloc_told in H as [H ->]. exists NoMemoryText. split; [eexists _, z, s1; split; [exact Sw|auto]|reflexivity].
Qed.
(** ** A fault makes the parse fail, so there is only one *)
Lemma another_eq s : another s -> exists x y r, rest s = x :: y :: r /\ (x =? 45) || (y =? 45) = false.
Proof. intros (x & y & r & R & Hx & Hy). exists x, y, r. split; [exact R|]. apply N.eqb_neq in Hx, Hy. now rewrite Hx, Hy. Qed.
Lemma partFault_fails e dl s f s' : partFault e dl s f s' -> forall bs, multipartBody dl bs e s = Fail s'.
Proof.
  intros H bs. unfold multipartBody, onRest. destruct f; cbn [partFault] in H; try contradiction.
  - destruct H as [R ->]. now rewrite R.
  - destruct H as [[x R] ->]. now rewrite R.
  - destruct H as (A & F & ->). apply another_eq in A as (x & y & r & R & D). rewrite R in *. rewrite D, F. reflexivity.
  - destruct H as (t & r1 & A & F & E1). apply another_eq in A as (x & y & r & R & D). rewrite R in *. rewrite D, F, goto_bind. unfold bind. now rewrite E1.
  - destruct H as (t & r1 & z & s1 & A & F & E1 & Fg). apply another_eq in A as (x & y & r & R & D). rewrite R in *. rewrite D, F, goto_bind. unfold bind. rewrite E1.
    assert (Eh : parseHeaders OBody e s1 = Fail s') by (apply C65_faults; eauto). now rewrite Eh.
  - destruct H as (t & r1 & z & s1 & h & A & F & E1 & Eh & Sp). apply another_eq in A as (x & y & r & R & D). rewrite R in *. rewrite D, F, goto_bind. unfold bind. rewrite E1, Eh, Sp. reflexivity.
Qed.
Lemma part_any dl bs e s bs' s1 : multipartBody dl bs e s = Ok (inl bs') s1 -> forall cs, exists cs', multipartBody dl cs e s = Ok (inl cs') s1.
Proof.
  intros H cs. unfold multipartBody, onRest in *. destruct (rest s) as [|x [|y r2]]; try discriminate. destruct (_ || _); [discriminate|]. destruct (FindCrlf _) as [[t r1]|]; [|discriminate]. rewrite goto_bind in *.
  unfold bind in *. destruct (allocStruct 16 e _) as [z s2|s2| |]; try discriminate. destruct (parseHeaders OBody e s2) as [h s3|s3| |]; try discriminate. destruct (splitAt dl (rest s3)) as [[d r4]|]; [|discriminate].
  destruct (attempt (allocCString d) e s3) as [o s4|s4| |]; try discriminate. unfold goto, ret in *. injection H as <- <-. eauto.
Qed.
Lemma parts_fail e dl s s1 : partsRead e dl s s1 -> forall f s' bs, partFault e dl s1 f s' -> loopP (multipartBody dl) bs e s = Fail s'.
Proof.
  intros H. induction H as [s|s bs bs' s1 s2 H _ IH]; intros f s' cs F; rewrite loopP_unfold by apply multipart_progresses.
  - now rewrite (partFault_fails _ _ _ _ _ F).
  - destruct (part_any _ _ _ _ _ _ H cs) as [cs' ->]. eauto.
Qed.
Lemma partFault_one e dl s f1 s1 f2 s2 : partFault e dl s f1 s1 -> partFault e dl s f2 s2 -> f1 = f2.
Proof.
  intros H1 H2. destruct f1, f2; cbn [partFault] in *; try contradiction; try reflexivity; chain;
  repeat match goal with A : another _ |- _ => apply another_eq in A as (? & ? & ? & ? & ?) end; try congruence;
  repeat match goal with
    | Ha : ?x = Some (?t, ?r), Hb : ?x = Some (?t', ?r') |- _ => lazymatch r with r' => fail | _ => idtac end; rewrite Ha in Hb; injection Hb as; subst
    | Ha : ?x = Ok ?a ?t, Hb : ?x = Ok ?b ?t' |- _ => lazymatch t with t' => fail | _ => idtac end; rewrite Ha in Hb; injection Hb as; subst
    end; try congruence.
  - f_equal. match goal with Ha : faultIn OBody e ?s f _, Hb : faultIn OBody e ?s f0 _ |- _ => apply (proj2 (C65_faults OBody e s s1) _ _ _ _ Ha Hb) end.
  - exfalso. match goal with Ha : faultIn OBody e ?s ?g ?u |- _ => assert (parseHeaders OBody e s = Fail u) by (apply C65_faults; eauto); congruence end.
  - exfalso. match goal with Ha : faultIn OBody e ?s ?g ?u |- _ => assert (parseHeaders OBody e s = Fail u) by (apply C65_faults; eauto); congruence end.
Qed.
Lemma parts_one e dl s t1 : partsRead e dl s t1 -> forall f1 s1, partFault e dl t1 f1 s1 -> forall t2 f2 s2, partsRead e dl s t2 -> partFault e dl t2 f2 s2 -> f1 = f2.
Proof.
  intros H. induction H as [s|s bs bs' u u' H _ IH]; intros f1 s1 F1 t2 f2 s2 H2 F2.
  - inversion H2; subst; [exact (partFault_one _ _ _ _ _ _ _ F1 F2)|]. match goal with Hb : multipartBody dl _ e s = Ok _ _ |- _ => rewrite (partFault_fails _ _ _ _ _ F1) in Hb; discriminate end.
  - inversion H2; subst; [rewrite (partFault_fails _ _ _ _ _ F2) in H; discriminate|].
    match goal with Hb : multipartBody dl ?cs e s = Ok (inl ?ds) ?u2, Hp : partsRead e dl ?u2 t2 |- _ => destruct (part_any _ _ _ _ _ _ H cs) as [cs' Hc]; rewrite Hc in Hb; injection Hb as _ <- end. eauto.
Qed.
Lemma multipart_eq h b : multipartWith h b -> forall e s, parseMsgBody h e s = parseMultiBody b e s.
Proof. intros (m & sb & t & ps & p & Ec & Em & Eb & ->) e s. unfold parseMsgBody. now rewrite Ec, Em, Eb. Qed.
Lemma single_eq h s d : singleWith h s d -> forall e, parseMsgBody h e s = (allocStruct 16 ;;; (d <- allocCString d ;; ret [mkbody (emptyHdrs OBody) d])) e s.
Proof.
  intros (m & sb & t & ps & n & Ec & Em & El & -> & Hd) e. unfold parseMsgBody. rewrite Ec, Em. unfold parseSingleBody, onRest. rewrite El. cbv zeta.
  assert (Fd : firstn (N.to_nat (N.min n (len (rest s)))) (rest s) = firstn (N.to_nat n) (rest s)).
  { destruct (N.le_gt_cases n (len (rest s))) as [Hn|Hn]; [now rewrite N.min_l by exact Hn|]. rewrite N.min_r by lia. unfold len in *. rewrite Nnat.Nat2N.id, firstn_all, firstn_all2 by lia. reflexivity. }
  rewrite Fd. destruct (N.min n (len (rest s)) =? 0) eqn:Z; [|reflexivity]. exfalso. apply N.eqb_eq in Z. apply Hd. rewrite <- Fd, Z. reflexivity.
Qed.
Lemma body_fails e h s f s' : wrongBody e h s f s' -> parseMsgBody h e s = Fail s'.
Proof.
  assert (P : forall f, (exists b r s1, multipartWith h b /\ stripPrefix (45 :: 45 :: b) (rest s) = Some r /\ partsRead e (13 :: 10 :: 45 :: 45 :: b) (mkst r (used s)) s1 /\ partFault e (13 :: 10 :: 45 :: 45 :: b) s1 f s') -> parseMsgBody h e s = Fail s').
  { intros g (b & r & s1 & M & Sp & R & F). rewrite (multipart_eq _ _ M). unfold parseMultiBody, onRest. rewrite Sp, goto_bind. exact (parts_fail _ _ _ _ R _ _ _ F). }
  intros H. destruct f; cbn [wrongBody] in H; try exact (P _ H).
  - destruct H as (-> & m & sb & t & ps & Ec & Em & Eb). unfold parseMsgBody. now rewrite Ec, Em, Eb.
  - destruct H as (-> & b & M & Sp). rewrite (multipart_eq _ _ M). unfold parseMultiBody, onRest. now rewrite Sp.
  - destruct H as (d & S1 & E1). rewrite (single_eq _ _ _ S1). unfold bind. now rewrite E1.
  - destruct H as (d & z & s1 & S1 & E1 & E2). rewrite (single_eq _ _ _ S1). unfold bind. now rewrite E1, E2.
Qed.
Definition inParts (f : bodyFault) : bool := match f with NoBoundary | NoFirst | NoMemorySingle | NoMemoryText => false | _ => true end.
Lemma wrongBody_parts e h s f s' : inParts f = true -> wrongBody e h s f s' -> exists b r s1, multipartWith h b /\ stripPrefix (45 :: 45 :: b) (rest s) = Some r /\ partsRead e (13 :: 10 :: 45 :: 45 :: b) (mkst r (used s)) s1 /\ partFault e (13 :: 10 :: 45 :: 45 :: b) s1 f s'.
Proof. destruct f; try discriminate; intros _ H; exact H. Qed.
Lemma multipart_one h b b' : multipartWith h b -> multipartWith h b' -> b = b'.
Proof. intros (m & sb & t & ps & p & Ec & Em & Eb & ->) (m' & sb' & t' & ps' & p' & Ec' & Em' & Eb' & ->). rewrite Ec in Ec'. injection Ec' as <- <- <- <-. rewrite Eb in Eb'. injection Eb' as <-. reflexivity. Qed.
Lemma multi_single h b s d : multipartWith h b -> singleWith h s d -> False.
Proof. intros (m & sb & t & ps & p & Ec & Em & _) (m' & sb' & t' & ps' & n & Ec' & Em' & _). rewrite Ec in Ec'. injection Ec' as <- <- <- <-. congruence. Qed.
Lemma single_one h s d d' : singleWith h s d -> singleWith h s d' -> d = d'.
Proof. intros (m & sb & t & ps & n & Ec & Em & El & -> & _) (m' & sb' & t' & ps' & n' & Ec' & Em' & El' & -> & _). rewrite El in El'. injection El' as <-. reflexivity. Qed.
Lemma body_one e h s f1 s1 f2 s2 : wrongBody e h s f1 s1 -> wrongBody e h s f2 s2 -> f1 = f2 /\ s1 = s2.
Proof.
  intros H1 H2. assert (X : @Fail (list body) s1 = Fail s2) by (rewrite <- (body_fails _ _ _ _ _ H1); exact (body_fails _ _ _ _ _ H2)). injection X as <-. split; [|reflexivity].
  destruct (inParts f1) eqn:I1, (inParts f2) eqn:I2.
  - apply (wrongBody_parts _ _ _ _ _ I1) in H1 as (b & r & t & M & Sp & R & F). apply (wrongBody_parts _ _ _ _ _ I2) in H2 as (b' & r' & t' & M' & Sp' & R' & F'). rewrite <- (multipart_one _ _ _ M M') in *. rewrite Sp in Sp'. injection Sp' as <-.
    exact (parts_one _ _ _ _ R _ _ F _ _ _ R' F').
  - apply (wrongBody_parts _ _ _ _ _ I1) in H1 as (b & r & t & M & Sp & R & F). exfalso. destruct f2; try discriminate; cbn [wrongBody] in H2.
    + destruct H2 as (_ & m & sb & t1 & ps & Ec & Em & Eb). destruct M as (m' & sb' & t' & ps' & p & Ec' & Em' & Eb' & _). rewrite Ec in Ec'. injection Ec' as <- <- <- <-. congruence.
    + destruct H2 as (_ & b' & M' & Sp'). rewrite (multipart_one _ _ _ M M') in *. congruence.
    + destruct H2 as (d & Sd & _). exact (multi_single _ _ _ _ M Sd).
    + destruct H2 as (d & z & u & Sd & _). exact (multi_single _ _ _ _ M Sd).
  - apply (wrongBody_parts _ _ _ _ _ I2) in H2 as (b & r & t & M & Sp & R & F). exfalso. destruct f1; try discriminate; cbn [wrongBody] in H1.
    + destruct H1 as (_ & m & sb & t1 & ps & Ec & Em & Eb). destruct M as (m' & sb' & t' & ps' & p & Ec' & Em' & Eb' & _). rewrite Ec in Ec'. injection Ec' as <- <- <- <-. congruence.
    + destruct H1 as (_ & b' & M' & Sp'). rewrite (multipart_one _ _ _ M M') in *. congruence.
    + destruct H1 as (d & Sd & _). exact (multi_single _ _ _ _ M Sd).
    + destruct H1 as (d & z & u & Sd & _). exact (multi_single _ _ _ _ M Sd).
  - assert (Nb : forall b, (exists m sb t ps, contentTypeOf h = Some (VType m sb t ps) /\ CStringEqualNoCase m (s2b "multipart") = Some true /\ boundaryParam (VType m sb t ps) = None) -> multipartWith h b -> False).
    { intros b (m & sb & t & ps & Ec & Em & Eb) (m' & sb' & t' & ps' & p & Ec' & Em' & Eb' & _). rewrite Ec in Ec'. injection Ec' as <- <- <- <-. congruence. }
    assert (Ns : forall d, (exists m sb t ps, contentTypeOf h = Some (VType m sb t ps) /\ CStringEqualNoCase m (s2b "multipart") = Some true /\ boundaryParam (VType m sb t ps) = None) -> singleWith h s d -> False).
    { intros b (m & sb & t & ps & Ec & Em & Eb) (m' & sb' & t' & ps' & n & Ec' & Em' & _). rewrite Ec in Ec'. injection Ec' as <- <- <- <-. congruence. }
    destruct f1, f2; try discriminate; try reflexivity; exfalso; cbn [wrongBody] in *; 
      repeat match goal with H : _ /\ _ |- _ => destruct H | H : exists b, multipartWith _ b /\ _ |- _ => destruct H | H : exists d, singleWith _ _ d /\ _ |- _ => destruct H | H : exists d z u, singleWith _ _ d /\ _ |- _ => destruct H as (? & ? & ? & ? & ? & ?) end;
      first [eapply Nb; eassumption|eapply Ns; eassumption|eapply multi_single; eassumption|idtac]; congruence.
Qed.

(** ** C66 *)
(** A start line cannot be read exactly when one of its parts is wrong, and then only one is. *)
Theorem C66_line_parts : forall e s s', (parseStartLine e s = Fail s' <-> exists g, wrongPart e s g s') /\ (forall g1 s1 g2 s2, wrongPart e s g1 s1 -> wrongPart e s g2 s2 -> g1 = g2 /\ s1 = s2).
Proof.
  intros e s s'. split; [split|].
  - intros H. destruct (lg_startLine false e s) as [G _ _]. rewrite H in G. destruct (parseStartLineL e s) as [r l] eqn:E. cbn [fst] in G. subst r. apply line_told in E as (g & l0 & W & _). eauto.
  - intros [g W]. exact (part_fails _ _ _ _ W).
  - intros g1 s1 g2 s2. apply part_one.
Qed.
Lemma lineL_fail e s g s' : wrongPart e s g s' -> exists l0, parseStartLineL e s = (Fail s', l0 ++ [mkerr (rest s') (partText g (nothingLeft (rest s')))]).
Proof.
  intros W. destruct (lg_startLine false e s) as [G _ _]. rewrite (part_fails _ _ _ _ W) in G. destruct (parseStartLineL e s) as [r l] eqn:E. cbn [fst] in G. subst r. destruct (line_told _ _ _ _ E) as (g' & l0 & W' & ->).
  destruct (part_one _ _ _ _ _ _ W W') as [<- _]. eauto.
Qed.
Lemma left_pos src pos r : pos <= len src -> r = skipn (N.to_nat pos) src -> nothingLeft r = (pos =? len src).
Proof.
  intros Hp ->. unfold len in *. destruct (N.eqb_spec pos (N.of_nat (List.length src))) as [->|Hn].
  - rewrite Nnat.Nat2N.id, skipn_all. reflexivity.
  - pose proof (skipn_length (N.to_nat pos) src) as Q. destruct (skipn (N.to_nat pos) src); [cbn in Q; lia|reflexivity].
Qed.
(** The two newest errors: the part of the start line, and that the start line is wrong; both stand where the parse stopped. SipStartLine.Parse alone ends with the first of them. *)
Theorem C66_line_names : forall e c src start pos c' g s', start <= len src -> wrongPart e (mkst (skipn (N.to_nat start) src) (cUsed c)) g s' ->
  (callOn e c AMsg src start = Some (false, pos, c') -> rest s' = skipn (N.to_nat pos) src /\
     exists old x y, cErrs c' = cErrs c ++ old ++ [x; y] /\ rText x = partText g (pos =? len src) /\ rPos x = pos /\ rText y = "parse start-line failed for sip msg"%string /\ rPos y = pos) /\
  (callOn e c AStartLine src start = Some (false, pos, c') -> rest s' = skipn (N.to_nat pos) src /\
     exists old x, cErrs c' = cErrs c ++ old ++ [x] /\ rText x = partText g (pos =? len src) /\ rPos x = pos).
Proof.
  intros e c src start pos c' g s' Hs W. destruct (lineL_fail _ _ _ _ W) as [l0 El]. split; intros H.
  - destruct (C51_one_call _ _ _ _ _ _ _ _ Hs H) as ((s2 & Er & Eu & Ep) & Hp & _). cbn [apiP] in Ep.
    assert (Eq : s2 = s'). { unfold bind in Ep. unfold parseMsg, bind, onRest in Ep. rewrite (part_fails _ _ _ _ W) in Ep. now injection Ep. } subst s2. split; [exact Er|]. rewrite (left_pos src pos _ (proj2 Hp) Er) in El.
    assert (Em : parseMsgL e (mkst (skipn (N.to_nat start) src) (cUsed c)) = (Fail s', (l0 ++ [mkerr (rest s') (partText g (pos =? len src))]) ++ [mkerr (rest s') textStart])).
    { unfold parseMsgL. unfold bindL at 1. unfold orErr at 1. rewrite El. reflexivity. }
    unfold callOn in H. cbn [apiL] in H. unfold bindL in H. rewrite Em in H. injection H as Ho <-. cbn [cErrs cUsed] in *. rewrite !map_app. eexists (map (record src) l0), _, _. split; [rewrite <- app_assoc; reflexivity|]. repeat split; exact Ho.
  - destruct (C51_one_call _ _ _ _ _ _ _ _ Hs H) as ((s2 & Er & Eu & Ep) & Hp & _). cbn [apiP] in Ep.
    assert (Eq : s2 = s'). { unfold bind in Ep. rewrite (part_fails _ _ _ _ W) in Ep. now injection Ep. } subst s2. split; [exact Er|]. rewrite (left_pos src pos _ (proj2 Hp) Er) in El.
    unfold callOn in H. cbn [apiL] in H. unfold bindL in H. rewrite El in H. injection H as Ho <-. cbn [cErrs cUsed] in *. rewrite !map_app. eexists (map (record src) l0), _. split; [reflexivity|]. split; [reflexivity|exact Ho].
Qed.
(** The texts tell the parts apart, but for the method and the Request-URI, and the two spaces of a Status-Line. *)
Theorem C66_line_tells_apart : forall g g' b, partText g b = partText g' b -> g = g' \/ (forall x, x = g \/ x = g' -> x = RMethod \/ x = RUri) \/ (forall x, x = g \/ x = g' -> x = TSpace1 \/ x = TSpace2).
Proof. intros g g' b H. destruct b, g, g'; try (left; reflexivity); try discriminate; right; ((left; intros x [-> | ->]; auto; fail) || (right; intros x [-> | ->]; auto; fail)). Qed.
(** A body cannot be read exactly when there is a fault, and then there is one only. *)
Theorem C66_body_faults : forall e h s s', (parseMsgBody h e s = Fail s' <-> exists f, wrongBody e h s f s') /\ (forall f1 s1 f2 s2, wrongBody e h s f1 s1 -> wrongBody e h s f2 s2 -> f1 = f2 /\ s1 = s2).
Proof.
  intros e h s s'. split; [split|].
  - intros H. destruct (lg_msgBody h e s) as [G _ _]. rewrite H in G. destruct (parseMsgBodyL h e s) as [r l] eqn:E. cbn [fst] in G. subst r. apply body_told in E as (f & W & _). eauto.
  - intros [f W]. exact (body_fails _ _ _ _ _ W).
  - intros f1 s1 f2 s2. apply body_one.
Qed.
(** The errors of a call that stops in the body: the newest says that the body is wrong, the one before it what is wrong there; for a wrong header of a part the errors before that are those of C65. Nothing but the newest is said if the input ends behind a delimiter. *)
Theorem C66_body_names : forall e c src start pos c' f s', start <= len src -> callOn e c AMsg src start = Some (false, pos, c') ->
  (exists l s1 h s2, parseStartLine e (mkst (skipn (N.to_nat start) src) (cUsed c)) = Ok l s1 /\ rest s1 <> [] /\ parseHeaders OMsg e s1 = Ok h s2 /\ wrongBody e h s2 f s') ->
  rest s' = skipn (N.to_nat pos) src /\
  exists new y, cErrs c' = cErrs c ++ new ++ [y] /\ rText y = "parse msg body failed for sip msg"%string /\ rPos y = pos /\
    match f with
    | NothingMore => new = []
    | InHeaders g => exists old x, new = old ++ [x] /\ rText x = "parsed headers failed for sip multi msg-body"%string /\ rPos x = pos /\
        match g with
        | InName => exists older z, old = older ++ [z] /\ rText z = "parsed header name failed"%string /\ rPos z = pos
        | InValue k => exists older z, old = older ++ [z] /\ names k (rText z) /\ rPos z = pos
        | InLineEnd k => old = [] \/ exists z, old = [z] /\ rText z = "reach end before mark for SWSMark"%string
        | InRaw => old = []
        end
    | _ => exists x, new = [x] /\ rText x = bodyText f /\ rPos x = pos
    end.
Proof.
  intros e c src start pos c' f s' Hs H (l & s1 & h & s2 & El & Hr & Eh & W).
  destruct (C51_one_call _ _ _ _ _ _ _ _ Hs H) as ((s3 & Er & Eu & Ep) & _). cbn [apiP] in Ep.
  assert (Eb : parseMsgBody h e s2 = Fail s') by exact (body_fails _ _ _ _ _ W).
  assert (Eq : s3 = s'). { unfold bind in Ep. unfold parseMsg, bind, onRest in Ep. rewrite El in Ep. destruct (rest s1); [congruence|]. rewrite Eh, Eb in Ep. now injection Ep. }
  subst s3. split; [exact Er|]. destruct (parseMsgBodyL h e s2) as [r lb] eqn:EL. destruct (lg_msgBody h e s2) as [G _ _]. rewrite EL, Eb in G. cbn [fst] in G. subst r.
  destruct (body_told _ _ _ _ _ EL) as (f' & W' & T). destruct (body_one _ _ _ _ _ _ _ W W') as [<- _].
  assert (Em : parseMsgL e (mkst (skipn (N.to_nat start) src) (cUsed c)) = (Fail s', lb ++ [mkerr (rest s') textBody])).
  { unfold parseMsgL. unfold bindL at 1. rewrite (orErr_ok textStart parseStartLineL _ e _ _ _ (lg_startLine _ _ _) El). unfold onRestL. destruct (rest s1) as [|x r] eqn:R; [congruence|]. unfold bindL at 1.
    rewrite (orErr_ok textHeaders (parseHeadersL OMsg) _ e _ _ _ (lg_headers _ _ _) Eh). unfold bindL at 1. unfold orErr at 1. rewrite EL. reflexivity. }
  unfold callOn in H. cbn [apiL] in H. unfold bindL in H. rewrite Em in H. injection H as <- <-. cbn [cErrs cUsed] in *. rewrite map_app.
  exists (map (record src) lb), (record src (mkerr (rest s') textBody)). split; [reflexivity|]. split; [reflexivity|]. split; [reflexivity|].
  destruct f as [| | | | | |g| | |]; cbn [toldBody] in T; try (subst lb; eexists; split; [reflexivity|split; reflexivity]); [subst lb; reflexivity|].
  destruct T as (lh & -> & T). rewrite map_app. eexists (map (record src) lh), _. split; [reflexivity|]. split; [reflexivity|]. split; [reflexivity|].
  destruct g as [|k|k|]; cbn [told] in T.
  - destruct T as [l0 ->]. rewrite map_app. eexists _, _. split; [reflexivity|]. split; reflexivity.
  - destruct T as (l0 & t & -> & T). rewrite map_app. eexists _, _. split; [reflexivity|]. split; [exact T|reflexivity].
  - destruct T as [->|[x ->]]; [left; reflexivity|right]. eexists. split; reflexivity.
  - subst lh. reflexivity.
Qed.
Theorem C66_body_tells_apart : forall f f', bodyText f = bodyText f' -> f = f' \/ exists g g', f = InHeaders g /\ f' = InHeaders g'.
Proof. intros f f' H. destruct f, f'; try (left; reflexivity); try discriminate; right; eauto. Qed.
(** A wrong Request-URI is reported as a wrong method: the same errors come out for a text whose method is wrong. *)
Definition errorsOf (src : bytes) (c : list string * list N * N) : Prop :=
  exists pos c', callOn (exNet (Some 4000)) (mkctx [] 0) AMsg src 0 = Some (false, pos, c') /\ (map rText (cErrs c'), map rPos (cErrs c'), pos) = c.
Theorem C66_uri_text_refuted : exists s', wrongPart (exNet (Some 4000)) (mkst (s2b "INVITE urn:x SIP/2.0" ++ CRLF) 0) RUri s' /\
  errorsOf (s2b "INVITE urn:x SIP/2.0" ++ CRLF) (["wrong Method for Request-Line"; "parse start-line failed for sip msg"]%string, [11; 11], 11) /\
  errorsOf (s2b "@ sip:x SIP/2.0" ++ CRLF) (["empty"; "wrong Method for Request-Line"; "parse start-line failed for sip msg"]%string, [0; 0; 0], 0).
Proof.
  eexists. split; [split; [vm_compute; reflexivity|]; eexists _, _, _; split; [vm_compute; reflexivity|]; split; [vm_compute; reflexivity|]; vm_compute; reflexivity|]. split; eexists _, _; vm_compute; split; reflexivity.
Qed.
(** ... and a missing space behind the status code as one behind the version. *)
Theorem C66_space_text_refuted : exists s', wrongPart (exNet (Some 4000)) (mkst (s2b "SIP/2.0 200" ++ CRLF) 0) TSpace2 s' /\
  errorsOf (s2b "SIP/2.0 200" ++ CRLF) (["no SP after SIP-Version for Status-Line"; "parse start-line failed for sip msg"]%string, [11; 11], 11).
Proof.
  eexists. split; [eexists _, _, _, _, _, _; split; [vm_compute; reflexivity|]; split; [vm_compute; reflexivity|]; split; [vm_compute; reflexivity|]; split; [vm_compute; reflexivity|]; vm_compute; reflexivity|]. eexists _, _; vm_compute; split; reflexivity.
Qed.
Example C66_case_end : errorsOf (s2b "INVITE") (["reach end after Method for Request-Line"; "parse start-line failed for sip msg"]%string, [6; 6], 6). Proof. eexists _, _. vm_compute. split; reflexivity. Qed.
Definition exMixed (t : string) : bytes := s2b "INVITE sip:b SIP/2.0" ++ CRLF ++ s2b "Content-Type: multipart/mixed;boundary=z" ++ CRLF ++ CRLF ++ s2b t.
Example C66_case_first : errorsOf (exMixed "x") (["no first dash-bounday for sip multi msg-body"; "parse msg body failed for sip msg"]%string, [66; 66], 66). Proof. eexists _, _. vm_compute. split; reflexivity. Qed.
Example C66_case_silent : errorsOf (exMixed "--z") (["parse msg body failed for sip msg"]%string, [69], 69). Proof. eexists _, _. vm_compute. split; reflexivity. Qed.
Example C66_case_one : errorsOf (exMixed "--z-") (["reach end without close-delimiter for sip multi msg-body"; "parse msg body failed for sip msg"]%string, [69; 69], 69). Proof. eexists _, _. vm_compute. split; reflexivity. Qed.
Example C66_case_header : errorsOf (exMixed "--z" ++ CRLF ++ s2b "Content-Length: x" ++ CRLF ++ CRLF)
  (["parse num failed for CSeq header"; "parsed headers failed for sip multi msg-body"; "parse msg body failed for sip msg"]%string, [87; 87; 87], 87). Proof. eexists _, _. vm_compute. split; reflexivity. Qed.
Example C66_case_delimiter : errorsOf (exMixed "--z" ++ CRLF ++ CRLF ++ s2b "a") (["no delimiter after body for sip multi msg-body"; "parse msg body failed for sip msg"]%string, [73; 73], 73). Proof. eexists _, _. vm_compute. split; reflexivity. Qed.

Print Assumptions C66_line_parts.
Print Assumptions C66_line_names.
Print Assumptions C66_line_tells_apart.
Print Assumptions C66_body_faults.
Print Assumptions C66_body_names.
Print Assumptions C66_body_tells_apart.
Print Assumptions C66_uri_text_refuted.
Print Assumptions C66_space_text_refuted.
