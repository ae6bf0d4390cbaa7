(** C68: what is in a SIP or TEL URI, a host and a start line after a failed Parse. *)
From Verif Require Import Base BaseLemmas Charset Num Lws Str Monad Good Seq Inv Rt GoodAuto UriGood TelProofs Exact MethodTree HeaderTree Lookup Host Uri Tel GenParam Addr StartLine Headers RawHeaders Msg Errors Left LeftUri UriSpec TelSpec GrammarSpec ExactUri P05_Uri P34_ErrorParts P35_Left.
From Coq Require Import String.
Local Open Scope N_scope.

(** ** Specification *)
Definition noHost : hostport := mkhp HUnknown None.
(** A host that was read stays if the port is wrong; a wrong host leaves none. *)
Definition leavesHost (e : env) (s : st) (h : hostport) : Prop :=
  (exists s', parseHost e s = Fail s') /\ h = noHost \/
  exists a s1 r s', parseHost e s = Ok a s1 /\ rest s1 = 58 :: r /\ h = mkhp a None /\ (pUInt e (mkst r (used s1)) = Fail s' \/ exists n, pUInt e (mkst r (used s1)) = Ok n s' /\ 65535 < n).
(** User and password in front of "@", when that is wrong: a user is kept if there is something behind it, a password if it could be read. *)
Definition leavesUser (e : env) (s : st) (up : option bytes * option bytes) : Prop :=
  (exists s', paEscapable SIP_USER e s = Fail s') /\ up = (None, None) \/
  exists u s1, paEscapable SIP_USER e s = Ok u s1 /\
    (rest s1 = [] /\ up = (None, None) \/
     rest s1 <> [] /\ ((exists s', parsePassword e s1 = Fail s') /\ up = (Some u, None) \/
                       exists pw s2, parsePassword e s1 = Ok pw s2 /\ (forall r, rest s2 <> 64 :: r) /\ up = (Some u, pw))).
(** The table of the recognised parameters, when a parameter cannot be read: as it was in front of that one. *)
Inductive leavesTable (e : env) : known uparam * list uparam -> st -> known uparam -> Prop :=
| LTnow a s s' : rest s <> [] -> uriParamOne SIP_PNAME SIP_PVALUE sipUriSet a e s = Fail s' -> leavesTable e a s (fst a)
| LTmore a s a1 s1 r k : rest s <> [] -> uriParamOne SIP_PNAME SIP_PVALUE sipUriSet a e s = Ok a1 s1 -> rest s1 = 59 :: r -> leavesTable e a1 (mkst r (used s1)) k -> leavesTable e a s k.
(** The parts of a URI are there up to the fault: of a wrong list of parameters those with recognised names stay, the others go; of a wrong list of headers nothing stays. *)
Definition leavesUri (e : env) (s : st) (u : sipuri) : Prop :=
  (exists s', parseSipScheme e s = Fail s') /\ u = mkuri false None None noHost None [] [] \/
  exists b s1, parseSipScheme e s = Ok b s1 /\
    ((exists s' up, parseUserinfo e s1 = Fail s' /\ leavesUser e s1 up /\ u = mkuri b (fst up) (snd up) noHost None [] []) \/
     exists up s2, parseUserinfo e s1 = Ok up s2 /\
       ((exists h, leavesHost e s2 h /\ u = mkuri b (fst up) (snd up) h None [] []) \/
        exists h s3, parseHostPort e s2 = Ok h s3 /\
          ((rest s3 = [59] /\ u = mkuri b (fst up) (snd up) h None [] []) \/
           (exists r k, rest s3 = 59 :: r /\ leavesTable e (None, []) (mkst r (used s3)) k /\ u = mkuri b (fst up) (snd up) h k [] []) \/
           (exists r s', rest s3 = 63 :: r /\ parseUriHeaders e (mkst r (used s3)) = Fail s' /\ u = mkuri b (fst up) (snd up) h None [] []) \/
           (exists r kp s4 r2 s', rest s3 = 59 :: r /\ parseUriParams SIP_PNAME SIP_PVALUE sipUriSet (None, []) e (mkst r (used s3)) = Ok kp s4 /\ rest s4 = 63 :: r2 /\ parseUriHeaders e (mkst r2 (used s4)) = Fail s' /\
              u = mkuri b (fst up) (snd up) h (fst kp) (snd kp) [])))).
(** Context and table of a TEL URI, when a parameter cannot be read: as they were in front of that one. *)
Inductive leavesTelTable (e : env) : (option uparam * bool) * (known uparam * list uparam) -> st -> (option uparam * bool) * known uparam -> Prop :=
| LTTnow a s s' : rest s <> [] -> uriParamOne SIP_PNAME SIP_PVALUE telSet a e s = Fail s' -> leavesTelTable e a s (fst a, fst (snd a))
| LTTmore a s a1 s1 r v : rest s <> [] -> uriParamOne SIP_PNAME SIP_PVALUE telSet a e s = Ok a1 s1 -> rest s1 = 59 :: r -> leavesTelTable e a1 (mkst r (used s1)) v -> leavesTelTable e a s v.
(** Of a TEL URI the number stays, and of a wrong list of parameters the context and those with recognised names in front of the fault; the others go. *)
Definition leavesTel (e : env) (s : st) (t : teluri) : Prop :=
  (exists s', parseTelScheme e s = Fail s') /\ t = mktel false false [] None None [] \/
  exists s1, parseTelScheme e s = Ok tt s1 /\
    ((exists s', parseTelNumber e s1 = Fail s') /\ t = mktel false false [] None None [] \/
     exists g n s2 r, parseTelNumber e s1 = Ok (g, n) s2 /\ rest s2 = 59 :: r /\
       (r = [] /\ t = mktel g false n None None [] \/
        exists c d k, leavesTelTable e ((None, false), (None, [])) (mkst r (used s2)) ((c, d), k) /\ t = mktel g d n c k [])).
(** What is left of a start line. *)
Definition leavesLine (e : env) (s : st) (l : startline) : Prop := exists g s', wrongPart e s g s' /\ lineLeft e s g l.

(** ** Proofs *)
Lemma host_leaves e s h : leavesHost e s h <-> (exists s', parseHostPort e s = Fail s') /\ h = leftHostPort e s.
Proof.
  unfold leavesHost, leftHostPort, parseHostPort, bind, noHost. destruct (parseHost e s) as [a s1|s1| |] eqn:Eh.
  - split.
    + intros [((s' & H) & _)|(a0 & s2 & r & s' & H & R & -> & F)]; [discriminate|]. injection H as <- <-. split; [|reflexivity]. unfold onRest. rewrite R, N.eqb_refl. unfold goto. cbn [rest used].
      exists s'. destruct F as [->|(n & -> & L)]; [reflexivity|]. replace (65535 <? n) with true by lia. reflexivity.
    + intros ((s' & H) & ->). right. unfold onRest in H. destruct (rest s1) as [|x r] eqn:R; [discriminate|]. destruct (N.eqb_spec x 58) as [->|]; [|discriminate].
      exists a, s1, r, s'. do 3 (split; [first [assumption|reflexivity]|]). unfold goto in H. cbn [rest used] in H. destruct (pUInt e (mkst r (used s1))) as [n s2|s2| |] eqn:Ep; try discriminate.
      * destruct (N.ltb_spec 65535 n); [|discriminate]. injection H as <-. right. eauto.
      * injection H as <-. now left.
  - split; [intros [(_ & ->)|(a0 & s2 & r & s' & H & _)]; [eauto|discriminate]|intros (_ & ->); left; eauto].
  - split; [intros [((s' & H) & _)|(a0 & s2 & r & s' & H & _)]; discriminate|intros ((s' & H) & _); discriminate].
  - split; [intros [((s' & H) & _)|(a0 & s2 & r & s' & H & _)]; discriminate|intros ((s' & H) & _); discriminate].
Qed.
Lemma user_leaves e s s' up : parseUserinfo e s = Fail s' -> (leavesUser e s up <-> up = leftUserinfo e s).
Proof.
  intros F. unfold leavesUser, leftUserinfo. unfold parseUserinfo, onRest in F. destruct (findUserinfo (rest s)); [|discriminate]. unfold bind at 1 in F. destruct (paEscapable SIP_USER e s) as [u s1|s1| |]; try discriminate.
  2: { split; [intros [(_ & ->)|(u & s2 & H & _)]; [reflexivity|discriminate]|intros ->; left; eauto]. }
  destruct (rest s1) as [|x r] eqn:R.
  { split; [intros [((s2 & H) & _)|(u2 & s2 & H & [(_ & ->)|(N0 & _)])]; [discriminate|reflexivity|injection H as <- <-; congruence]|intros ->; right; exists u, s1; split; [reflexivity|]; now left]. }
  unfold bind in F. destruct (parsePassword e s1) as [pw s2|s2| |] eqn:Ep; try discriminate.
  - split.
    + intros [((s3 & H) & _)|(u2 & s3 & H & [(N0 & _)|(_ & [((s4 & H2) & _)|(pw2 & s4 & H2 & _ & ->)])])]; [discriminate|injection H as <- <-; congruence|injection H as <- <-; congruence|]. injection H as <- <-. congruence.
    + intros ->. right. exists u, s1. split; [reflexivity|]. right. split; [congruence|]. right. exists pw, s2. split; [assumption|]. split; [|reflexivity]. intros r2 R2. rewrite R2, N.eqb_refl in F. discriminate.
  - split.
    + intros [((s3 & H) & _)|(u2 & s3 & H & [(N0 & _)|(_ & [(_ & ->)|(pw2 & s4 & H2 & _)])])]; [discriminate|injection H as <- <-; congruence|now injection H as <- <-|injection H as <- <-; congruence].
    + intros ->. right. exists u, s1. split; [reflexivity|]. right. split; [congruence|]. left. eauto.
Qed.
Notation tableBody := (fun kl : known uparam * list uparam => onRest (fun r => match r with [] => ret (inr kl) | _ => bind (uriParamOne SIP_PNAME SIP_PVALUE sipUriSet kl) (contIf 59) end)).
Lemma table_progresses : progresses tableBody. Proof. exact (sep_progresses 1 24 59 _ gd_sipOne). Qed.
Lemma table_loop e n : forall a s k, (List.length (rest s) <= n)%nat ->
  (leavesTable e a s k <-> (exists s', sepLoop 59 (uriParamOne SIP_PNAME SIP_PVALUE sipUriSet) a e s = Fail s') /\ k = leftLoop tableBody (fun kl _ _ => fst kl) a e s).
Proof.
  induction n as [|n IH]; intros a s k Hn; rewrite leftLoop_unfold by exact table_progresses; unfold sepLoop; rewrite loopP_unfold by exact table_progresses; unfold onRest; destruct (rest s) as [|x r0] eqn:R; cbn in Hn; try lia.
  1,2: split; [intros H; inversion H; congruence|intros ((s' & H) & _); discriminate].
  unfold bind. destruct (uriParamOne SIP_PNAME SIP_PVALUE sipUriSet a e s) as [a1 s1|s1| |] eqn:E1.
  2: { split; [intros H; inversion H; subst; [eauto|congruence]|intros (_ & ->); econstructor; [congruence|exact E1]]. }
  2,3: split; [intros H; inversion H; congruence|intros ((s' & H) & _); discriminate].
  pose proof (good_suffix _ _ _ _ _ _ _ (gd_sipOne a e s) E1) as (Sx & _). apply suffix_length in Sx. rewrite R in Sx. cbn in Sx.
  unfold contIf, onRest. destruct (rest s1) as [|y r1] eqn:R1.
  { split; [intros H; inversion H; congruence|intros ((s' & H) & _); discriminate]. }
  destruct (N.eqb_spec y 59) as [->|Ny]; unfold bind, goto, ret.
  - assert (L1 : (List.length (rest (mkst r1 (used s1))) <= n)%nat) by (cbn in *; lia). specialize (IH a1 (mkst r1 (used s1)) k L1). unfold sepLoop in IH. rewrite <- IH.
    split; [intros H; inversion H; [congruence|]|intros H; eapply LTmore; eauto; congruence].
    match goal with Q : uriParamOne _ _ _ _ _ _ = Ok _ _, Q2 : rest _ = 59 :: _ |- _ => rewrite E1 in Q; injection Q as <- <-; rewrite R1 in Q2; injection Q2 as <- end. assumption.
  - split; [intros H; inversion H; congruence|intros ((s' & H) & _); discriminate].
Qed.
Lemma table_leaves e s k : rest s <> [] -> (leavesTable e (None, []) s k <-> (exists s', parseUriParams SIP_PNAME SIP_PVALUE sipUriSet (None, []) e s = Fail s') /\ k = leftKnown SIP_PNAME SIP_PVALUE e s).
Proof.
  intros N0. rewrite (table_loop e (List.length (rest s)) _ _ _ (le_n _)). unfold leftKnown, parseUriParams, onRest. destruct (rest s) eqn:R; [congruence|]. reflexivity.
Qed.
(** The choice is made by the parts. *)
Lemma uri_leaves e s u : leavesUri e s u <-> (exists s', parseSipUri e s = Fail s') /\ u = leftUri e s.
Proof.
  unfold leavesUri, leftUri, parseSipUri, noHost. unfold bind at 1. destruct (parseSipScheme e s) as [b s1|s1| |] eqn:Es.
  2: { split; [intros [(_ & ->)|(b & s2 & H & _)]; [eauto|discriminate]|intros (_ & ->); left; eauto]. }
  2,3: split; [intros [((s' & H) & _)|(b & s2 & H & _)]; discriminate|intros ((s' & H) & _); discriminate].
  transitivity (((exists s' up, parseUserinfo e s1 = Fail s' /\ leavesUser e s1 up /\ u = mkuri b (fst up) (snd up) noHost None [] []) \/
     exists up s2, parseUserinfo e s1 = Ok up s2 /\
       ((exists h, leavesHost e s2 h /\ u = mkuri b (fst up) (snd up) h None [] []) \/
        exists h s3, parseHostPort e s2 = Ok h s3 /\
          ((rest s3 = [59] /\ u = mkuri b (fst up) (snd up) h None [] []) \/
           (exists r k, rest s3 = 59 :: r /\ leavesTable e (None, []) (mkst r (used s3)) k /\ u = mkuri b (fst up) (snd up) h k [] []) \/
           (exists r s', rest s3 = 63 :: r /\ parseUriHeaders e (mkst r (used s3)) = Fail s' /\ u = mkuri b (fst up) (snd up) h None [] []) \/
           (exists r kp s4 r2 s', rest s3 = 59 :: r /\ parseUriParams SIP_PNAME SIP_PVALUE sipUriSet (None, []) e (mkst r (used s3)) = Ok kp s4 /\ rest s4 = 63 :: r2 /\ parseUriHeaders e (mkst r2 (used s4)) = Fail s' /\
              u = mkuri b (fst up) (snd up) h (fst kp) (snd kp) [])))) ).
  { split; [intros [((s' & H) & _)|(b2 & s2 & H & K)]; [discriminate|injection H as <- <-; exact K]|intros H; right; eauto]. }
  unfold leftAfterScheme, parseUriAfterScheme, noHost. unfold bind at 1. destruct (parseUserinfo e s1) as [up s2|s2| |] eqn:Eu.
  2: { split.
       - intros [(s' & up & _ & H & ->)|(up & s3 & H & _)]; [|discriminate]. rewrite (user_leaves e s1 s2 up Eu) in H. subst up. split; [eauto|reflexivity].
       - intros (_ & ->). left. exists s2, (leftUserinfo e s1). split; [reflexivity|]. split; [now apply (user_leaves e s1 s2)|reflexivity]. }
  2,3: split; [intros [(s' & up & H & _)|(up & s3 & H & _)]; discriminate|intros ((s' & H) & _); discriminate].
  transitivity ((exists h, leavesHost e s2 h /\ u = mkuri b (fst up) (snd up) h None [] []) \/
        exists h s3, parseHostPort e s2 = Ok h s3 /\
          ((rest s3 = [59] /\ u = mkuri b (fst up) (snd up) h None [] []) \/
           (exists r k, rest s3 = 59 :: r /\ leavesTable e (None, []) (mkst r (used s3)) k /\ u = mkuri b (fst up) (snd up) h k [] []) \/
           (exists r s', rest s3 = 63 :: r /\ parseUriHeaders e (mkst r (used s3)) = Fail s' /\ u = mkuri b (fst up) (snd up) h None [] []) \/
           (exists r kp s4 r2 s', rest s3 = 59 :: r /\ parseUriParams SIP_PNAME SIP_PVALUE sipUriSet (None, []) e (mkst r (used s3)) = Ok kp s4 /\ rest s4 = 63 :: r2 /\ parseUriHeaders e (mkst r2 (used s4)) = Fail s' /\
              u = mkuri b (fst up) (snd up) h (fst kp) (snd kp) []))).
  { split; [intros [(s' & up2 & H & _)|(up2 & s3 & H & K)]; [discriminate|injection H as <- <-; exact K]|intros H; right; eauto]. }
  unfold bind at 1. destruct (parseHostPort e s2) as [h s3|s3| |] eqn:Eh.
  2: { split.
       - intros [(h & H & ->)|(h & s4 & H & _)]; [|discriminate]. apply host_leaves in H as (_ & ->). eauto.
       - intros (_ & ->). left. exists (leftHostPort e s2). split; [apply host_leaves; eauto|reflexivity]. }
  2,3: split; [intros [(h & H & _)|(h & s4 & H & _)]; [apply host_leaves in H as ((s' & H) & _)|]; congruence|intros ((s' & H) & _); discriminate].
  transitivity ((rest s3 = [59] /\ u = mkuri b (fst up) (snd up) h None [] []) \/
           (exists r k, rest s3 = 59 :: r /\ leavesTable e (None, []) (mkst r (used s3)) k /\ u = mkuri b (fst up) (snd up) h k [] []) \/
           (exists r s', rest s3 = 63 :: r /\ parseUriHeaders e (mkst r (used s3)) = Fail s' /\ u = mkuri b (fst up) (snd up) h None [] []) \/
           (exists r kp s4 r2 s', rest s3 = 59 :: r /\ parseUriParams SIP_PNAME SIP_PVALUE sipUriSet (None, []) e (mkst r (used s3)) = Ok kp s4 /\ rest s4 = 63 :: r2 /\ parseUriHeaders e (mkst r2 (used s4)) = Fail s' /\
              u = mkuri b (fst up) (snd up) h (fst kp) (snd kp) [])).
  { split; [intros [(h2 & H & _)|(h2 & s4 & H & K)]; [apply host_leaves in H as ((s' & H) & _); congruence|injection H as <- <-; exact K]|intros H; right; eauto]. }
  unfold onRest. destruct (rest s3) as [|x r1] eqn:R3.
  { split; [intros [(H & _)|[(r & k & H & _)|[(r & s' & H & _)|(r & kp & s4 & r2 & s' & H & _)]]]; discriminate|intros ((s' & H) & _); discriminate]. }
  destruct (N.eqb_spec x 59) as [->|Nx].
  - unfold bind, goto. cbn [rest used]. destruct (parseUriParams SIP_PNAME SIP_PVALUE sipUriSet (None, []) e (mkst r1 (used s3))) as [kp s4|s4| |] eqn:Ep.
    + assert (Nk : forall k, ~ leavesTable e (None, []) (mkst r1 (used s3)) k).
      { intros k H. destruct r1 as [|y r1]; [discriminate|]. apply table_leaves in H; [|discriminate]. destruct H as ((s' & H) & _). congruence. }
      destruct (rest s4) as [|y r3] eqn:R4.
      { split; [|intros ((s' & H) & _); discriminate]. intros [(H & ->)|[(r & k & H & K & _)|[(r & s' & H & _)|(r & kp2 & s5 & r2 & s' & H & H2 & H3 & _)]]]; try discriminate.
        - injection H as ->. discriminate.
        - injection H as <-. elim (Nk _ K).
        - injection H as <-. rewrite Ep in H2. injection H2 as <- <-. congruence. }
      destruct (N.eqb_spec y 63) as [->|Ny].
      * destruct (parseUriHeaders e (mkst r3 (used s4))) as [hs s5|s5| |] eqn:Eq.
        2: { split; [|intros (_ & ->); do 3 right; exists r1, kp, s4, r3, s5; auto]. intros [(H & ->)|[(r & k & H & K & _)|[(r & s' & H & _)|(r & kp2 & s6 & r2 & s' & H & H2 & H3 & _ & ->)]]]; try discriminate.
             - injection H as ->. discriminate.
             - injection H as <-. elim (Nk _ K).
             - injection H as <-. rewrite Ep in H2. injection H2 as <- <-. split; [eauto|reflexivity]. }
        all: split; [|intros ((s' & H) & _); discriminate]; intros [(H & ->)|[(r & k & H & K & _)|[(r & s' & H & _)|(r & kp2 & s6 & r2 & s' & H & H2 & H3 & H4 & _)]]]; try discriminate;
          [injection H as ->; discriminate|injection H as <-; elim (Nk _ K)|injection H as <-; rewrite Ep in H2; injection H2 as <- <-; rewrite R4 in H3; injection H3 as <-; congruence].
      * split; [|intros ((s' & H) & _); discriminate]. intros [(H & ->)|[(r & k & H & K & _)|[(r & s' & H & _)|(r & kp2 & s5 & r2 & s' & H & H2 & H3 & _)]]]; try discriminate.
        -- injection H as ->. discriminate.
        -- injection H as <-. elim (Nk _ K).
        -- injection H as <-. rewrite Ep in H2. injection H2 as <- <-. congruence.
    + destruct r1 as [|y r1].
      { split; [|intros (_ & ->); left; auto]. intros [(_ & ->)|[(r & k & H & K & _)|[(r & s' & H & _)|(r & kp & s5 & r2 & s' & H & H2 & _)]]]; try discriminate; [split; [eauto|reflexivity]| |].
        - injection H as <-. inversion K; cbn in *; congruence.
        - injection H as <-. congruence. }
      split.
      * intros [(H & _)|[(r & k & H & K & ->)|[(r & s' & H & _)|(r & kp & s5 & r2 & s' & H & H2 & _)]]]; try discriminate; injection H as <-; [|congruence]. apply table_leaves in K; [|discriminate]. destruct K as (_ & ->). eauto.
      * intros (_ & ->). right. left. exists (y :: r1), (leftKnown SIP_PNAME SIP_PVALUE e (mkst (y :: r1) (used s3))). split; [reflexivity|]. split; [apply table_leaves; [discriminate|eauto]|reflexivity].
    + split; [|intros ((s' & H) & _); discriminate]. intros [(H & _)|[(r & k & H & K & ->)|[(r & s' & H & _)|(r & kp & s5 & r2 & s' & H & H2 & _)]]]; try discriminate.
      * injection H as ->. discriminate.
      * injection H as <-. destruct r1; [discriminate|]. apply table_leaves in K; [|discriminate]. destruct K as ((s' & K) & _). congruence.
      * injection H as <-. congruence.
    + split; [|intros ((s' & H) & _); discriminate]. intros [(H & _)|[(r & k & H & K & ->)|[(r & s' & H & _)|(r & kp & s5 & r2 & s' & H & H2 & _)]]]; try discriminate.
      * injection H as ->. discriminate.
      * injection H as <-. destruct r1; [discriminate|]. apply table_leaves in K; [|discriminate]. destruct K as ((s' & K) & _). congruence.
      * injection H as <-. congruence.
  - unfold bind, ret. rewrite R3. cbn [fst snd]. destruct (N.eqb_spec x 63) as [->|Ny].
    + unfold goto. cbn [rest used]. destruct (parseUriHeaders e (mkst r1 (used s3))) as [hs s5|s5| |] eqn:Eq.
      2: { split; [|intros (_ & ->); do 2 right; left; eauto]. intros [(H & ->)|[(r & k & H & K & _)|[(r & s' & H & _ & ->)|(r & kp & s4 & r2 & s' & H & H2 & _)]]]; try discriminate. eauto. }
      all: split; [|intros ((s' & H) & _); discriminate]; intros [(H & ->)|[(r & k & H & K & _)|[(r & s' & H & H2 & _)|(r & kp2 & s6 & r2 & s' & H & H2 & _)]]]; try discriminate; injection H as <-; congruence.
    + split; [|intros ((s' & H) & _); discriminate]. intros [(H & ->)|[(r & k & H & K & _)|[(r & s' & H & H2 & _)|(r & kp2 & s6 & r2 & s' & H & H2 & _)]]]; congruence.
Qed.
Notation telBody := (fun v : (option uparam * bool) * (known uparam * list uparam) => onRest (fun r => match r with [] => ret (inr v) | _ => bind (uriParamOne SIP_PNAME SIP_PVALUE telSet v) (contIf 59) end)).
Lemma telTable_progresses : progresses telBody. Proof. exact (sep_progresses 1 16 59 _ gd_telOne). Qed.
Lemma telTable_loop e n : forall a s k, (List.length (rest s) <= n)%nat ->
  (leavesTelTable e a s k <-> (exists s', sepLoop 59 (uriParamOne SIP_PNAME SIP_PVALUE telSet) a e s = Fail s') /\ k = leftLoop telBody (fun v _ _ => (fst v, fst (snd v))) a e s).
Proof.
  induction n as [|n IH]; intros a s k Hn; rewrite leftLoop_unfold by exact telTable_progresses; unfold sepLoop; rewrite loopP_unfold by exact telTable_progresses; unfold onRest; destruct (rest s) as [|x r0] eqn:R; cbn in Hn; try lia.
  1,2: split; [intros H; inversion H; congruence|intros ((s' & H) & _); discriminate].
  unfold bind. destruct (uriParamOne SIP_PNAME SIP_PVALUE telSet a e s) as [a1 s1|s1| |] eqn:E1.
  2: { split; [intros H; inversion H; subst; [eauto|congruence]|intros (_ & ->); econstructor; [congruence|exact E1]]. }
  2,3: split; [intros H; inversion H; congruence|intros ((s' & H) & _); discriminate].
  pose proof (good_suffix _ _ _ _ _ _ _ (gd_telOne a e s) E1) as (Sx & _). apply suffix_length in Sx. rewrite R in Sx. cbn in Sx.
  unfold contIf, onRest. destruct (rest s1) as [|y r1] eqn:R1.
  { split; [intros H; inversion H; congruence|intros ((s' & H) & _); discriminate]. }
  destruct (N.eqb_spec y 59) as [->|Ny]; unfold bind, goto, ret.
  - assert (L1 : (List.length (rest (mkst r1 (used s1))) <= n)%nat) by (cbn in *; lia). specialize (IH a1 (mkst r1 (used s1)) k L1). unfold sepLoop in IH. rewrite <- IH.
    split; [intros H; inversion H; [congruence|]|intros H; eapply LTTmore; eauto; congruence].
    match goal with Q : uriParamOne _ _ _ _ _ _ = Ok _ _, Q2 : rest _ = 59 :: _ |- _ => rewrite E1 in Q; injection Q as <- <-; rewrite R1 in Q2; injection Q2 as <- end. assumption.
  - split; [intros H; inversion H; congruence|intros ((s' & H) & _); discriminate].
Qed.
Lemma tel_leaves e s t : leavesTel e s t <-> (exists s', parseTelUri e s = Fail s') /\ t = leftTelUri e s.
Proof.
  unfold leavesTel, leftTelUri, parseTelUri. unfold bind at 1. destruct (parseTelScheme e s) as [[] s1|s1| |] eqn:Es.
  2: { split; [intros [(_ & ->)|(s2 & H & _)]; [eauto|discriminate]|intros (_ & ->); left; eauto]. }
  2,3: split; [intros [((s' & H) & _)|(s2 & H & _)]; discriminate|intros ((s' & H) & _); discriminate].
  transitivity ((exists s', parseTelNumber e s1 = Fail s') /\ t = mktel false false [] None None [] \/
     exists g n s2 r, parseTelNumber e s1 = Ok (g, n) s2 /\ rest s2 = 59 :: r /\
       (r = [] /\ t = mktel g false n None None [] \/
        exists c d k, leavesTelTable e ((None, false), (None, [])) (mkst r (used s2)) ((c, d), k) /\ t = mktel g d n c k [])).
  { split; [intros [((s' & H) & _)|(s2 & H & K)]; [discriminate|injection H as <-; exact K]|intros H; right; eauto]. }
  unfold leftTelAfterScheme, parseTelAfterScheme. unfold bind at 1. destruct (parseTelNumber e s1) as [[g n] s2|s2| |] eqn:En.
  2: { split; [intros [(_ & ->)|(g & n & s3 & r & H & _)]; [eauto|discriminate]|intros (_ & ->); left; eauto]. }
  2,3: split; [intros [((s' & H) & _)|(g & n & s3 & r & H & _)]; discriminate|intros ((s' & H) & _); discriminate].
  cbn [fst snd]. unfold onRest. destruct (rest s2) as [|x r] eqn:R.
  { split; [intros [((s' & H) & _)|(g2 & n2 & s3 & r & H & R2 & _)]; [discriminate|injection H as <- <- <-; congruence]|intros ((s' & H) & _); discriminate]. }
  destruct (N.eqb_spec x 59) as [->|Nx].
  2: { split; [intros [((s' & H) & _)|(g2 & n2 & s3 & r2 & H & R2 & _)]; [discriminate|injection H as <- <- <-; congruence]|intros ((s' & H) & _); discriminate]. }
  transitivity (r = [] /\ t = mktel g false n None None [] \/
        exists c d k, leavesTelTable e ((None, false), (None, [])) (mkst r (used s2)) ((c, d), k) /\ t = mktel g d n c k []).
  { split; [intros [((s' & H) & _)|(g2 & n2 & s3 & r2 & H & R2 & K)]; [discriminate|injection H as <- <- <-; rewrite R in R2; injection R2 as <-; exact K]|].
    intros K. right. exists g, n, s2, r. auto. }
  unfold bind at 1, goto. cbn [rest used]. unfold leftTelLoop. destruct r as [|y r].
  - split; [|intros (_ & ->); left; split; reflexivity]. intros [(_ & ->)|(c & d & k & H & _)]; [|inversion H; cbn in *; congruence]. split; [eexists; reflexivity|reflexivity].
  - pose proof (fun k => telTable_loop e (List.length (y :: r)) ((None, false), (None, [])) (mkst (y :: r) (used s2)) k (le_n _)) as L.
    unfold bind at 1, parseUriParams. rewrite onRest_eq. split.
    + intros [(H & _)|(c & d & k & H & ->)]; [discriminate|]. apply L in H as ((s' & ->) & <-). split; [eauto|reflexivity].
    + intros ((s' & H) & ->). right. set (v := leftLoop _ _ _ e _). exists (fst (fst v)), (snd (fst v)), (snd v). split; [|reflexivity].
      replace ((fst (fst v), snd (fst v)), snd v) with v by (destruct v as [[? ?] ?]; reflexivity). apply L. split; [|reflexivity].
      destruct (sepLoop 59 (uriParamOne SIP_PNAME SIP_PVALUE telSet) (None, false, (None, [])) e (mkst (y :: r) (used s2))); try discriminate. eauto.
Qed.
Lemma line_leaves e s l : leavesLine e s l <-> (exists s', parseStartLine e s = Fail s') /\ l = leftLine e s.
Proof.
  split.
  - intros (g & s' & W & H). split; [exists s'; exact (part_fails _ _ _ _ W)|]. eapply lineLeft_one; [exact H|eapply line_left, W].
  - intros ((s' & H) & ->). apply (proj1 (C66_line_parts e s s')) in H as (g & W). exists g, s'. split; [exact W|eapply line_left, W].
Qed.

(** ** Theorems *)
(** A Parse fails exactly if there is something that it leaves, and then that is the only thing. *)
Theorem C68_uri : forall e s, (exists s', parseSipUri e s = Fail s') <-> exists u, leavesUri e s u /\ forall u', leavesUri e s u' -> u' = u.
Proof.
  intros e s. split.
  - intros H. exists (leftUri e s). split; [apply uri_leaves; auto|]. intros u' L. now apply uri_leaves in L.
  - intros (u & L & _). now apply uri_leaves in L.
Qed.
Print Assumptions C68_uri.
Theorem C68_host : forall e s, (exists s', parseHostPort e s = Fail s') <-> exists h, leavesHost e s h /\ forall h', leavesHost e s h' -> h' = h.
Proof.
  intros e s. split.
  - intros H. exists (leftHostPort e s). split; [apply host_leaves; auto|]. intros u' L. now apply host_leaves in L.
  - intros (u & L & _). now apply host_leaves in L.
Qed.
Print Assumptions C68_host.
Theorem C68_tel : forall e s, (exists s', parseTelUri e s = Fail s') <-> exists t, leavesTel e s t /\ forall t', leavesTel e s t' -> t' = t.
Proof.
  intros e s. split.
  - intros H. exists (leftTelUri e s). split; [apply tel_leaves; auto|]. intros u' L. now apply tel_leaves in L.
  - intros (u & L & _). now apply tel_leaves in L.
Qed.
Print Assumptions C68_tel.
Theorem C68_line : forall e s, (exists s', parseStartLine e s = Fail s') <-> exists l, leavesLine e s l /\ forall l', leavesLine e s l' -> l' = l.
Proof.
  intros e s. split.
  - intros H. exists (leftLine e s). split; [apply line_leaves; auto|]. intros u' L. now apply line_leaves in L.
  - intros (u & L & _). now apply line_leaves in L.
Qed.
Print Assumptions C68_line.

(** Parameters, each with ";" behind it, in front of a text. *)
Inductive ParamsBefore : bytes -> list uparam -> bytes -> Prop :=
| PBnone r : ParamsBefore r [] r
| PBone t p r ps k : ParamRead t p (59 :: r) -> ParamsBefore r ps k -> ParamsBefore (t ++ 59 :: r) (p :: ps) k.
Lemma table_known e a s k : leavesTable e a s k -> forall xs, SortInv e (fSipUriKnown e) sipUriKnownNames upName xs a (used s) ->
  exists ps r others, ParamsBefore (rest s) ps r /\ r <> [] /\ Sorted e (fSipUriKnown e) upName uriParamNames (xs ++ ps) k others /\ (infinite e -> forall t p q, r = t ++ q -> ~ ParamRead t p q).
Proof.
  induction 1 as [a s s' N0 E|a s a1 s1 r k N0 E R1 H IH]; intros xs Hi.
  - exists [], (rest s), (snd a). split; [constructor|]. split; [exact N0|]. rewrite app_nil_r. split; [exact (SortInv_Sorted _ _ _ _ _ _ _ Hi)|]. intros HI t p q Er Hp.
    destruct (ex_complete _ _ _ (exact_uriParam e) HI _ _ _ (used s + 6) Hp) as (u2 & E2). destruct s as [r u]. cbn [rest used] in *. rewrite <- Er in E2.
    unfold uriParamOne in E. rewrite (bind_ok _ _ _ _ _ _ (rt_alloc e 6 _ _ HI)) in E. rewrite (bind_ok _ _ _ _ _ _ E2) in E. unfold sipUriSet, withEnv, addParam in E.
    destruct (fSipUriKnown e); [|discriminate]. unfold bind, ret, setKnown in E. destruct (findName _ _ _); [|discriminate]. destruct (fst a); [discriminate|]. unfold leMem in E. rewrite HI in E. discriminate.
  - unfold uriParamOne in E. apply bind_inv in E as (x0 & s3 & Ea & E). pose proof (alloc_inv _ _ _ _ _ Ea) as [R3 _].
    apply bind_inv in E as (p & s4 & Ep & Es). pose proof (good_used _ _ _ _ _ _ _ (gd_alloc 1 6 e s) Ea) as U1. pose proof (good_used _ _ _ _ _ _ _ (gd_uriParam 1 SIP_PNAME SIP_PVALUE e s3 (N.le_refl 1)) Ep) as U2.
    apply (ex_sound _ _ _ (exact_uriParam e)) in Ep as (t & Er & Hp). unfold sipUriSet, withEnv in Es.
    destruct (SortInv_step _ _ _ _ _ _ _ _ _ _ sipNames_ok (SortInv_mono _ _ _ _ _ _ _ _ (N.le_trans _ _ _ U1 U2) Hi) Es) as [R5 Q5].
    destruct (IH (xs ++ [p]) Q5) as (ps & q & others & B & Nq & So & Nr). cbn [rest] in B. exists (p :: ps), q, others. rewrite R5 in R1. rewrite R1 in Er, Hp. split; [|split; [exact Nq|split; [|exact Nr]]].
    + rewrite <- R3, Er. constructor; assumption.
    + rewrite <- app_assoc in So. exact So.
Qed.
(** If a parameter is wrong, those in front of it were read as the grammar says, and those with recognised names are in the table as if the list ended there; in an unlimited arena the text behind them starts
    with no parameter. *)
Theorem C68_known : forall e s k, leavesTable e (None, []) s k -> exists ps r others, ParamsBefore (rest s) ps r /\ r <> [] /\ Sorted e (fSipUriKnown e) upName uriParamNames ps k others /\
  (infinite e -> forall t p q, r = t ++ q -> ~ ParamRead t p q).
Proof. intros e s k H. apply (table_known _ _ _ _ H []). left. unfold sorted. destruct (fSipUriKnown e); reflexivity. Qed.
Print Assumptions C68_known.

Lemma telTable_known e a s v : leavesTelTable e a s v -> forall xs, TelInv e xs a (used s) ->
  exists ps r others, ParamsBefore (rest s) ps r /\ r <> [] /\ Forall (fun p => isContext p = true -> upValue p <> None) (xs ++ ps) /\ ContextOf (lastContext (xs ++ ps)) (fst (fst v)) (snd (fst v)) /\
    Sorted e (fTelUriKnown e) upName telParamNames (filter (fun p => negb (isContext p)) (xs ++ ps)) (snd v) others /\ (infinite e -> forall t p q, r = t ++ q -> ~ ParamRead t p q).
Proof.
  induction 1 as [a s s' N0 E|a s a1 s1 r k N0 E R1 H IH]; intros xs Hi.
  - destruct Hi as (H1 & H2 & H3). exists [], (rest s), (snd (snd a)). split; [constructor|]. split; [exact N0|]. rewrite app_nil_r. split; [exact H1|]. split; [exact H2|]. split; [exact (SortInv_Sorted _ _ _ _ _ _ _ H3)|]. intros HI t p q Er Hp.
    destruct (ex_complete _ _ _ (exact_uriParam e) HI _ _ _ (used s + 6) Hp) as (u2 & E2). destruct s as [r u]. cbn [rest used] in *. rewrite <- Er in E2.
    unfold uriParamOne in E. rewrite (bind_ok _ _ _ _ _ _ (rt_alloc e 6 _ _ HI)) in E. rewrite (bind_ok _ _ _ _ _ _ E2) in E. revert E. apply MemLeftTel.telSet_fail.
  - unfold uriParamOne in E. apply bind_inv in E as (x0 & s3 & Ea & E). pose proof (alloc_inv _ _ _ _ _ Ea) as [R3 _].
    apply bind_inv in E as (p & s4 & Ep & Es). pose proof (good_used _ _ _ _ _ _ _ (gd_alloc 1 6 e s) Ea) as U1. pose proof (good_used _ _ _ _ _ _ _ (gd_uriParam 1 SIP_PNAME SIP_PVALUE e s3 (N.le_refl 1)) Ep) as U2.
    apply (ex_sound _ _ _ (exact_uriParam e)) in Ep as (t & Er & Hp).
    assert (Hi' : TelInv e xs a (used s4)) by (destruct Hi as (H1 & H2 & H3); split; [exact H1|]; split; [exact H2|]; exact (SortInv_mono _ _ _ _ _ _ _ _ (N.le_trans _ _ _ U1 U2) H3)).
    destruct (TelInv_step _ _ _ _ _ _ _ Hi' Es) as [R5 Q5].
    destruct (IH (xs ++ [p]) Q5) as (ps & q & others & B & Nq & F & C & So & Nr). cbn [rest] in B. exists (p :: ps), q, others. rewrite R5 in R1. rewrite R1 in Er, Hp. rewrite <- app_assoc in F, C, So. split; [|split; [exact Nq|split; [exact F|split; [exact C|split; [exact So|exact Nr]]]]].
    rewrite <- R3, Er. constructor; assumption.
Qed.
(** The same of a TEL URI; its context is the last one in front of the fault. *)
Theorem C68_tel_known : forall e s c d k, leavesTelTable e ((None, false), (None, [])) s ((c, d), k) ->
  exists ps r others, ParamsBefore (rest s) ps r /\ r <> [] /\ Forall (fun p => isContext p = true -> upValue p <> None) ps /\ ContextOf (hd_error (rev (filter isContext ps))) c d /\
    Sorted e (fTelUriKnown e) upName telParamNames (filter (fun p => negb (isContext p)) ps) k others /\ (infinite e -> forall t p q, r = t ++ q -> ~ ParamRead t p q).
Proof.
  intros e s c d k H. apply (telTable_known _ _ _ _ H []). split; [constructor|]. split; [constructor|]. left. unfold sorted. cbn [filter]. destruct (fTelUriKnown e); reflexivity.
Qed.
Print Assumptions C68_tel_known.

(** ** On the bytes of the arena *)
From Verif Require Import Arena Layout Mem MemHistory MemBlocks MemMsg MemBodyProofs MemMsgTop Extension P18_Memory P13_Discipline MemWorld MemAsk MemSession P23_Session.
Lemma left_observed e a k t s o : legal e a -> isStruct k = true -> aused a + ssize k <= cap a -> sCorner k e t (aused a + ssize k) = false -> sValue k e (mkst t (aused a + ssize k)) = Fail s ->
  sLeft k e (mkst t (aused a + ssize k)) = Some o -> forall op,
  valSession e (aused a) [] [SNew k; SParse 0 t; op] =
     match valStep e (used s) [(k, Some (aused a + ssize k, Some (o, used s)))] op with
     | Some (v, u', _) => Some [(SvNew true, aused a + ssize k); (SvParse false (rest s), used s); (v, u')] | None => None end.
Proof.
  intros (M0 & _) Hs Lz Hc Hv Hl op. cbn [valSession]. remember (fun u vs => valStep e u vs op) as step eqn:Es. assert (Eo : forall u vs, valStep e u vs op = step u vs) by (now subst). cbn [valStep]. rewrite Hs.
  unfold allocStruct, leMem. rewrite M0. cbn [used rest]. replace (aused a + ssize k <=? cap a) with true by lia. cbn [app nth_error used]. rewrite Hs, Hc. cbn [negb andb]. rewrite Hv, Hl.
  cbn [setAt]. rewrite Eo. destruct (step _ _) as [[[v u'] vs']|]; reflexivity.
Qed.
(** A URI is made and a Parse into it fails, with the arena not full: Encode then writes what [leavesUri] says, and the questions are answered for it. *)
Theorem C68_uri_observed : forall e a t s, legal e a -> aused a + 18 <= cap a -> parseSipUri e (mkst t (aused a + 18)) = Fail s -> used s < cap a ->
  exists u, leavesUri e (mkst t (aused a + 18)) u /\
   (forall pre, memSession e a [] [SNew (SK (WKObj KSipUri)); SParse 0 t; SEncode 0 pre] = Some [(SvNew true, aused a + 18); (SvParse false (rest s), used s); (SvText (Some (pre ++ encSipUri e u)), used s)]) /\
   (forall q x, askUri u q = Some x -> memSession e a [] [SNew (SK (WKObj KSipUri)); SParse 0 t; SAsk 0 q] = Some [(SvNew true, aused a + 18); (SvParse false (rest s), used s); (SvAnswer x, used s)]) /\
   memSession e a [] [SNew (SK (WKObj KSipUri)); SParse 0 t; SLook 0] = Some [(SvNew true, aused a + 18); (SvParse false (rest s), used s); (SvSips (uSecure u), used s)].
Proof.
  intros e a t s Hl Lz Hp Lc. pose proof Hl as (M0 & _). exists (leftUri e (mkst t (aused a + 18))). split; [apply uri_leaves; eauto|].
  assert (C : ltMem e (used s) = true) by (unfold ltMem; rewrite M0; apply N.ltb_lt; lia).
  assert (Hv : sValue (SK (WKObj KSipUri)) e (mkst t (aused a + ssize (SK (WKObj KSipUri)))) = Fail s) by (cbn [sValue ssize objSize]; unfold bind; cbn; unfold bind; now rewrite Hp).
  pose proof (left_observed e a (SK (WKObj KSipUri)) t s _ Hl eq_refl Lz eq_refl Hv eq_refl) as St. cbn [ssize objSize] in St.
  split; [|split].
  - intros pre. apply C55_session; [exact Hl|]. rewrite St. cbn [valStep nth_error sExt wExt extObj negb orb sEncoding wEncoding objEncoding]. rewrite C. reflexivity.
  - intros q x Hx. apply C55_session; [exact Hl|]. rewrite St. cbn [valStep nth_error wExt extObj negb orb askValue]. rewrite C. cbn [andb]. now rewrite Hx.
  - apply C55_session; [exact Hl|]. rewrite St. reflexivity.
Qed.
Print Assumptions C68_uri_observed.
(** A TEL URI. *)
Theorem C68_tel_observed : forall e a t s, legal e a -> aused a + 10 <= cap a -> parseTelUri e (mkst t (aused a + 10)) = Fail s -> used s < cap a ->
  exists u, leavesTel e (mkst t (aused a + 10)) u /\
   (forall pre, memSession e a [] [SNew (SK (WKObj KTelUri)); SParse 0 t; SEncode 0 pre] = Some [(SvNew true, aused a + 10); (SvParse false (rest s), used s); (SvText (Some (pre ++ encTelUri e u)), used s)]).
Proof.
  intros e a t s Hl Lz Hp Lc. pose proof Hl as (M0 & _). exists (leftTelUri e (mkst t (aused a + 10))). split; [apply tel_leaves; eauto|].
  assert (C : ltMem e (used s) = true) by (unfold ltMem; rewrite M0; apply N.ltb_lt; lia).
  assert (Hv : sValue (SK (WKObj KTelUri)) e (mkst t (aused a + ssize (SK (WKObj KTelUri)))) = Fail s) by (cbn [sValue ssize objSize]; unfold bind; cbn; unfold bind; now rewrite Hp).
  pose proof (left_observed e a (SK (WKObj KTelUri)) t s _ Hl eq_refl Lz eq_refl Hv eq_refl) as St. cbn [ssize objSize] in St.
  intros pre. apply C55_session; [exact Hl|]. rewrite St. cbn [valStep nth_error sExt wExt extObj negb orb sEncoding wEncoding objEncoding]. rewrite C. reflexivity.
Qed.
Print Assumptions C68_tel_observed.
(** A host and port. *)
Theorem C68_host_observed : forall e a t s, legal e a -> aused a + 6 <= cap a -> parseHostPort e (mkst t (aused a + 6)) = Fail s -> used s < cap a ->
  exists h, leavesHost e (mkst t (aused a + 6)) h /\
   (forall pre, memSession e a [] [SNew SKHost; SParse 0 t; SEncode 0 pre] = Some [(SvNew true, aused a + 6); (SvParse false (rest s), used s); (SvText (Some (pre ++ encHostPort e h)), used s)]) /\
   exists i4 i6 n, memSession e a [] [SNew SKHost; SParse 0 t; SLook 0] = Some [(SvNew true, aused a + 6); (SvParse false (rest s), used s); (SvHost i4 i6 n None, used s)] /\ (i4 = true <-> exists x y z w, hpHost h = HIpv4 x y z w) /\
     (i6 = true <-> exists ip, hpHost h = HIpv6 ip) /\ (n = true <-> exists b, hpHost h = HName b).
Proof.
  intros e a t s Hl Lz Hp Lc. pose proof Hl as (M0 & _). exists (leftHostPort e (mkst t (aused a + 6))). split; [apply host_leaves; eauto|].
  assert (C : ltMem e (used s) = true) by (unfold ltMem; rewrite M0; apply N.ltb_lt; lia).
  assert (Hv : sValue SKHost e (mkst t (aused a + ssize SKHost)) = Fail s) by (cbn [sValue ssize]; unfold bind; now rewrite Hp).
  pose proof (left_observed e a SKHost t s _ Hl eq_refl Lz eq_refl Hv eq_refl) as St. cbn [ssize] in St.
  split.
  - intros pre. apply C55_session; [exact Hl|]. rewrite St. cbn [valStep nth_error sExt negb orb sEncoding]. rewrite C. reflexivity.
  - assert (Pn : hpPort (leftHostPort e (mkst t (aused a + 6))) = None) by (unfold leftHostPort; destruct (parseHost e _); reflexivity).
    eexists _, _, _. split; [apply C55_session; [exact Hl|]; rewrite St; cbn [valStep nth_error vLook]; rewrite Pn; reflexivity|]. clear.
    unfold leftHostPort. destruct (parseHost e _) as [h s1|s1| |]; cbn [hpHost]; [destruct h|..]; (split; [|split]); split; intros X; try discriminate; try reflexivity; try (destruct X as (? & X); try destruct X as (? & X); try destruct X as (? & X); try destruct X as (? & X); discriminate); eauto.
Qed.
Print Assumptions C68_host_observed.
(** A start line. *)
Theorem C68_line_observed : forall e a t s, legal e a -> aused a + 20 <= cap a -> parseStartLine e (mkst t (aused a + 20)) = Fail s -> used s < cap a ->
  exists l, leavesLine e (mkst t (aused a + 20)) l /\ forall pre, (extLine l = true -> used s < 32768) ->
   memSession e a [] [SNew (SK (WKObj KStartLine)); SParse 0 t; SEncode 0 pre] = Some [(SvNew true, aused a + 20); (SvParse false (rest s), used s); (SvText (Some (pre ++ encStartLine e l)), used s)].
Proof.
  intros e a t s Hl Lz Hp Lc. pose proof Hl as (M0 & _). exists (leftLine e (mkst t (aused a + 20))). split; [apply line_leaves; eauto|].
  assert (C : ltMem e (used s) = true) by (unfold ltMem; rewrite M0; apply N.ltb_lt; lia).
  assert (Hv : sValue (SK (WKObj KStartLine)) e (mkst t (aused a + ssize (SK (WKObj KStartLine)))) = Fail s) by (cbn [sValue ssize objSize]; unfold bind; cbn; unfold bind; now rewrite Hp).
  pose proof (left_observed e a (SK (WKObj KStartLine)) t s _ Hl eq_refl Lz eq_refl Hv eq_refl) as St. cbn [ssize objSize] in St.
  intros pre Lt. apply C55_session; [exact Hl|]. rewrite St. cbn [valStep nth_error sExt wExt extObj sEncoding wEncoding objEncoding]. rewrite C.
  assert (Xt : (negb (extLine (leftLine e (mkst t (aused a + 20)))) || (used s <? 32768)) = true) by (destruct (extLine _); [specialize (Lt eq_refl); cbn [negb orb]; apply N.ltb_lt; lia|reflexivity]). rewrite Xt. reflexivity.
Qed.
Print Assumptions C68_line_observed.

(** ** Cases *)
Definition tableEnv : env := mkenv (Some 4096) true true false false false false true false false false true false false (fun _ => true) (fun _ => None) (fun _ => []).
Definition observedUri (t text : bytes) : Prop :=
  exists r u, memSession tableEnv exArena [] [SNew (SK (WKObj KSipUri)); SParse 0 t; SEncode 0 []] = Some [(SvNew true, 26); (SvParse false r, u); (SvText (Some text), u)] /\ exists x, leavesUri tableEnv (mkst t 26) x.
Ltac obsU := eexists _, _; split; [vm_compute; reflexivity|]; eexists; apply uri_leaves; split; [eexists; vm_compute; reflexivity|reflexivity].
Example C68_case_scheme : observedUri (s2b "tel:1") (s2b "sip:unknown host"). Proof. obsU. Qed.
Example C68_case_user : observedUri (s2b "sips:a:b#@h") (s2b "sips:a:b@unknown host"). Proof. obsU. Qed.
Example C68_case_password : observedUri (s2b "sip:a:%x@h") (s2b "sip:a@unknown host"). Proof. obsU. Qed.
Example C68_case_host : observedUri (s2b "sip:a:b@#") (s2b "sip:a:b@unknown host"). Proof. obsU. Qed.
Example C68_case_port : observedUri (s2b "sip:a@h:65536") (s2b "sip:a@h"). Proof. obsU. Qed.
Example C68_case_params : observedUri (s2b "sip:a@h:5;x;ttl=1;LR;transport=tcp;Transport=udp;=") (s2b "sip:a@h:5;transport=udp;lr;ttl=1"). Proof. obsU. Qed.
Example C68_case_headers : observedUri (s2b "sip:a@h;x;lr?b") (s2b "sip:a@h;lr;x"). Proof. obsU. Qed.
Example C68_case_line : exists r u, memSession tableEnv exArena [] [SNew (SK (WKObj KStartLine)); SParse 0 (s2b "SIP/2.0 200"); SEncode 0 []] = Some [(SvNew true, 28); (SvParse false r, u); (SvText (Some (s2b "SIP/2.0 200 " ++ CRLF)), u)].
Proof. eexists _, _. vm_compute. reflexivity. Qed.
Definition observedTel (t text : bytes) : Prop :=
  exists r u, memSession tableEnv exArena [] [SNew (SK (WKObj KTelUri)); SParse 0 t; SEncode 0 []] = Some [(SvNew true, 18); (SvParse false r, u); (SvText (Some text), u)] /\ exists x, leavesTel tableEnv (mkst t 18) x.
Ltac obsT := eexists _, _; split; [vm_compute; reflexivity|]; eexists; apply tel_leaves; split; [eexists; vm_compute; reflexivity|reflexivity].
Example C68_case_tel_scheme : observedTel (s2b "sip:1") (s2b "tel:"). Proof. obsT. Qed.
Example C68_case_tel_number : observedTel (s2b "tel:+--") (s2b "tel:"). Proof. obsT. Qed.
Example C68_case_tel_params : observedTel (s2b "tel:1-2;EXT=3;x=1;phone-context=h;phone-context=+4-5;=") (s2b "tel:12;phone-context=+45;ext=3"). Proof. obsT. Qed.
Example C68_case_tel_end : observedTel (s2b "tel:+12;") (s2b "tel:+12"). Proof. obsT. Qed.
Example C68_tel_known_case : exists c d k, leavesTelTable tableEnv ((None, false), (None, [])) (mkst (s2b "EXT=3;x=1;phone-context=h;=") 18) ((c, d), k) /\ c <> None /\ d = true /\ k <> None.
Proof.
  eexists _, _, _. split; [apply (telTable_loop tableEnv _ _ _ _ (le_n _)); split; [eexists; vm_compute; reflexivity|vm_compute; reflexivity]|]. repeat split; discriminate.
Qed.
Example C68_tel_observed_case : exists s, parseTelUri tableEnv (mkst (s2b "tel:12;EXT=3;=") (aused exArena + 10)) = Fail s /\ used s < cap exArena /\ aused exArena + 10 <= cap exArena.
Proof. eexists. split; [vm_compute; reflexivity|]. cbn. lia. Qed.
Example C68_case_hostport : exists r u, memSession tableEnv exArena [] [SNew SKHost; SParse 0 (s2b "10.0.0.1:x"); SEncode 0 []] = Some [(SvNew true, 14); (SvParse false r, u); (SvText (Some (s2b "10.0.0.1")), u)].
Proof. eexists _, _. vm_compute. reflexivity. Qed.
(** A port set in what a failed Parse left, and then Encode. *)
Example C68_again_case : exists r u, memSession tableEnv exArena [] [SNew (SK (WKObj KSipUri)); SParse 0 (s2b "sip:a@h;lr;="); SEdit 0 (EdPort 7); SEncode 0 []] = Some [(SvNew true, 26); (SvParse false r, u); (SvEdit true, u); (SvText (Some (s2b "sip:a@h:7;lr")), u)].
Proof. eexists _, _. vm_compute. reflexivity. Qed.
(** The hypotheses met, with parameters in front of the fault. *)
Example C68_known_case : exists k, leavesTable tableEnv (None, []) (mkst (s2b "ttl=1;x;=") 26) k /\ k <> None.
Proof. eexists. split; [apply table_leaves; [discriminate|]; split; [eexists; vm_compute; reflexivity|reflexivity]|vm_compute; discriminate]. Qed.
Example C68_observed_case : legal tableEnv exArena /\ aused exArena + 20 <= cap exArena /\ (exists s, parseSipUri tableEnv (mkst (s2b "sip:a@h;lr;=") (aused exArena + 18)) = Fail s /\ used s < cap exArena) /\
  (exists s, parseHostPort tableEnv (mkst (s2b "h:x") (aused exArena + 6)) = Fail s /\ used s < cap exArena) /\ exists s, parseStartLine tableEnv (mkst (s2b "SIP/2.0 x") (aused exArena + 20)) = Fail s /\ used s < cap exArena /\ used s < 32768.
Proof. split; [repeat split; try (intros; discriminate); cbn; lia|]. split; [cbn; lia|]. repeat split; eexists; (split; [vm_compute; reflexivity|]); cbn; lia. Qed.
