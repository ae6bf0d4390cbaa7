From Verif Require Import Base Charset CharsetSpec BaseLemmas Num NumSpec.
From Coq Require Import ZifyClasses.

Lemma IsDigit_isDec b : IsDigit b = isDec b.
Proof.
  destruct (N.ltb_spec b 256) as [H|H].
  - apply eqb_prop. revert b H. apply sweep. vm_compute. reflexivity.
  - unfold isDec. destruct (IsDigit b) eqn:E.
    + apply inset_byte in E. lia.
    + symmetry. apply andb_false_intro2. lia.
Qed.

Lemma decVal_snoc ds d : decVal (ds ++ [d]) = decVal ds * 10 + (d - 48).
Proof.
  induction ds as [|x ds IH]; cbn [decVal app].
  - cbn. lia.
  - rewrite IH, app_length. cbn [List.length].
    replace (N.of_nat (List.length ds + 1)) with (N.succ (N.of_nat (List.length ds))) by lia.
    rewrite N.pow_succ_r'. lia.
Qed.

Lemma mod_mul_add a b m : m <> 0 -> ((a mod m) * 10 + b) mod m = (a * 10 + b) mod m.
Proof.
  intros Hm. rewrite <- (N.add_mod_idemp_l (a * 10)) by assumption.
  rewrite <- (N.mul_mod_idemp_l a 10 m) by assumption.
  rewrite N.add_mod_idemp_l by assumption. reflexivity.
Qed.

Lemma two64_nz : two64 <> 0. Proof. discriminate. Qed.

(** The loop computes the decimal value modulo 2^64 of what it consumed. *)
Lemma uintLoop_spec r : forall pre acc, acc = decVal pre mod two64 ->
  uintLoop acc r = (decVal (pre ++ fst (span IsDigit r)) mod two64, snd (span IsDigit r)).
Proof.
  induction r as [|x r IH]; intros pre acc Hacc; cbn [uintLoop span].
  - cbn. now rewrite app_nil_r, Hacc.
  - destruct (IsDigit x) eqn:Ex.
    + destruct (span IsDigit r) as [a b] eqn:E. cbn [fst snd].
      rewrite (IH (pre ++ [x])).
      * cbn [fst snd]. rewrite <- app_assoc. reflexivity.
      * rewrite decVal_snoc. rewrite IsDigit_isDec in Ex. unfold isDec in Ex.
        replace (acc * 10 + x - 48) with (acc * 10 + (x - 48)) by lia.
        rewrite Hacc. apply mod_mul_add, two64_nz.
    + cbn [fst snd]. now rewrite app_nil_r, Hacc.
Qed.

Lemma forallb_isDec ds : forallb IsDigit ds = forallb isDec ds.
Proof. induction ds as [|d ds IH]; cbn; [reflexivity|]. now rewrite IH, IsDigit_isDec. Qed.

Lemma ParseUInt_eq r : ParseUInt r =
  match span IsDigit r with
  | ([], _) => None
  | (ds, r') => Some (decVal ds mod two64, len ds, r')
  end.
Proof.
  unfold ParseUInt. destruct r as [|x r]; [reflexivity|].
  destruct (IsDigit x) eqn:Ex.
  - rewrite (uintLoop_spec (x :: r) [] 0 eq_refl). cbn [app].
    destruct (span IsDigit (x :: r)) as [a b] eqn:E.
    assert (Hl := span_len IsDigit (x :: r)). rewrite E in Hl. cbn [fst snd] in *.
    destruct a as [|y a].
    + cbn in E. rewrite Ex in E. destruct (span IsDigit r). discriminate.
    + repeat f_equal. lia.
  - cbn [span]. rewrite Ex. reflexivity.
Qed.

(** C02: full characterisation. *)
Lemma ParseUInt_spec r v n r' :
  ParseUInt r = Some (v, n, r') <->
  exists ds, r = ds ++ r' /\ ds <> [] /\ forallb isDec ds = true /\
             (forall d t, r' = d :: t -> isDec d = false) /\
             v = decVal ds mod two64 /\ n = len ds.
Proof.
  rewrite ParseUInt_eq. split.
  - destruct (span IsDigit r) as [ds b] eqn:E. destruct ds as [|d ds]; [discriminate|].
    intros [= <- <- <-]. exists (d :: ds). repeat split.
    + now apply span_app in E.
    + discriminate.
    + rewrite <- forallb_isDec. now apply span_all in E.
    + intros d' t ->. apply span_stops in E. cbn in E. rewrite IsDigit_isDec in E.
      destruct (isDec d'); [discriminate|reflexivity].
  - intros (ds & -> & Hne & Hd & Hs & -> & ->).
    rewrite (span_exact IsDigit ds r').
    + destruct ds; [congruence|reflexivity].
    + now rewrite forallb_isDec.
    + destruct r' as [|d t]; [reflexivity|]. cbn. rewrite IsDigit_isDec, (Hs d t eq_refl). reflexivity.
Qed.

Lemma ParseUInt_none r : ParseUInt r = None <-> (r = [] \/ exists d t, r = d :: t /\ isDec d = false).
Proof.
  unfold ParseUInt. destruct r as [|x r]; [intuition congruence|].
  rewrite IsDigit_isDec. destruct (isDec x) eqn:Ex.
  - destruct (uintLoop 0 (x :: r)). split; [discriminate|].
    intros [H|(d & t & [= -> ->] & H)]; congruence.
  - split; [right; exists x, r; auto|reflexivity].
Qed.

Lemma uintLoop_2_eq r : forall acc, uintLoop_2 acc r = uintLoop acc r.
Proof.
  induction r as [|x r IH]; intros acc; cbn; [reflexivity|].
  destruct (IsDigit x); cbn; [apply IH|reflexivity].
Qed.
Lemma ParseUInt_2_eq r : ParseUInt_2 r = match ParseUInt r with Some (v, _, r') => Some (v, r') | None => None end.
Proof.
  unfold ParseUInt_2, ParseUInt. destruct r as [|x r]; [reflexivity|].
  destruct (IsDigit x); cbn [negb]; [|reflexivity].
  rewrite uintLoop_2_eq. destruct (uintLoop 0 (x :: r)). reflexivity.
Qed.

(** Encoding. *)
Lemma div10_lt n k : n < 10 ^ N.succ k -> n / 10 < 10 ^ k.
Proof. rewrite N.pow_succ_r'. intros H. apply N.div_lt_upper_bound; lia. Qed.

Lemma last_digit n : n - n / 10 * 10 = n mod 10.
Proof. rewrite N.mod_eq by discriminate. f_equal. apply N.mul_comm. Qed.

Lemma decVal_cons d acc : decVal (d :: acc) = (d - 48) * 10 ^ N.of_nat (List.length acc) + decVal acc.
Proof. reflexivity. Qed.

Lemma encLoop_spec cap : forall n acc, n < 10 ^ N.of_nat cap -> forallb isDec acc = true ->
  exists pre, encLoop cap n acc = Some (pre ++ acc) /\
    decVal (pre ++ acc) = n * 10 ^ N.of_nat (List.length acc) + decVal acc /\
    forallb isDec pre = true /\
    (n = 0 -> pre = []) /\ (n <> 0 -> exists d t, pre = d :: t /\ d <> 48) /\
    (List.length pre <= cap)%nat.
Proof.
  induction cap as [|cap IH]; intros n acc Hn Hacc.
  - cbn in Hn. assert (n = 0) by lia. subst. cbn. exists []. repeat split; auto. congruence.
  - cbn [encLoop]. destruct (N.eqb_spec n 0) as [->|Hnz].
    + exists []. repeat split; auto; try congruence. cbn. lia.
    + rewrite last_digit.
      assert (Hm : n mod 10 < 10) by (apply N.mod_lt; discriminate).
      assert (Hn' : n / 10 < 10 ^ N.of_nat cap).
      { apply div10_lt. replace (N.succ (N.of_nat cap)) with (N.of_nat (S cap)) by lia. exact Hn. }
      destruct (IH (n / 10) ((48 + n mod 10) :: acc) Hn') as (pre & He & Hv & Hd & H0 & H1 & Hlen).
      { cbn [forallb]. rewrite Hacc. unfold isDec. apply andb_true_intro. split; [|reflexivity]. lia. }
      exists (pre ++ [48 + n mod 10]). rewrite <- app_assoc. cbn [app].
      split; [exact He|]. split.
      { rewrite Hv. cbn [List.length decVal].
        replace (N.of_nat (S (List.length acc))) with (N.succ (N.of_nat (List.length acc))) by lia.
        rewrite N.pow_succ_r'. replace (48 + n mod 10 - 48) with (n mod 10) by lia.
        set (q := 10 ^ N.of_nat (List.length acc)).
        pose proof (N.div_mod n 10 ltac:(discriminate)) as Hdm.
        set (d := n / 10) in *. set (m := n mod 10) in *. clearbody d m q. subst n. nia. }
      split. { rewrite forallb_app, Hd. cbn [forallb andb]. unfold isDec. set (m := n mod 10) in *. clearbody m. lia. }
      split; [congruence|]. split.
      { intros _. destruct (N.eqb_spec (n / 10) 0) as [Hq|Hq].
        - rewrite (H0 Hq). cbn. exists (48 + n mod 10), []. split; [reflexivity|].
          pose proof (N.div_mod n 10 ltac:(discriminate)). lia.
        - destruct (H1 Hq) as (d & t & -> & Hd48). exists d, (t ++ [48 + n mod 10]). auto. }
      rewrite app_length. cbn. lia.
Qed.

Lemma encLoop_full cap n : n < 10 ^ N.of_nat cap -> n <> 0 ->
  exists ds, encLoop cap n [] = Some ds /\ canonical ds /\ decVal ds = n /\ (List.length ds <= cap)%nat.
Proof.
  intros Hn Hnz. destruct (encLoop_spec cap n [] Hn eq_refl) as (ds & He & Hv & Hd & _ & H1 & Hl).
  rewrite app_nil_r in *. exists ds. split; [exact He|]. split; [|split; [|exact Hl]].
  - destruct (H1 Hnz) as (d & t & -> & Hd48). repeat split; [discriminate|exact Hd|].
    intros t' [= E]. congruence.
  - rewrite Hv. cbn. lia.
Qed.

Lemma canonical_zero : canonical [48].
Proof. repeat split; [discriminate|]. intros t [= <-]. reflexivity. Qed.

Lemma two64_pow : two64 < 10 ^ 32. Proof. reflexivity. Qed.
Lemma two32_pow : two32 < 10 ^ 16. Proof. reflexivity. Qed.

Lemma EncodeUInt_spec n : n < two64 ->
  exists ds, EncodeUInt n = Some ds /\ canonical ds /\ decVal ds = n.
Proof.
  intros Hn. unfold EncodeUInt. destruct (N.eqb_spec n 0) as [->|Hnz].
  - exists [48]. split; [reflexivity|]. split; [apply canonical_zero|reflexivity].
  - destruct (encLoop_full 32 n) as (ds & H1 & H2 & H3 & _); auto.
    + pose proof two64_pow. change (N.of_nat 32) with 32. lia.
    + exists ds; auto.
Qed.

Lemma EncodeUInt32_spec n : n < two32 ->
  exists ds, EncodeUInt32 n = Some ds /\ canonical ds /\ decVal ds = n.
Proof.
  intros Hn. unfold EncodeUInt32. destruct (N.eqb_spec n 0) as [->|Hnz].
  - exists [48]. split; [reflexivity|]. split; [apply canonical_zero|reflexivity].
  - destruct (encLoop_full 16 n) as (ds & H1 & H2 & H3 & _); auto.
    + pose proof two32_pow. change (N.of_nat 16) with 16. lia.
    + exists ds; auto.
Qed.

Lemma encLoop2_eq cap : forall n acc, encLoop2 cap n acc = option_map (@rev N) (encLoop cap n (rev acc)).
Proof.
  induction cap as [|cap IH]; intros n acc; cbn [encLoop2 encLoop].
  - destruct (n =? 0); cbn; [now rewrite rev_involutive|reflexivity].
  - destruct (n =? 0); [cbn; now rewrite rev_involutive|].
    rewrite IH, rev_app_distr. reflexivity.
Qed.
Lemma EncodeUInt2_eq n : EncodeUInt2 n = EncodeUInt n.
Proof.
  unfold EncodeUInt2, EncodeUInt. destruct (n =? 0); [reflexivity|].
  rewrite encLoop2_eq. cbn [rev]. destruct (encLoop 32 n []); cbn; [|reflexivity].
  now rewrite rev_involutive.
Qed.
Lemma encUInt_some n : n < two64 -> EncodeUInt n = Some (encUInt n).
Proof. intros H. unfold encUInt. destruct (EncodeUInt_spec n H) as (ds & -> & _). reflexivity. Qed.

Lemma canonical_inj_len ds : forallb isDec ds = true -> decVal ds < 10 ^ N.of_nat (List.length ds).
Proof.
  induction ds as [|d ds IH]; intros H; [cbn; lia|].
  cbn [forallb] in H. apply andb_prop in H as [Hd H]. specialize (IH H).
  rewrite decVal_cons. cbn [List.length].
  replace (N.of_nat (S (List.length ds))) with (N.succ (N.of_nat (List.length ds))) by lia.
  rewrite N.pow_succ_r'. unfold isDec in Hd. set (q := 10 ^ N.of_nat (List.length ds)) in *.
  assert (d - 48 <= 9) by lia. nia.
Qed.

(** Two canonical numerals with the same value are equal: "the" decimal representation. *)
Lemma canonical_unique a : forall b, canonical a -> canonical b -> decVal a = decVal b -> a = b.
Proof.
  assert (Hlow : forall d t, forallb isDec (d :: t) = true -> d <> 48 -> 10 ^ N.of_nat (List.length t) <= decVal (d :: t)).
  { intros d t H Hd. cbn [forallb] in H. apply andb_prop in H as [H1 _]. unfold isDec in H1.
    rewrite decVal_cons. set (q := 10 ^ _). assert (1 <= d - 48) by lia. nia. }
  assert (Heq : forall a b, forallb isDec a = true -> forallb isDec b = true -> List.length a = List.length b -> decVal a = decVal b -> a = b).
  { induction a0 as [|x a0 IH]; intros [|y b0]; cbn [List.length]; try discriminate; [reflexivity|].
    intros Ha Hb [= Hl] Hv. cbn [forallb] in *. apply andb_prop in Ha as [Hx Ha]. apply andb_prop in Hb as [Hy Hb].
    rewrite !decVal_cons, Hl in Hv.
    pose proof (canonical_inj_len _ Ha) as B1. pose proof (canonical_inj_len _ Hb) as B2. rewrite Hl in B1.
    set (q := 10 ^ N.of_nat (List.length b0)) in *. unfold isDec in Hx, Hy.
    assert (x - 48 = y - 48) by nia.
    assert (x = y) by lia. subst. f_equal. apply IH; auto. nia. }
  intros b (Hna & Hda & Hza) (Hnb & Hdb & Hzb) Hv.
  apply Heq; auto.
  destruct a as [|x a]; [congruence|]. destruct b as [|y b]; [congruence|].
  assert (Hbound : forall d t d' t', forallb isDec (d :: t) = true -> forallb isDec (d' :: t') = true ->
     (forall u, d :: t = 48 :: u -> u = []) ->
     decVal (d :: t) = decVal (d' :: t') -> (List.length t <= List.length t')%nat).
  { intros d t d' t' H1 H2 Hz E. destruct (N.eqb_spec d 48) as [->|Hd]; [rewrite (Hz t eq_refl); cbn; lia|].
    pose proof (Hlow d t H1 Hd) as L. pose proof (canonical_inj_len _ H2) as U. cbn [List.length] in U.
    destruct (Nat.leb_spec (List.length t) (List.length t')) as [|Hgt]; [assumption|exfalso].
    rewrite <- E in U.
    assert (10 ^ N.of_nat (S (List.length t')) <= 10 ^ N.of_nat (List.length t)) by (apply N.pow_le_mono_r; lia).
    lia. }
  pose proof (Hbound x a y b Hda Hdb Hza Hv). pose proof (Hbound y b x a Hdb Hda Hzb (eq_sym Hv)).
  cbn [List.length]. lia.
Qed.

(** Round trip through the parser, with any continuation that does not start with a digit. *)
Lemma encUInt_canonical n : n < two64 -> canonical (encUInt n) /\ decVal (encUInt n) = n.
Proof.
  intros H. unfold encUInt. destruct (EncodeUInt_spec n H) as (ds & -> & H1 & H2). auto.
Qed.
Lemma ParseUInt_encUInt n r : n < two64 -> stops IsDigit r = true ->
  ParseUInt (encUInt n ++ r) = Some (n, len (encUInt n), r).
Proof.
  intros Hn Hr. destruct (encUInt_canonical n Hn) as ((Hne & Hd & Hz) & Hv).
  apply ParseUInt_spec. exists (encUInt n). repeat split; auto.
  - intros d t ->. cbn in Hr. rewrite IsDigit_isDec in Hr. destruct (isDec d); [discriminate|reflexivity].
  - rewrite Hv. symmetry. apply N.mod_small. exact Hn.
Qed.

(** Width. *)
Lemma EncodeWithWidth_spec cap n w : n < 10 ^ N.of_nat cap ->
  exists ds, EncodeWithWidth cap n w = Some (blanks (w - Z.of_nat (List.length ds)) ++ ds) /\
             canonical ds /\ decVal ds = n.
Proof.
  intros Hn. unfold EncodeWithWidth. destruct (N.eqb_spec n 0) as [->|Hnz].
  - exists [48]. split; [reflexivity|]. split; [apply canonical_zero|reflexivity].
  - destruct (encLoop_full cap n Hn Hnz) as (ds & -> & H2 & H3 & _).
    exists ds. split; [|auto]. do 3 f_equal. lia.
Qed.
Lemma blanks_length k : List.length (blanks k) = Z.to_nat k.
Proof. apply repeat_length. Qed.

(** WriteByteAsString is the canonical decimal numeral of the byte. *)
Definition canonicalb (ds : bytes) : bool :=
  negb (beq ds []) && forallb isDec ds && match ds with 48 :: t => beq t [] | _ => true end.
Lemma canonicalb_ok ds : canonicalb ds = true -> canonical ds.
Proof.
  unfold canonicalb. intros H. apply andb_prop in H as [H H3]. apply andb_prop in H as [H1 H2].
  repeat split; auto.
  - intros ->. discriminate.
  - intros t ->. now apply beq_eq.
Qed.
Lemma WriteByteAsString_spec v : v < 256 -> canonical (WriteByteAsString v) /\ decVal (WriteByteAsString v) = v.
Proof.
  intros H.
  assert (E : (canonicalb (WriteByteAsString v) && (decVal (WriteByteAsString v) =? v))%bool = true).
  { revert v H. apply sweep. vm_compute. reflexivity. }
  apply andb_prop in E as [E1 E2]. split; [now apply canonicalb_ok|now apply N.eqb_eq].
Qed.
Lemma WriteByteAsString_encUInt v : v < 256 -> WriteByteAsString v = encUInt v.
Proof.
  intros H. assert (Hv : v < two64) by (unfold two64; lia).
  destruct (WriteByteAsString_spec v H), (encUInt_canonical v Hv).
  apply canonical_unique; auto. congruence.
Qed.
