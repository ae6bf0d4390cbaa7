(** Lemmas on searching. *)
From Verif Require Import Base BaseLemmas Charset Lws LwsSpec LwsProofs Str StrSpec StrProofs GenParam GenParamProofs RawProofs Scan ScanSpec.

Lemma same_length a b : sameNoCase a b -> List.length a = List.length b.
Proof. intros H. apply (f_equal (@List.length _)) in H. rewrite !map_length in H. exact H. Qed.
Lemma eqNoCase_spec a b : eqNoCase a b = true <-> sameNoCase a b.
Proof. unfold eqNoCase. rewrite beq_eq. reflexivity. Qed.
Lemma starts_cons c f x r : startsNoCase (c :: f) (x :: r) <-> toLower x = toLower c /\ startsNoCase f r.
Proof.
  split.
  - intros (m & b & E & S). destruct m as [|y m]; [discriminate|]. unfold sameNoCase in S. cbn [map] in S. injection S as S1 S2. injection E as -> ->. split; [exact S1|]. exists m, b. auto.
  - intros (H & m & b & -> & S). exists (x :: m), b. split; [reflexivity|]. unfold sameNoCase. cbn [map]. rewrite S. f_equal. exact H.
Qed.
Lemma starts_nil c f : ~ startsNoCase (c :: f) [].
Proof. intros (m & b & E & S). destruct m; [discriminate S|discriminate E]. Qed.
Lemma starts_firstn f r : startsNoCase f r <-> (List.length f <= List.length r)%nat /\ eqNoCase (firstn (List.length f) r) f = true.
Proof.
  split.
  - intros (m & b & -> & S). pose proof (same_length _ _ S) as L. rewrite app_length. split; [lia|]. rewrite <- L, firstn_app, Nat.sub_diag, firstn_all. cbn [firstn]. rewrite app_nil_r. now apply eqNoCase_spec.
  - intros (L & H). exists (firstn (List.length f) r), (skipn (List.length f) r). split; [symmetry; apply firstn_skipn|]. now apply eqNoCase_spec.
Qed.
Lemma starts_app f t k : startsNoCase f t -> startsNoCase f (t ++ k).
Proof. intros (m & b & -> & S). exists m, (b ++ k). rewrite app_assoc. auto. Qed.
Lemma starts_length f t : startsNoCase f t -> (List.length f <= List.length t)%nat.
Proof. intros (m & b & -> & S). rewrite app_length, <- (same_length _ _ S). lia. Qed.
Lemma occurs_cons f x r : f <> [] -> (occurs f (x :: r) <-> startsNoCase f (x :: r) \/ occurs f r).
Proof.
  intros Hf. split.
  - intros (a & t & E & S). destruct a as [|y a]; cbn [app] in E; [left; rewrite E; exact S|injection E as -> ->; right; exists a, t; auto].
  - intros [S|(a & t & -> & S)]; [exists [], (x :: r); auto|exists (x :: a), t; auto].
Qed.
Lemma occurs_suffix f a t : occurs f t -> occurs f (a ++ t).
Proof. intros (b & s & -> & S). exists (a ++ b), s. rewrite app_assoc. auto. Qed.
Lemma firstAt_cons f x r a t : (~ startsNoCase f (x :: r)) -> firstAt f r a t -> firstAt f (x :: r) (x :: a) t.
Proof.
  intros Hn (E & S & H). split; [rewrite E; reflexivity|]. split; [exact S|]. intros a1 t1 E1 L. destruct a1 as [|y a1]; cbn [app] in E1; [rewrite <- E1; exact Hn|].
  injection E1 as _ E1. apply (H a1 t1 E1). cbn [List.length] in L. lia.
Qed.
Lemma firstAt_here f r : startsNoCase f r -> firstAt f r [] r.
Proof. intros S. split; [reflexivity|]. split; [exact S|]. intros a1 t1 _ L. cbn in L. lia. Qed.
Lemma firstAt_unique f r a t a' t' : firstAt f r a t -> firstAt f r a' t' -> a = a' /\ t = t'.
Proof.
  intros (E & S & H) (E' & S' & H'). assert (L : List.length a = List.length a').
  { destruct (Nat.lt_trichotomy (List.length a) (List.length a')) as [L|[L|L]]; [exfalso; exact (H' a t E L S)|exact L|exfalso; exact (H a' t' E' L S')]. }
  rewrite E in E'. apply app_eq_app in E' as (l & [(E1 & E2)|(E1 & E2)]); subst; rewrite app_length in L; destruct l; cbn in L; try lia; rewrite app_nil_r; auto.
Qed.

(** The search loop finds the first occurrence that is not at the very end. *)
Lemma indexLoop_some c f r : forall a t, indexLoop c f r = Some (a, t) -> firstAt (c :: f) r a t /\ (List.length (c :: f) < List.length t)%nat.
Proof.
  induction r as [|x r IH]; intros a t; cbn [indexLoop]; [discriminate|]. destruct (N.eqb_spec (toLower x) (toLower c)) as [E|E].
  - destruct (Nat.leb_spec (List.length r) (List.length f)) as [L|L]; [discriminate|]. destruct (eqNoCase (firstn (List.length f) r) f) eqn:Q.
    + intros [= <- <-]. split; [|cbn [List.length]; lia]. apply firstAt_here, starts_cons. split; [exact E|]. apply starts_firstn. split; [lia|exact Q].
    + destruct (indexLoop c f r) as [(a1, t1)|]; [|discriminate]. intros [= <- <-]. destruct (IH _ _ eq_refl) as [F L2]. split; [|exact L2]. apply firstAt_cons; [|exact F].
      intros S. apply starts_cons in S as [_ S]. apply starts_firstn in S as [_ S]. congruence.
  - destruct (indexLoop c f r) as [(a1, t1)|]; [|discriminate]. intros [= <- <-]. destruct (IH _ _ eq_refl) as [F L2]. split; [|exact L2]. apply firstAt_cons; [|exact F].
    intros S. apply starts_cons in S as [S _]. congruence.
Qed.
Lemma indexLoop_none c f r : indexLoop c f r = None -> forall a t, r = a ++ t -> startsNoCase (c :: f) t -> List.length t = List.length (c :: f).
Proof.
  induction r as [|x r IH]; intros H a t E S.
  - destruct a; [|discriminate]. cbn [app] in E. subst t. exfalso. exact (starts_nil _ _ S).
  - cbn [indexLoop] in H. destruct a as [|y a]; cbn [app] in E.
    + subst t. apply starts_cons in S as [S1 S2]. rewrite S1, N.eqb_refl in H. apply starts_firstn in S2 as [L S2]. destruct (Nat.leb_spec (List.length r) (List.length f)) as [L2|L2]; [cbn [List.length]; lia|]. rewrite S2 in H. discriminate.
    + injection E as <- E. destruct (N.eqb_spec (toLower x) (toLower c)) as [Q|Q].
      * destruct (Nat.leb_spec (List.length r) (List.length f)) as [L|L]; [pose proof (starts_length _ _ S) as L3; rewrite E, app_length in L; cbn [List.length] in *; lia|].
        destruct (eqNoCase _ f); [discriminate|]. destruct (indexLoop c f r) as [(a1, t1)|]; [discriminate|]. exact (IH eq_refl a t E S).
      * destruct (indexLoop c f r) as [(a1, t1)|]; [discriminate|]. exact (IH eq_refl a t E S).
Qed.
Lemma index_spec find r a t : find <> [] -> (ByteSliceIndexNoCase r find = Some (a, t) <-> firstAt find r a t /\ (List.length find < List.length t)%nat).
Proof.
  intros Hf. destruct find as [|c f]; [contradiction|]. cbn [ByteSliceIndexNoCase]. split; [apply indexLoop_some|]. intros [F L]. destruct (indexLoop c f r) as [(a1, t1)|] eqn:E.
  - destruct (indexLoop_some _ _ _ _ _ E) as [F1 _]. destruct (firstAt_unique _ _ _ _ _ _ F F1) as [-> ->]. reflexivity.
  - destruct F as (E1 & S & _). pose proof (indexLoop_none _ _ _ E a t E1 S). cbn [List.length] in *. lia.
Qed.
Lemma index_none find r : find <> [] -> ~ occurs find r -> ByteSliceIndexNoCase r find = None.
Proof.
  intros Hf H. destruct (ByteSliceIndexNoCase r find) as [(a, t)|] eqn:E; [|reflexivity]. apply index_spec in E as [(E & S & _) _]; [|exact Hf]. exfalso. apply H. exists a, t. auto.
Qed.

Lemma same_noLF n name : sameNoCase n name -> ~ In 10 name -> ~ In 10 n.
Proof.
  revert name. induction n as [|x n IH]; intros [|y name] S H; try discriminate S; [tauto|]. unfold sameNoCase in S. cbn [map] in S. injection S as S1 S2. intros [->|I].
  - apply H. left. change (asciiLower 10) with 10 in S1. unfold asciiLower in S1. destruct ((65 <=? y) && (y <=? 90)); [exfalso; lia|congruence].
  - apply (IH name S2); [intros J; apply H; now right|exact I].
Qed.
Lemma skipWsp_trim v w k : trimmed v w -> ~ startsWsp k -> skipWsp (v ++ k) = w ++ k.
Proof.
  intros (u & -> & Hu & Hw) Hk. rewrite <- app_assoc. induction Hu as [|x u Hx _ IH].
  - cbn [app]. destruct w as [|y w]; cbn [app].
    + destruct k as [|y k]; [reflexivity|]. cbn [skipWsp]. destruct (isWsp y) eqn:E; [|reflexivity]. exfalso. apply Hk. exists y, k. split; [reflexivity|now apply isWsp_spec].
    + cbn [skipWsp]. destruct (isWsp y) eqn:E; [|reflexivity]. exfalso. apply Hw. exists y, w. split; [reflexivity|now apply isWsp_spec].
  - cbn [app skipWsp]. apply isWsp_spec in Hx. rewrite Hx. exact IH.
Qed.
Lemma not_startsWsp_cr b : ~ startsWsp (13 :: b).
Proof. intros (x & t & [= <- _] & [H|H]); discriminate. Qed.
Lemma cut_line x b : ~ In 10 x -> cutAfter 10 (x ++ 13 :: 10 :: b) = Some (x ++ [13; 10], b).
Proof.
  intros H. change (x ++ 13 :: 10 :: b) with (x ++ [13] ++ 10 :: b). rewrite app_assoc, cutAfter_exact; [rewrite <- app_assoc; reflexivity|]. intros I. apply in_app_or in I as [I|[I|[]]]; [exact (H I)|discriminate].
Qed.
Lemma line_cut x : firstn (List.length (x ++ [13; 10]) - 2) (x ++ [13; 10]) = x /\ Nat.ltb (List.length (x ++ [13; 10])) 2 = false.
Proof.
  rewrite app_length. cbn [List.length]. replace (List.length x + 2 - 2)%nat with (List.length x) by lia. split; [|apply Nat.ltb_ge; lia]. rewrite firstn_app, Nat.sub_diag, firstn_all. cbn [firstn]. apply app_nil_r.
Qed.
Lemma round_first name skip s a n v b : scFirst s = true -> ~ In 10 name -> sameNoCase n name -> ~ In 10 v ->
  firstAt (10 :: name) (a ++ 10 :: n ++ v ++ 13 :: 10 :: b) a (10 :: n ++ v ++ 13 :: 10 :: b) ->
  scanRound (10 :: name) skip s (a ++ 10 :: n ++ v ++ 13 :: 10 :: b) = Some (mkscan (scBuf s ++ (if scFound s then s2b ", " else []) ++ n ++ v) false true, Some b).
Proof.
  intros Hs Hname Hn Hv F. unfold scanRound. pose proof (same_length _ _ Hn) as L.
  rewrite (proj2 (index_spec (10 :: name) _ a (10 :: n ++ v ++ 13 :: 10 :: b) ltac:(discriminate))); [|split; [exact F|cbn [List.length]; rewrite !app_length; cbn [List.length]; lia]].
  rewrite Hs. cbn [negb andb tl]. rewrite app_assoc. rewrite cut_line; [|intros I; apply in_app_or in I as [I|I]; [exact (same_noLF _ _ Hn Hname I)|exact (Hv I)]].
  destruct (line_cut (n ++ v)) as [-> ->]. reflexivity.
Qed.
Lemma round_next name s a n v w b : scFirst s = false -> sameNoCase n name -> ~ In 10 v -> trimmed v w ->
  firstAt (10 :: name) (a ++ 10 :: n ++ v ++ 13 :: 10 :: b) a (10 :: n ++ v ++ 13 :: 10 :: b) ->
  scanRound (10 :: name) (S (List.length name)) s (a ++ 10 :: n ++ v ++ 13 :: 10 :: b) = Some (mkscan (scBuf s ++ (if scFound s then s2b ", " else []) ++ w) false true, Some b).
Proof.
  intros Hs Hn Hv Hw F. unfold scanRound. pose proof (same_length _ _ Hn) as L.
  rewrite (proj2 (index_spec (10 :: name) _ a (10 :: n ++ v ++ 13 :: 10 :: b) ltac:(discriminate))); [|split; [exact F|cbn [List.length]; rewrite !app_length; cbn [List.length]; lia]].
  rewrite Hs. cbn [negb andb]. destruct (Nat.ltb_spec (List.length (10 :: n ++ v ++ 13 :: 10 :: b)) (S (List.length name))) as [L2|_]; [cbn [List.length] in L2; rewrite app_length in L2; lia|].
  cbn [skipn]. rewrite <- L, skipn_app, Nat.sub_diag, skipn_all. cbn [app skipn]. rewrite (skipWsp_trim v w _ Hw (not_startsWsp_cr _)).
  rewrite cut_line; [|destruct Hw as (u & -> & _); intros I; apply Hv, in_or_app; now right]. destruct (line_cut w) as [-> ->]. reflexivity.
Qed.
Lemma loop_next name : forall r l, headerLines name r l -> forall ws, Forall2 (fun p w => trimmed (snd p) w) l ws -> forall s fuel, scFirst s = false -> scFound s = true -> (List.length r < fuel)%nat ->
  scanLoop fuel (10 :: name) (S (List.length name)) s r = Some (mkscan (scBuf s ++ flat_map (fun w => s2b ", " ++ w) ws) false true).
Proof.
  induction 1 as [r Hr|a n v b l F Hn Hv H IH]; intros ws Hws s fuel Hs Hf L; (destruct fuel as [|fuel]; [lia|]); cbn [scanLoop].
  - inversion Hws; subst. unfold scanRound. rewrite (index_none (10 :: name)) by (discriminate || exact Hr). cbn [flat_map]. rewrite app_nil_r. destruct s; cbn in *; subst. reflexivity.
  - inversion Hws as [|? w ? ws' Hw Hws' X Y]; subst. cbn [snd] in Hw. rewrite (round_next _ _ _ _ _ w _ Hs Hn Hv Hw F). rewrite (IH ws' Hws'); [|reflexivity|reflexivity|rewrite !app_length in L; cbn [List.length] in L; rewrite !app_length in L; cbn [List.length] in L; lia].
    cbn [scBuf flat_map]. rewrite Hf, <- !app_assoc. reflexivity.
Qed.
Lemma loop_one name skip : ~ In 10 name -> forall s fuel a n v b, scFirst s = true -> firstAt (10 :: name) (a ++ 10 :: n ++ v ++ 13 :: 10 :: b) a (10 :: n ++ v ++ 13 :: 10 :: b) -> sameNoCase n name -> ~ In 10 v ->
  headerLines name b [] -> (List.length (a ++ 10 :: n ++ v ++ 13 :: 10 :: b)%N < fuel)%nat ->
  scanLoop fuel (10 :: name) skip s (a ++ 10 :: n ++ v ++ 13 :: 10 :: b) = Some (mkscan (scBuf s ++ (if scFound s then s2b ", " else []) ++ n ++ v) false true).
Proof.
  intros Hname s fuel a n v b Hs F Hn Hv H L. destruct fuel as [|[|fuel]]; [lia|rewrite app_length in L; cbn in L; lia|]. cbn [scanLoop]. rewrite (round_first _ _ _ _ _ _ _ Hs Hname Hn Hv F).
  inversion H; subst. cbn [scanLoop]. unfold scanRound. rewrite (index_none (10 :: name)) by (discriminate || assumption). reflexivity.
Qed.
Lemma loop_none name skip s fuel r : ~ occurs (10 :: name) r -> scanLoop (S fuel) (10 :: name) skip s r = Some s.
Proof. intros H. cbn [scanLoop]. unfold scanRound. rewrite (index_none (10 :: name)) by (discriminate || exact H). reflexivity. Qed.

(** FindSipHeader2: reading a line. *)
Lemma skipWsp_split q : exists w, q = w ++ skipWsp q /\ Forall wsp w /\ ~ startsWsp (skipWsp q).
Proof.
  induction q as [|x q IH]; [exists []; split; [reflexivity|]; split; [constructor|intros (y & t & E & _); discriminate]|]. cbn [skipWsp]. destruct (isWsp x) eqn:E.
  - destruct IH as (w & E1 & Hw & Hs). exists (x :: w). split; [cbn [app]; congruence|]. split; [constructor; [now apply isWsp_spec|exact Hw]|exact Hs].
  - exists []. split; [reflexivity|]. split; [constructor|]. intros (y & t & [= <- <-] & Hy). apply isWsp_spec in Hy. congruence.
Qed.
Lemma ParseLWS_2_colon q : ParseLWS_2 (58 :: q) = (58 :: q, true).
Proof. unfold ParseLWS_2. cbn [skipWsp isWsp N.eqb orb]. destruct q; reflexivity. Qed.

Lemma cutAfter_spec r : match cutAfter 10 r with Some (x, r1) => r = x ++ r1 /\ exists x', x = x' ++ [10] /\ ~ In 10 x' | None => ~ In 10 r end.
Proof.
  induction r as [|y r IH]; [intros []|]. cbn [cutAfter]. destruct (N.eqb_spec y 10) as [->|H].
  - split; [reflexivity|]. exists []. split; [reflexivity|intros []].
  - destruct (cutAfter 10 r) as [(x, r1)|].
    + destruct IH as (-> & x' & -> & Hx). split; [reflexivity|]. exists (y :: x'). split; [reflexivity|]. intros [E|I]; [congruence|exact (Hx I)].
    + intros [E|I]; [congruence|exact (IH I)].
Qed.
Lemma cutAfter_skip p r : ~ In 10 p -> cutAfter 10 (p ++ r) = match cutAfter 10 r with Some (x, r1) => Some (p ++ x, r1) | None => None end.
Proof.
  induction p as [|y p IH]; intros H; cbn [app].
  - destruct (cutAfter 10 r) as [(x, r1)|]; reflexivity.
  - cbn [cutAfter]. destruct (N.eqb_spec y 10) as [->|E]; [exfalso; apply H; now left|]. rewrite IH by (intros I; apply H; now right). destruct (cutAfter 10 r) as [(x, r1)|]; reflexivity.
Qed.
Lemma lineStart_refl r : lineStart r r.
Proof. exists []. auto. Qed.
Lemma lineStart_step r t : lineStart r t <-> t = r \/ exists x r1, cutAfter 10 r = Some (x, r1) /\ lineStart r1 t.
Proof.
  split.
  - intros (a & -> & [->|(a' & ->)]); [left; reflexivity|right]. pose proof (cutAfter_spec ((a' ++ [10]) ++ t)) as C. destruct (cutAfter 10 ((a' ++ [10]) ++ t)) as [(x, r1)|].
    + exists x, r1. split; [reflexivity|]. destruct C as (E & x' & -> & Hx). apply app_eq_app in E as (l & [(E1 & E2)|(E1 & E2)]).
      * subst r1. exists l. split; [reflexivity|]. destruct l as [|y l]; [left; reflexivity|right]. destruct (exists_last (l := y :: l) ltac:(discriminate)) as (l1 & z & El). rewrite El in *.
        rewrite app_assoc in E1. apply app_inj_tail in E1 as [_ <-]. eauto.
      * destruct l as [|y l]; [subst t; exists []; auto|]. exfalso. destruct (exists_last (l := y :: l) ltac:(discriminate)) as (l1 & z & El). rewrite El in E1. rewrite app_assoc in E1. apply app_inj_tail in E1 as [-> _].
        apply Hx. rewrite <- app_assoc. apply in_or_app. right. now left.
    + exfalso. apply C. rewrite <- app_assoc. apply in_or_app. right. now left.
  - intros [->|(x & r1 & C & (a & -> & Ha))]; [apply lineStart_refl|]. pose proof (cutAfter_spec r) as C2. rewrite C in C2. destruct C2 as (-> & x' & -> & _). exists ((x' ++ [10]) ++ a). split; [rewrite <- !app_assoc; reflexivity|].
    right. destruct Ha as [->|(a' & ->)]; [exists x'; now rewrite app_nil_r|]. exists ((x' ++ [10]) ++ a'). rewrite <- !app_assoc. reflexivity.
Qed.
Lemma lineStart_length r t : lineStart r t -> (List.length t <= List.length r)%nat.
Proof. intros (a & -> & _). rewrite app_length. lia. Qed.
Lemma plain_noLF n : plainName n -> ~ In 10 n.
Proof. intros H I. now apply H in I. Qed.
Lemma wsp_noLF w : Forall wsp w -> ~ In 10 w.
Proof. intros H I. rewrite Forall_forall in H. apply H in I as [I|I]; discriminate. Qed.
Lemma lower_special x y : asciiLower x = asciiLower y -> y = 58 \/ wsp y -> x = y.
Proof.
  unfold wsp. intros H D. assert (Y : asciiLower y = y) by (destruct D as [->|[->| ->]]; reflexivity). rewrite Y in H. unfold asciiLower in H. destruct ((65 <=? x) && (x <=? 90)) eqn:E; [|exact H].
  apply andb_true_iff in E as [E _]. apply N.leb_le in E. lia.
Qed.
Lemma prefix_in name : forall n k, plainName name -> startsNoCase name (n ++ k) -> (forall x k', k = x :: k' -> x = 58 \/ wsp x) -> startsNoCase name n.
Proof.
  induction name as [|y name IH]; intros n k Hp S Hk; [exists [], n; split; [reflexivity|reflexivity]|].
  destruct n as [|z n]; cbn [app] in S.
  - exfalso. destruct k as [|x k]; [exact (starts_nil _ _ S)|]. apply starts_cons in S as [S _]. specialize (Hk x k eq_refl). change toLower with asciiLower in S. symmetry in S. apply (lower_special _ _ S) in Hk as E. subst y. destruct (Hp x (or_introl eq_refl)) as (_ & H2 & H3). tauto.
  - apply starts_cons in S as [S1 S2]. apply starts_cons. split; [exact S1|]. apply (IH n k); [intros u Hu; apply Hp; now right|exact S2|exact Hk].
Qed.
Lemma starts_trans name n short : startsNoCase name n -> sameNoCase n short -> startsNoCase name short.
Proof.
  intros (m & b & -> & S) S2. exists (firstn (List.length m) short), (skipn (List.length m) short). split; [symmetry; apply firstn_skipn|]. unfold sameNoCase in *. rewrite <- firstn_map, <- S2, firstn_map. rewrite firstn_app, Nat.sub_diag, firstn_all. cbn [firstn]. rewrite app_nil_r. exact S.
Qed.
Lemma headerAt_starts name t c : headerAt name t c -> startsNoCase name t.
Proof. intros (n & w & -> & S & _). exists n, (w ++ c). auto. Qed.
(** A line that starts with the name has the header exactly if a colon follows. *)
Lemma headerAt_iff name n q c : sameNoCase n name -> (headerAt name (n ++ q) c <-> c = skipWsp q /\ exists c', c = 58 :: c').
Proof.
  intros S. split.
  - intros (n1 & w & E & S1 & Hw & c' & ->). assert (L : List.length n = List.length n1) by (rewrite (same_length _ _ S), (same_length _ _ S1); reflexivity).
    apply app_eq_app in E as (l & [(E1 & E2)|(E1 & E2)]); subst; rewrite app_length in L; (destruct l; [|cbn in L; lia]); cbn [app] in *; subst.
    + split; [|eauto]. rewrite <- (app_nil_r w) at 1. rewrite <- app_assoc. cbn [app]. symmetry. apply (skipWsp_trim w [] (58 :: c')); [exists w; rewrite app_nil_r; split; [reflexivity|]; split; [exact Hw|intros (x & t & X & _); discriminate]|intros (x & t & [= <- _] & [H|H]); discriminate].
    + split; [|eauto]. symmetry. apply (skipWsp_trim w [] (58 :: c')); [exists w; rewrite app_nil_r; split; [reflexivity|]; split; [exact Hw|intros (x & t & X & _); discriminate]|intros (x & t & [= <- _] & [H|H]); discriminate].
  - intros (-> & c' & E). destruct (skipWsp_split q) as (w & Eq & Hw & _). exists n, w. split; [rewrite <- Eq; reflexivity|]. split; [exact S|]. split; [exact Hw|]. eauto.
Qed.

Section Find2.
Variables name short : bytes.
Hypothesis Hname : plainName name.
Hypothesis Hshort : plainName short.
Hypothesis Hpre : ~ startsNoCase name short.
Let hdr t c := headerAt name t c \/ headerAt short t c.
Definition find2Ok (r : bytes) (o : option (bytes * bool)) : Prop :=
  match o with
  | Some (c, true) => exists t, lineStart r t /\ hdr t c /\ forall t2 c2, lineStart r t2 -> hdr t2 c2 -> (List.length t2 <= List.length t)%nat
  | Some (_, false) => forall t, lineStart r t -> (forall c, ~ hdr t c) /\ (t <> [] -> (List.length name <= List.length t)%nat)
  | None => exists t, lineStart r t /\ t <> [] /\ (List.length t < Nat.max (List.length name) (List.length short))%nat /\ forall t2 c2, lineStart r t2 -> hdr t2 c2 -> (List.length t2 <= List.length t)%nat
  end.
(** Going on behind a line without the header. *)
Lemma find2_next r q p o : r = p ++ q -> ~ In 10 p -> (forall c, ~ hdr r c) -> (List.length name <= List.length r)%nat ->
  (forall x r1, cutAfter 10 q = Some (x, r1) -> find2Ok r1 (o r1)) -> find2Ok r (match cutAfter 10 q with None => Some (q, false) | Some (_, r1) => o r1 end).
Proof.
  intros -> Hp Hno Hl Ho. pose proof (cutAfter_skip p q Hp) as Cr. pose proof (lineStart_step (p ++ q)) as Step. destruct (cutAfter 10 q) as [(x, r1)|] eqn:C.
  - specialize (Ho x r1 eq_refl).
    assert (Fwd : forall t, lineStart r1 t -> lineStart (p ++ q) t) by (intros t Ht; apply Step; right; eauto).
    assert (Bwd : forall t c, lineStart (p ++ q) t -> hdr t c -> lineStart r1 t).
    { intros t c Ht Hc. apply Step in Ht as [->|(x' & r1' & Cx & Ht)]; [exfalso; exact (Hno c Hc)|]. rewrite Cr in Cx. injection Cx as <- <-. exact Ht. }
    destruct (o r1) as [[c []]|]; cbn [find2Ok] in *.
    + destruct Ho as (t & Ht & Hc & Hf). exists t. split; [exact (Fwd t Ht)|]. split; [exact Hc|]. intros t2 c2 H2 Hc2. exact (Hf t2 c2 (Bwd t2 c2 H2 Hc2) Hc2).
    + intros t Ht. apply Step in Ht as [->|(x' & r1' & Cx & Ht)]; [split; [exact Hno|intros _; exact Hl]|]. rewrite Cr in Cx. injection Cx as <- <-. exact (Ho t Ht).
    + destruct Ho as (t & Ht & Hn & Hs & Hf). exists t. split; [exact (Fwd t Ht)|]. split; [exact Hn|]. split; [exact Hs|]. intros t2 c2 H2 Hc2. exact (Hf t2 c2 (Bwd t2 c2 H2 Hc2) Hc2).
  - cbn [find2Ok]. intros t Ht. apply Step in Ht as [->|(x' & r1' & Cx & Ht)]; [split; [exact Hno|intros _; exact Hl]|]. rewrite Cr in Cx. discriminate.
Qed.
Lemma find2_found r n q N0 o : r = n ++ q -> sameNoCase n N0 -> plainName N0 -> (forall c, hdr r c <-> headerAt N0 r c) -> (List.length name <= List.length r)%nat ->
  (forall x r1, cutAfter 10 (skipWsp q) = Some (x, r1) -> find2Ok r1 (o r1)) ->
  find2Ok r (match skipWsp q with
             | [] => Some ([], false)
             | x :: q1 => if x =? 58 then Some (ParseLWS_2 (x :: q1)) else match cutAfter 10 (x :: q1) with None => Some (x :: q1, false) | Some (_, r1) => o r1 end
             end).
Proof.
  intros -> S Hp Hh Hl Ho. destruct (skipWsp_split q) as (w & Eq & Hw & Hs).
  assert (NL : ~ In 10 (n ++ w)) by (intros I; apply in_app_or in I as [I|I]; [exact (same_noLF _ _ S (plain_noLF _ Hp) I)|exact (wsp_noLF _ Hw I)]).
  assert (Er : n ++ q = (n ++ w) ++ skipWsp q) by (rewrite <- app_assoc, <- Eq; reflexivity).
  assert (No : (forall c', skipWsp q <> 58 :: c') -> forall c, ~ hdr (n ++ q) c).
  { intros H c Hc. apply Hh in Hc. apply (headerAt_iff _ _ _ _ S) in Hc as (-> & c' & E). exact (H c' E). }
  destruct (skipWsp q) as [|x q1] eqn:Q.
  - cbn [find2Ok]. rewrite app_nil_r in Er. intros t Ht. apply lineStart_step in Ht as [->|(x' & r1 & C & _)].
    + split; [apply No; discriminate|intros _; exact Hl].
    + pose proof (cutAfter_spec (n ++ q)) as C2. rewrite C in C2. destruct C2 as (E & x'' & -> & _). exfalso. apply NL. rewrite <- Er, E, <- app_assoc. apply in_or_app. right. now left.
  - destruct (N.eqb_spec x 58) as [->|Hx].
    + rewrite ParseLWS_2_colon. cbn [find2Ok]. exists (n ++ q). split; [apply lineStart_refl|]. split; [apply Hh; apply (headerAt_iff _ _ _ _ S); rewrite Q; eauto|]. intros t2 c2 H2 _. exact (lineStart_length _ _ H2).
    + apply find2_next with (p := n ++ w); [exact Er|exact NL|apply No; congruence|exact Hl|exact Ho].
Qed.
Lemma find2_ok fuel : forall r, (List.length r < fuel)%nat -> find2Ok r (find2Loop fuel name short r).
Proof.
  induction fuel as [|fuel IH]; intros r L; [lia|]. cbn [find2Loop]. destruct r as [|x r].
  - cbn [find2Ok]. intros t Ht. apply lineStart_length in Ht. destruct t; [|cbn in Ht; lia]. split; [|tauto]. intros c [(n & w & E & _ & _ & c' & ->)|(n & w & E & _ & _ & c' & ->)]; destruct n; destruct w; discriminate.
  - set (R := x :: r) in *.
    assert (Nx : forall p q x' r1, R = p ++ q -> cutAfter 10 q = Some (x', r1) -> find2Ok r1 (find2Loop fuel name short r1)).
    { intros p q x' r1 E C. apply IH. pose proof (cutAfter_spec q) as C2. rewrite C in C2. destruct C2 as (-> & x'' & -> & _). rewrite E, !app_length in L. cbn [List.length] in L. lia. }
    destruct (Nat.ltb_spec (List.length R) (List.length name)) as [Ln|Ln].
    { cbn [find2Ok]. exists R. split; [apply lineStart_refl|]. split; [discriminate|]. split; [lia|]. intros t2 c2 H2 _. exact (lineStart_length _ _ H2). }
    assert (Flip : forall f, eqNoCase f (firstn (List.length f) R) = eqNoCase (firstn (List.length f) R) f).
    { intros f. destruct (eqNoCase f _) eqn:E; symmetry; [apply eqNoCase_spec; apply eqNoCase_spec in E; symmetry; exact E|]. destruct (eqNoCase (firstn _ R) f) eqn:E2; [|reflexivity]. apply eqNoCase_spec in E2. symmetry in E2. apply eqNoCase_spec in E2. congruence. }
    destruct (eqNoCase name (firstn (List.length name) R)) eqn:En.
    { rewrite Flip in En. pose proof (proj1 (eqNoCase_spec _ _) En) as Sn.
      assert (Rn : R = firstn (List.length name) R ++ skipn (List.length name) R) by (symmetry; apply firstn_skipn).
      apply find2_found with (n := firstn (List.length name) R) (N0 := name) (o := fun r1 => find2Loop fuel name short r1); [exact Rn|exact Sn|exact Hname| |exact Ln|].
      - intros c. unfold hdr. split; [|tauto]. intros [H|H]; [exact H|]. exfalso. apply Hpre. destruct H as (n & w & E & S & Hw & c' & ->).
        apply (starts_trans name n short); [|exact S]. apply (prefix_in name n (w ++ 58 :: c')); [exact Hname| |].
        + rewrite <- E. apply starts_firstn. split; [lia|exact En].
        + intros y k' Ek. destruct w as [|z w]; cbn [app] in Ek; injection Ek as <- _; [left; reflexivity|right; now inversion Hw].
      - intros x' r1 C. destruct (skipWsp_split (skipn (List.length name) R)) as (w & Eq & _). apply (Nx (firstn (List.length name) R ++ w) (skipWsp (skipn (List.length name) R)) x'); [rewrite <- app_assoc, <- Eq; exact Rn|exact C]. }
    assert (NoN : forall c, ~ headerAt name R c).
    { intros c H. apply headerAt_starts in H. apply starts_firstn in H as [_ H]. rewrite Flip in En. congruence. }
    destruct (Nat.ltb_spec (List.length R) (List.length short)) as [Ls|Ls].
    { cbn [find2Ok]. exists R. split; [apply lineStart_refl|]. split; [discriminate|]. split; [lia|]. intros t2 c2 H2 _. exact (lineStart_length _ _ H2). }
    destruct (eqNoCase short (firstn (List.length short) R)) eqn:Es.
    { rewrite Flip in Es. pose proof (proj1 (eqNoCase_spec _ _) Es) as Sn.
      assert (Rn : R = firstn (List.length short) R ++ skipn (List.length short) R) by (symmetry; apply firstn_skipn).
      apply find2_found with (n := firstn (List.length short) R) (N0 := short) (o := fun r1 => find2Loop fuel name short r1); [exact Rn|exact Sn|exact Hshort| |exact Ln|].
      - intros c. unfold hdr. split; [intros [H|H]; [exfalso; exact (NoN c H)|exact H]|tauto].
      - intros x' r1 C. destruct (skipWsp_split (skipn (List.length short) R)) as (w & Eq & _). apply (Nx (firstn (List.length short) R ++ w) (skipWsp (skipn (List.length short) R)) x'); [rewrite <- app_assoc, <- Eq; exact Rn|exact C]. }
    apply (find2_next R R [] (fun r1 => find2Loop fuel name short r1)); [reflexivity|intros []| |exact Ln|intros x' r1 C; exact (Nx [] R x' r1 eq_refl C)].
    intros c [H|H]; [exact (NoN c H)|]. apply headerAt_starts in H. apply starts_firstn in H as [_ H]. rewrite Flip in Es. congruence.
Qed.
End Find2.
