(** Histories in which structs are used again: NewX, Parse into the same struct any number of times, Encode, the setters of SipHostPort and SipUri, FreeAll and
    FreePart (which may give back what a struct points to and keep the struct). On the bytes and in the value layer. *)
From Verif Require Import Base Charset BaseLemmas Num Lws Str Monad Host Uri Arena ArenaProofs Layout Mem MemSim MemTac MemUri MemRep MemEnc MemHostProofs MemUriProofs MemSipUriProofs MemEncProofs MemHistory Tel MemTel MemTelProofs GenParam Addr MemGen MemGenProofs MemAddr MemAddrProofs MethodTree Lookup StartLine Headers RawHeaders Msg MemSteps MemStart MemStartProofs MemHdr MemHdrProofs MemBlocks MemMsg MemMsgProofs MemHeadersProofs MemBodyProofs MemMsgEnc MemMsgEncProofs MemMsgTop Left MemLine MemLeft P18_Memory MemWorld HeaderTree HeaderList MemAsk MemAskProofs MemRemove LeftUri MemLeftUri MemLeftTel.

(** ** On the bytes *)
(** The objects of MemWorld.v, and a SipHostPort of its own. *)
Inductive skind := SK (w : wkind) | SKHost.
(** The size of the struct behind the object; the result of ParseRawHeaders is only a pointer. *)
Definition ssize (k : skind) : N := match k with SK (WKObj k) => objSize k | SK WKMsg => 68 | SK WKRaws => 0 | SKHost => 6 end.
Definition isStruct (k : skind) : bool := match k with SK WKRaws => false | _ => true end.
(** The Parse method, which first clears the struct: SipUri.go:201-204 (SipUri.Parse), SipMsg.go:411-439 (SipMsg.Parse), SipHostPort.go:128-131 (SipHostPort.Parse) ... *)
Definition sParse (k : skind) (p : N) : M unit :=
  match k with SK (WKObj k) => objParse k p | SK WKMsg => mMsgParse p | SK WKRaws => mfail | SKHost => mHostPortParse p end.
(** The Encode method; SipHostPort.go:55-61 (SipHostPort.Encode). *)
Definition sEncode (k : skind) (p : N) : E unit := match k with SK w => wEncode w p | SKHost => ePut (mEncHostPort p) end.
(** The setters: SipHostPort.go:42-45 (SipHostPort.SetPort), SipHostPort.go:315-344 (SipHostPort.SetIpv4), SipHostPort.go:346-376 (SipHostPort.SetIpv6),
    SipHostPort.go:378-387 (SipHostPort.SetHostname); SipUri.go:88-89 (SipUri.SetSipUri, SipUri.SetSipsUri), and SetPort of its field hostport (at 6);
    SipMsg.go:312-343 (SipMsg.RemoveContentHeaders). *)
Inductive edit := EdPort (n : N) | EdIpv4 (ip : bytes) | EdIpv6 (ip : bytes) | EdName (b : bytes) | EdSecure (b : bool) | EdRemoveContent.
Definition sEdit (k : skind) (d : edit) (p : N) : option (M unit) :=
  match k, d with
  | SKHost, EdPort n => Some (mSetPort p n)
  | SKHost, EdIpv4 ip => Some (mSetIpv4 p ip)
  | SKHost, EdIpv6 ip => Some (mSetIpv6 p ip)
  | SKHost, EdName b => Some (mSetHostname p b)
  | SK (WKObj KSipUri), EdSecure b => Some (set8 p (if b then 1 else 0))
  | SK (WKObj KSipUri), EdPort n => Some (mSetPort (p + 6) n)
  | SK WKMsg, EdRemoveContent => Some (mRemoveContent p)
  | _, _ => None
  end.
(** What the caller sees: whether a call succeeded; what is left of the text after Parse; the text written; the answers of SipHostPort.go:35-40 (SipHostPort.IsIpv4, IsIpv6,
    IsHostname, HasPort, and GetPort if there is one) and SipUri.go:91 (SipUri.IsSipsUri); the answers of MemAsk.v. *)
Inductive sevent := SvNew (ok : bool) | SvParse (ok : bool) (left : bytes) | SvText (t : option bytes) | SvEdit (ok : bool) | SvHost (v4 v6 name : bool) (port : option N) | SvSips (b : bool) | SvAnswer (x : answer) | SvFree.
Definition mLook (k : skind) (p : N) (m : N -> N) : option sevent :=
  match k with
  | SKHost => Some (SvHost (m p =? 1) (m p =? 2) (m p =? 3) (if negb (m (p + 1) =? 0) then Some (g16 m (p + 2)) else None))
  | SK (WKObj KSipUri) => Some (SvSips (negb (m p =? 0)))
  | _ => None
  end.
(** The calls. [SRaws]: SipHeaders.go:84-118 (ParseRawHeaders); [SAsk]: the questions of MemAsk.v; [SFreePart]: AbnfMem.go:765-774 (MemAllocator.FreePart). *)
Inductive sop := SNew (k : skind) | SParse (i : nat) (t : bytes) | SRaws (t : bytes) | SEncode (i : nat) (pre : bytes) | SEdit (i : nat) (d : edit) | SLook (i : nat) | SAsk (i : nat) (q : ask) | SFreeAll | SFreePart (remain : N).
Notation sobjs := (list (skind * option N)).
(** One call on the bytes; [os]: the objects so far, with their address. [None]: a crash, or no such object. *)
Definition memStep (e : env) (a : arena) (os : sobjs) (o : sop) : option (sevent * arena * sobjs) :=
  match o with
  | SNew k =>
      if isStruct k then
        match mNew (ssize k) e a [] with
        | MOk p a' _ => Some (SvNew true, a', os ++ [(k, Some p)])
        | MFail a' _ => Some (SvNew false, a', os ++ [(k, None)])
        | _ => None
        end
      else None
  | SParse i t =>
      match nth_error os i with
      | Some (k, Some p) =>
          if isStruct k then
            match sParse k p e a t with
            | MOk _ a' r => Some (SvParse true r, a', os)
            | MFail a' r => Some (SvParse false r, a', os)
            | _ => None
            end
          else None
      | _ => None
      end
  | SRaws t =>
      match mParseRawHeaders e a t with
      | MOk p a' r => Some (SvParse true r, a', os ++ [(SK WKRaws, Some p)])
      | MFail a' r => Some (SvParse false r, a', os ++ [(SK WKRaws, None)])
      | _ => None
      end
  | SEncode i pre =>
      match nth_error os i with
      | Some (k, Some p) =>
          match sEncode k p e a pre with
          | EOk _ a' t => Some (SvText (Some t), a', os)
          | EFail a' _ => Some (SvText None, a', os)
          | _ => None
          end
      | _ => None
      end
  | SEdit i d =>
      match nth_error os i with
      | Some (k, Some p) =>
          match sEdit k d p with
          | Some m => match m e a [] with MOk _ a' _ => Some (SvEdit true, a', os) | MFail a' _ => Some (SvEdit false, a', os) | _ => None end
          | None => None
          end
      | _ => None
      end
  | SLook i =>
      match nth_error os i with
      | Some (k, Some p) => match mLook k p (mem a) with Some v => Some (v, a, os) | None => None end
      | _ => None
      end
  | SAsk i q =>
      match nth_error os i with
      | Some (SK w, Some p) => match wAsk w p q e a [] with EOk x a' _ => Some (SvAnswer x, a', os) | _ => None end
      | _ => None
      end
  | SFreeAll => Some (SvFree, FreeAll a, os)
  | SFreePart n => Some (SvFree, FreePart n a, os)
  end.
Fixpoint memSession (e : env) (a : arena) (os : sobjs) (ops : list sop) : option (list (sevent * N)) :=
  match ops with
  | [] => Some []
  | o :: ops' => match memStep e a os o with Some (v, a', os') => option_map (cons (v, aused a')) (memSession e a' os' ops') | None => None end
  end.

(** ** In the value layer *)
Inductive sobj := SO (o : wobj) | SHost (h : hostport).
(** An object: [None] when its memory is gone or it never had any; else the end of its struct and, if it was parsed (or is a host, which is meaningful from the start) and not
    given back since, its value with the memory in use when it was complete. *)
Notation sval := (skind * option (N * option (sobj * N)))%type.
Definition sValue (k : skind) : P sobj :=
  match k with
  | SK (WKObj k) => o <- objValue k ;; ret (SO (WObj o))
  | SK WKMsg => x <- parseMsg ;; ret (SO (WMsg x))
  | SK WKRaws => pfail
  | SKHost => h <- parseHostPort ;; ret (SHost h)
  end.
(** What a new struct means before anything was parsed into it. *)
Definition sFresh (k : skind) : option sobj := match k with SKHost => Some (SHost (mkhp HUnknown None)) | _ => None end.
Definition sCorner (k : skind) (e : env) (t : bytes) (u : N) : bool := match k with SK WKMsg => cornerCase e t u | _ => false end.
Definition sExt (o : sobj) : bool := match o with SO w => wExt w | SHost _ => false end.
Definition sEncoding (e : env) (u : N) (k : skind) (o : sobj) (pre : bytes) : option (option bytes * sobj * N) :=
  match k, o with
  | SK w, SO o => match wEncoding e u w o pre with Some (t, o', u') => Some (t, SO o', u') | None => None end
  | SKHost, SHost h => Some (Some (pre ++ encHostPort e h), o, u)
  | _, _ => None
  end.
(** The setters; an address must have all its bytes (else what is written is left over from earlier use of the memory), a port 16 bits. *)
Definition sEditV (d : edit) (o : sobj) : option (P sobj) :=
  match o, d with
  | SHost h, EdPort n => if n <? two16 then Some (ret (SHost (mkhp (hpHost h) (Some n)))) else None
  | SHost h, EdIpv4 ip => match ip with a :: b :: c :: d :: _ => Some (allocStruct 4 ;;; ret (SHost (mkhp (HIpv4 a b c d) (hpPort h)))) | _ => None end
  | SHost h, EdIpv6 ip => if 16 <=? len ip then Some (allocStruct 16 ;;; ret (SHost (mkhp (HIpv6 (firstn 16 ip)) (hpPort h)))) else None
  | SHost h, EdName b => Some (allocCString b ;;; ret (SHost (mkhp (HName b) (hpPort h))))
  | SO (WObj (OSipUri u)), EdSecure b => Some (ret (SO (WObj (OSipUri (mkuri b (uUser u) (uPass u) (uHost u) (uKnown u) (uParams u) (uHeaders u))))))
  | SO (WObj (OSipUri u)), EdPort n => if n <? two16 then Some (ret (SO (WObj (OSipUri (mkuri (uSecure u) (uUser u) (uPass u) (mkhp (hpHost (uHost u)) (Some n)) (uKnown u) (uParams u) (uHeaders u)))))) else None
  | SO (WMsg x), EdRemoveContent => Some (ret (SO (WMsg (removeContent x))))
  | _, _ => None
  end.
(** The change reads strings, so it needs an arena that is not full to the last byte. *)
Definition editReads (d : edit) : bool := match d with EdRemoveContent => true | _ => false end.
Definition vLook (o : sobj) : option sevent :=
  match o with
  | SHost h => Some (SvHost (match hpHost h with HIpv4 _ _ _ _ => true | _ => false end) (match hpHost h with HIpv6 _ => true | _ => false end) (match hpHost h with HName _ => true | _ => false end) (hpPort h))
  | SO (WObj (OSipUri u)) => Some (SvSips (uSecure u))
  | _ => None
  end.
(** What is left of an object when the memory from [u] on is given back. *)
Definition remains (u : N) (x : sval) : sval :=
  match x with
  | (k, Some (en, c)) => (k, if en <=? u then Some (en, match c with Some (o, top) => if top <=? u then c else None | None => None end) else None)
  | y => y
  end.
(** What a failed Parse leaves in the object; of an address and a header nothing is said. *)
Definition sLeft (k : skind) (e : env) (s : st) : option sobj :=
  match k with
  | SK WKMsg => Some (SO (WMsg (leftMsg e s)))
  | SK (WKObj KSipUri) => Some (SO (WObj (OSipUri (leftUri e s))))
  | SK (WKObj KTelUri) => Some (SO (WObj (OTelUri (leftTelUri e s))))
  | SK (WKObj KStartLine) => Some (SO (WObj (OStartLine (leftLine e s))))
  | SKHost => Some (SHost (leftHostPort e s))
  | _ => None
  end.
(** [None]: a crash, a call on an object that is not there, Encode of one that has no value, and the limits of [valRun]. *)
Definition valStep (e : env) (u : N) (vs : list sval) (o : sop) : option (sevent * N * list sval) :=
  match o with
  | SNew k =>
      if isStruct k then
        match allocStruct (ssize k) e (mkst [] u) with
        | Ok _ s => Some (SvNew true, used s, vs ++ [(k, Some (used s, match sFresh k with Some o => Some (o, used s) | None => None end))])
        | Fail s => Some (SvNew false, used s, vs ++ [(k, None)])
        | _ => None
        end
      else None
  | SParse i t =>
      match nth_error vs i with
      | Some (k, Some (en, _)) =>
          if isStruct k && negb (sCorner k e t u) then
            match sValue k e (mkst t u) with
            | Ok o s => Some (SvParse true (rest s), used s, setAt vs i (k, Some (en, Some (o, used s))))
            | Fail s => Some (SvParse false (rest s), used s, setAt vs i (k, Some (en, match sLeft k e (mkst t u) with Some o => Some (o, used s) | None => None end)))
            | _ => None
            end
          else None
      | _ => None
      end
  | SRaws t =>
      match parseRawHeaders e (mkst t u) with
      | Ok l s => Some (SvParse true (rest s), used s, vs ++ [(SK WKRaws, Some (0, Some (SO (WRaws l), used s)))])
      | Fail s => Some (SvParse false (rest s), used s, vs ++ [(SK WKRaws, None)])
      | _ => None
      end
  | SEncode i pre =>
      match nth_error vs i with
      | Some (k, Some (en, Some (o, top))) =>
          if ltMem e u && (negb (sExt o) || (u <? 32768)) then
            match sEncoding e u k o pre with
            | Some (t, o', u') => Some (SvText t, u', setAt vs i (k, Some (en, Some (o', if u' =? u then top else u'))))
            | None => None
            end
          else None
      | _ => None
      end
  | SEdit i d =>
      match nth_error vs i with
      | Some (k, Some (en, Some (o, top))) =>
          match (if editReads d && negb (ltMem e u) then None else sEditV d o) with
          | Some p => match p e (mkst [] u) with
                      | Ok o' s => Some (SvEdit true, used s, setAt vs i (k, Some (en, Some (o', if used s =? u then top else used s))))
                      | Fail s => Some (SvEdit false, used s, vs)
                      | _ => None
                      end
          | None => None
          end
      | _ => None
      end
  | SLook i =>
      match nth_error vs i with
      | Some (k, Some (en, Some (o, _))) => match vLook o with Some v => Some (v, u, vs) | None => None end
      | _ => None
      end
  | SAsk i q =>
      match nth_error vs i with
      | Some (SK w, Some (en, Some (SO o, _))) => if ltMem e u && (negb (wExt o) || (u <? 32768)) then match askValue e o q with Some x => Some (SvAnswer x, u, vs) | None => None end else None
      | _ => None
      end
  | SFreeAll => Some (SvFree, 8, map (remains 0) vs)
  | SFreePart n => let u' := freeTo n u in if leMem e u' then Some (SvFree, u', map (remains u') vs) else None
  end.
Fixpoint valSession (e : env) (u : N) (vs : list sval) (ops : list sop) : option (list (sevent * N)) :=
  match ops with
  | [] => Some []
  | o :: ops' => match valStep e u vs o with Some (v, u', vs') => option_map (cons (v, u')) (valSession e u' vs' ops') | None => None end
  end.

(** ** The invariant *)
Definition sRep (k : skind) (m : N -> N) (p : N) (W : N -> Prop) (top : N) (o : sobj) : Prop :=
  match k, o with
  | SK w, SO o => wRep w m p W top o
  | SKHost, SHost h => exists lo hi, 8 <= p /\ p + 6 <= lo /\ hi <= top /\ lo <= hi /\ (forall i, p <= i < p + 6 \/ lo <= i < hi -> W i) /\ repHostPort m p lo hi h
  | _, _ => False
  end.
Lemma sRep_frame k m m' p (W : N -> Prop) top o : (forall i, W i -> m' i = m i) -> sRep k m p W top o -> sRep k m' p W top o.
Proof.
  intros A. unfold sRep. destruct k as [w|], o as [o|h]; auto; [now apply wRep_frame|].
  intros (lo & hi & H1 & H2 & H3 & H4 & H5 & H6). exists lo, hi. do 5 (split; [assumption|]). eapply repHostPort_frame; [| |exact H6]; intros i Hi; apply A, H5; auto.
Qed.
Lemma sRep_top k m p (W W' : N -> Prop) top top' o : top <= top' -> (forall i, W i -> W' i) -> sRep k m p W top o -> sRep k m p W' top' o.
Proof.
  intros L S0. unfold sRep. destruct k as [w|], o as [o|h]; auto; [now apply wRep_top|].
  intros (lo & hi & H1 & H2 & H3 & H4 & H5 & H6). exists lo, hi. split; [assumption|]. split; [assumption|]. split; [lia|]. auto.
Qed.

(** The object [x] of the run on the bytes is the object [v]; its memory is [W]. *)
Definition held (a : arena) (x : skind * option N) (v : sval) (W : N -> Prop) : Prop :=
  fst x = fst v /\
  match snd v with
  | None => forall y, ~ W y
  | Some (en, c) => exists p, snd x = Some p /\ (isStruct (fst v) = true -> 8 <= p /\ en = p + ssize (fst v)) /\ (forall y, p <= y < p + ssize (fst v) -> W y) /\
      match c with
      | None => en <= aused a /\ forall y, W y -> 8 <= y < en
      | Some (o, top) => en <= top /\ top <= aused a /\ (forall y, W y -> 8 <= y < top) /\ sRep (fst v) (mem a) p W top o
      end
  end.
Definition sInv (a : arena) (os : sobjs) (vs : list sval) : Prop :=
  List.length os = List.length vs /\ exists W : nat -> N -> Prop,
    (forall i x v, nth_error os i = Some x -> nth_error vs i = Some v -> held a x v (W i)) /\ (forall i y, (List.length os <= i)%nat -> ~ W i y) /\ (forall i j y, i <> j -> W i y -> W j y -> False).

Lemma held_keeps a a' x v (W W0 : N -> Prop) : keeps W0 a a' -> (forall y, W y -> ~ W0 y) -> held a x v W -> held a' x v W.
Proof.
  intros K D (H1 & H2). num K. split; [exact H1|]. destruct (snd v) as [[en c]|]; [|exact H2]. destruct H2 as (p & P1 & P2 & P3 & P4). exists p. do 3 (split; [assumption|]).
  destruct c as [[o top]|].
  - destruct P4 as (P4 & P5 & P6 & P7). split; [exact P4|]. split; [lia|]. split; [exact P6|]. eapply sRep_frame; [|exact P7]. intros i Hi. destruct K as (_ & _ & _ & K). specialize (P6 i Hi). apply K; [lia|]. now apply D.
  - destruct P4 as (P4 & P5). split; [lia|exact P5].
Qed.
Lemma held_below a x v (W : N -> Prop) y : held a x v W -> W y -> 8 <= y < aused a.
Proof.
  intros (_ & H) Hy. destruct (snd v) as [[en c]|]; [|destruct (H y Hy)]. destruct H as (p & _ & _ & _ & H). destruct c as [[o top]|].
  - destruct H as (_ & H1 & H2 & _). specialize (H2 y Hy). lia.
  - destruct H as (H1 & H2). specialize (H2 y Hy). lia.
Qed.
Lemma inv_below a os vs W : List.length os = List.length vs -> (forall i x v, nth_error os i = Some x -> nth_error vs i = Some v -> held a x v (W i)) -> (forall i y, (List.length os <= i)%nat -> ~ W i y) ->
  forall i y, W i y -> 8 <= y < aused a.
Proof.
  intros L H1 H2 i y Hy. destruct (nth_error os i) as [x|] eqn:Ex; [|apply nth_error_None in Ex; destruct (H2 i y Ex Hy)]. destruct (nth_error vs i) as [v|] eqn:Ev; [|apply nth_error_None in Ev; rewrite <- L in Ev; destruct (H2 i y Ev Hy)].
  exact (held_below _ _ _ _ _ (H1 i x v Ex Ev) Hy).
Qed.
(** A new object. *)
Lemma inv_add a a' os vs k po vo (W0 : N -> Prop) : sInv a os vs -> keeps nowhere a a' -> held a' (k, po) (k, vo) W0 -> (forall y, W0 y -> aused a <= y) -> sInv a' (os ++ [(k, po)]) (vs ++ [(k, vo)]).
Proof.
  intros (L & W & H1 & H2 & H3) K H0 B. split; [rewrite !app_length; cbn; lia|]. exists (fun i => if Nat.eqb i (List.length os) then W0 else W i). pose proof (inv_below a os vs W L H1 H2) as Bl.
  split; [|split].
  - intros i x v Ex Ev. apply nth_snoc in Ex as [(I1 & Ex)|(-> & ->)]; apply nth_snoc in Ev as [(I2 & Ev)|(I2 & ->)]; try lia.
    + replace (Nat.eqb i (List.length os)) with false by (symmetry; apply Nat.eqb_neq; lia). eapply held_keeps; [exact K|intros ? _ []|eauto].
    + rewrite Nat.eqb_refl. exact H0.
  - intros i y Hi. rewrite app_length in Hi. cbn in Hi. replace (Nat.eqb i (List.length os)) with false by (symmetry; apply Nat.eqb_neq; lia). apply H2. lia.
  - intros i j y Hij. destruct (Nat.eqb_spec i (List.length os)) as [Ei|Ei], (Nat.eqb_spec j (List.length os)) as [Ej|Ej]; [congruence| | |].
    + intros Y1 Y2. specialize (B y Y1). specialize (Bl j y Y2). lia.
    + intros Y1 Y2. specialize (B y Y2). specialize (Bl i y Y1). lia.
    + apply (H3 i j y Hij).
Qed.
(** A call on the [i]-th object that touches only its memory and new memory. *)
Lemma inv_upd a os vs W i x v v' : List.length os = List.length vs -> (forall i x v, nth_error os i = Some x -> nth_error vs i = Some v -> held a x v (W i)) -> (forall i y, (List.length os <= i)%nat -> ~ W i y) ->
  (forall i j y, i <> j -> W i y -> W j y -> False) -> nth_error os i = Some x -> nth_error vs i = Some v -> forall a' (W' : N -> Prop), keeps (W i) a a' -> (forall y, W' y -> W i y \/ aused a <= y) -> held a' x v' W' -> sInv a' os (setAt vs i v').
Proof.
  intros L H1 H2 H3 Ex Ev a' W' K S0 H0. split; [rewrite setAt_length; exact L|]. exists (fun j => if Nat.eqb j i then W' else W j). pose proof (inv_below a os vs W L H1 H2) as Bl.
  split; [|split].
  - intros j y w Ey Ew. apply nth_setAt in Ew as [(<- & ->)|(Hij & Ew)].
    + rewrite Nat.eqb_refl. rewrite Ex in Ey. injection Ey as <-. exact H0.
    + replace (Nat.eqb j i) with false by (symmetry; apply Nat.eqb_neq; congruence). eapply held_keeps; [exact K| |eauto]. intros z Y1 Y2. exact (H3 j i z ltac:(congruence) Y1 Y2).
  - intros j y Hj. replace (Nat.eqb j i) with false; [apply H2; exact Hj|]. symmetry. apply Nat.eqb_neq. intros ->. assert (Q : nth_error os i <> None) by congruence. apply nth_error_Some in Q. lia.
  - intros j1 j2 y Hij. destruct (Nat.eqb_spec j1 i) as [E1|E1], (Nat.eqb_spec j2 i) as [E2|E2]; [congruence| | |apply (H3 j1 j2 y Hij)].
    + intros Y1 Y2. destruct (S0 y Y1) as [Y|Y]; [apply (H3 i j2 y ltac:(congruence) Y Y2)|]. specialize (Bl j2 y Y2). lia.
    + intros Y2 Y1. destruct (S0 y Y1) as [Y|Y]; [apply (H3 j1 i y ltac:(congruence) Y2 Y)|]. specialize (Bl j1 y Y2). lia.
Qed.
(** Memory given back. *)
Lemma sRep_ext k m p (W W' : N -> Prop) top o : (forall y, W y <-> W' y) -> sRep k m p W top o -> sRep k m p W' top o.
Proof. intros H. apply sRep_top; [apply N.le_refl|]. intros i. apply H. Qed.
Lemma held_ext a x v (W W' : N -> Prop) : (forall y, W y <-> W' y) -> held a x v W -> held a x v W'.
Proof.
  intros E (H1 & H2). split; [exact H1|]. destruct (snd v) as [[en c]|]; [|intros y Y; apply E in Y; exact (H2 y Y)]. destruct H2 as (p & P1 & P2 & P3 & P4). exists p. split; [exact P1|]. split; [exact P2|]. split; [intros y Y; apply E; auto|].
  destruct c as [[o top]|].
  - destruct P4 as (P4 & P5 & P6 & P7). split; [exact P4|]. split; [exact P5|]. split; [intros y Y; apply E in Y; auto|]. eapply sRep_ext; eauto.
  - destruct P4 as (P4 & P5). split; [exact P4|]. intros y Y. apply E in Y. auto.
Qed.
Lemma nth_remains u vs i v : nth_error (map (remains u) vs) i = Some v -> exists v0, nth_error vs i = Some v0 /\ v = remains u v0.
Proof. rewrite nth_error_map. destruct (nth_error vs i) as [v0|]; [|discriminate]. cbn. intros E. injection E as <-. eauto. Qed.
Lemma held_free u x v (W : N -> Prop) a a' : held a x v W -> mem a' = mem a -> u <= aused a' ->
  held a' x (remains u v) (fun y => W y /\ match v with (k, Some (en, c)) => en <= u /\ match c with Some (_, top) => top <= u \/ y < en | None => True end /\ (match c with Some (_, top) => top <= u | None => False end \/ exists p, snd x = Some p /\ p <= y < p + ssize k) | _ => False end).
Proof.
  intros (H1 & H2) Em Lu. destruct v as [k [[en c]|]]; cbn [remains fst snd] in *.
  - destruct H2 as (p & P1 & P2 & P3 & P4). destruct (N.leb_spec en u) as [L|L].
    + split; [exact H1|]. cbn [snd fst]. exists p. split; [exact P1|]. split; [exact P2|]. destruct c as [[o top]|].
      * destruct P4 as (P4 & P5 & P6 & P7). destruct (N.leb_spec top u) as [T|T].
        -- split; [intros y Hy; split; [now apply P3|]; auto|]. split; [exact P4|]. split; [lia|]. split; [intros y (Y & _); auto|]. rewrite Em. eapply sRep_top; [apply N.le_refl| |exact P7]. auto 7.
        -- split; [intros y Hy; split; [now apply P3|]; split; [exact L|]; split; [|right; eauto]; right|].
           ++ destruct (isStruct k) eqn:Sk; [destruct (P2 eq_refl); lia|]. destruct k as [[| |]|]; try discriminate. cbn [ssize] in Hy. lia.
           ++ split; [lia|]. intros y (Y & _ & [Z|Z] & _); [lia|]. specialize (P6 y Y). lia.
      * destruct P4 as (P4 & P5). split; [intros y Hy; split; [now apply P3|]; split; [exact L|]; split; [exact Logic.I|]; right; eauto|]. split; [lia|]. intros y (Y & _). auto.
    + split; [exact H1|]. cbn. intros y (_ & Y & _). lia.
  - split; [exact H1|]. cbn. intros y (_ & []).
Qed.
Lemma inv_free a a' os vs u : sInv a os vs -> mem a' = mem a -> u <= aused a' -> sInv a' os (map (remains u) vs).
Proof.
  intros (L & W & H1 & H2 & H3) Em Lu. split; [rewrite map_length; exact L|].
  exists (fun i y => exists x v, nth_error os i = Some x /\ nth_error vs i = Some v /\ W i y /\ match v with (k, Some (en, c)) => en <= u /\ match c with Some (_, top) => top <= u \/ y < en | None => True end /\ (match c with Some (_, top) => top <= u | None => False end \/ exists p, snd x = Some p /\ p <= y < p + ssize k) | _ => False end).
  split; [|split].
  - intros i x v Ex Ev. apply nth_remains in Ev as (v0 & Ev & ->). pose proof (held_free u x v0 (W i) a a' (H1 i x v0 Ex Ev) Em Lu) as H0. revert H0. apply held_ext. intros y. split.
    + intros (Y1 & Y2). exists x, v0. auto.
    + intros (x' & v' & X & V & Y1 & Y2). rewrite Ex in X. injection X as <-. rewrite Ev in V. injection V as <-. auto.
  - intros i y Hi (x & v & Ex & _). apply nth_error_None in Hi. congruence.
  - intros i j y Hij (_ & _ & _ & _ & Y1 & _) (_ & _ & _ & _ & Y2 & _). exact (H3 i j y Hij Y1 Y2).
Qed.

(** ** The calls *)
Lemma sParse_sim k e a t p : wfA e a -> netLen e -> isStruct k = true -> 8 <= p -> p + ssize k <= aused a -> sCorner k e t (aused a) = false ->
  sim e (inR p (ssize k)) (sParse k p) (sValue k) (fun a' _ o => sRep k (mem a') p (fun y => inR p (ssize k) y \/ span (aused a) (aused a') y) (aused a') o) a t.
Proof.
  intros Hw Hn Hs H8 Hl Hc. num Hw. destruct k as [[k| |]|]; try discriminate; cbn [sParse sValue ssize sCorner] in *.
  - eapply sim_mapR; [apply objParse_sim; auto|]. cbv beta. intros a' x o K HR. num K. cbn [sRep wRep]. exists (aused a), (aused a'). split; [exact H8|]. split; [exact Hl|]. split; [apply N.le_refl|]. split; [assumption|]. split; [unfold inR, span; lia|exact HR].
  - eapply (sim_mapR e (inR p 68) _ _ (fun x => SO (WMsg x)) (fun a' _ x => repMsg (mem a') p (aused a) (aused a') x /\ exists s, parseMsg e (mkst t (aused a)) = Ok x s)); [apply sim_fact, sim_msg; auto|].
    intros a' x v K (HR & s & Es). num K. cbn [sRep wRep]. exists (aused a), (aused a'), None. split; [exact H8|]. split; [exact Hl|]. split; [apply N.le_refl|]. split; [exact Logic.I|]. split; [unfold own, span, inR; lia|]. split; [eapply parsed_boundary; exact Es|apply repMsg_C; exact HR].
  - eapply (sim_mapR e (inR p 6) _ _ SHost (fun a' _ h => repHostPort (mem a') p (aused a) (aused a') h)).
    + unfold mHostPortParse. apply sim_init; [exact Hw|slia|]. intros a1 Hw1 K1 U1 V1. num K1. rewrite <- U1. eapply sim_sub; [apply sim_hostPort; auto; [lia|apply V1; slia]|slia].
    + intros a' x h K HR. num K. cbn [sRep]. exists (aused a), (aused a'). split; [exact H8|]. split; [exact Hl|]. split; [apply N.le_refl|]. split; [assumption|]. split; [unfold inR, span; lia|exact HR].
Qed.
Lemma sParse_left k e a t p s o : wfA e a -> netLen e -> isStruct k = true -> 8 <= p -> p + ssize k <= aused a -> sCorner k e t (aused a) = false -> sValue k e (mkst t (aused a)) = Fail s -> sLeft k e (mkst t (aused a)) = Some o ->
  exists a', sParse k p e a t = MFail a' (rest s) /\ aused a' = used s /\ keeps (inR p (ssize k)) a a' /\ sRep k (mem a') p (fun y => inR p (ssize k) y \/ span (aused a) (aused a') y) (aused a') o.
Proof.
  intros Hw Hn Hs H8 Hl Hc Es Eo. num Hw.
  assert (G : forall A (m : M unit) (q : P A) Q (F : arena -> Prop), simF e (inR p (ssize k)) m q Q F a t -> q e (mkst t (aused a)) = Fail s ->
    (forall a', keeps (inR p (ssize k)) a a' -> F a' -> sRep k (mem a') p (fun y => inR p (ssize k) y \/ span (aused a) (aused a') y) (aused a') o) ->
    exists a', m e a t = MFail a' (rest s) /\ aused a' = used s /\ keeps (inR p (ssize k)) a a' /\ sRep k (mem a') p (fun y => inR p (ssize k) y \/ span (aused a) (aused a') y) (aused a') o).
  { intros A m q Q F S0 Eq HF. unfold simF in S0. rewrite Eq in S0. destruct S0 as (a' & R & U & K & H). exists a'. auto. }
  assert (Fs : forall A (q : P A) (f : A -> sobj), (x <- q ;; ret (f x)) e (mkst t (aused a)) = Fail s -> q e (mkst t (aused a)) = Fail s).
  { intros A q f E. unfold bind in E. destruct (q e (mkst t (aused a))); try discriminate. injection E as ->. reflexivity. }
  destruct k as [[k| |]|]; try discriminate; cbn [sParse sValue ssize sCorner sLeft] in *; apply Fs in Es.
  - assert (R : forall a' x, keeps (inR p (objSize k)) a a' -> objRep k (mem a') p (aused a) (aused a') x -> sRep (SK (WKObj k)) (mem a') p (fun y => inR p (objSize k) y \/ span (aused a) (aused a') y) (aused a') (SO (WObj x))).
    { intros a' x K HR. num K. cbn [sRep wRep]. exists (aused a), (aused a'). split; [exact H8|]. split; [exact Hl|]. split; [apply N.le_refl|]. split; [assumption|]. split; [unfold inR, span; lia|exact HR]. }
    assert (Fo : forall A (q : P A) (f : A -> obj), (x <- q ;; ret (f x)) e (mkst t (aused a)) = Fail s -> q e (mkst t (aused a)) = Fail s).
    { intros A q f E. unfold bind in E. destruct (q e (mkst t (aused a))); try discriminate. injection E as ->. reflexivity. }
    destruct k; try discriminate; injection Eo as <-; cbn [objParse objValue objSize] in *; apply Fo in Es.
    + eapply (G _ _ _ (fun _ _ _ => True) (fun a' => repSipUri (mem a') p (aused a) (aused a') (leftUri e (mkst t (aused a))))); [|exact Es|intros a' K HF; apply R; [exact K|exact HF]].
      apply simF_init; [exact Hw|slia|]. intros a1 Hw1 K1 U1 V1. num K1. rewrite <- U1. eapply (simF_conseq e (inR p 18)); [apply left_sipUri; auto; lia|slia|auto|auto].
    + eapply (G _ _ _ (fun _ _ _ => True) (fun a' => repTelUri (mem a') p (aused a) (aused a') (leftTelUri e (mkst t (aused a))))); [|exact Es|intros a' K HF; apply R; [exact K|exact HF]].
      apply simF_init; [exact Hw|slia|]. intros a1 Hw1 K1 U1 V1. num K1. rewrite <- U1. eapply (simF_conseq e (inR p 10)); [apply left_telUri; auto; lia|slia|auto|auto].
    + eapply (G _ _ _ (fun _ _ _ => True) (fun a' => MemLine.repLine (mem a') p (aused a) (aused a') (leftLine e (mkst t (aused a))))); [|exact Es|intros a' K HF; apply R; [exact K|exact HF]].
      apply simF_init; [exact Hw|slia|]. intros a1 Hw1 K1 U1 V1. num K1. rewrite <- U1. eapply (simF_conseq e (inR p 20)); [apply left_startLine; auto; lia|slia|auto|auto].
  - injection Eo as <-. eapply G; [apply (left_msg e p a t Hn Hw H8 Hl Hc)|exact Es|]. intros a' K HR. num K. cbn [sRep wRep].
    exists (aused a), (aused a'), None. split; [exact H8|]. split; [exact Hl|]. split; [apply N.le_refl|]. split; [exact Logic.I|]. split; [unfold own, span, inR; lia|]. split; [apply left_boundary|exact HR].
  - injection Eo as <-. eapply (G _ _ _ (fun _ _ _ => True) (fun a' => repHostPort (mem a') p (aused a) (aused a') (leftHostPort e (mkst t (aused a))))); [|exact Es|].
    + unfold mHostPortParse. apply simF_init; [exact Hw|slia|]. intros a1 Hw1 K1 U1 V1. num K1. rewrite <- U1. eapply simF_conseq; [apply left_hostPort; auto; [lia|apply V1; slia|apply V1; slia]|slia|auto|auto].
    + intros a' K HR. num K. cbn [sRep]. exists (aused a), (aused a'). split; [exact H8|]. split; [exact Hl|]. split; [apply N.le_refl|]. split; [assumption|]. split; [unfold inR, span; lia|exact HR].
Qed.
Lemma sEncode_step k e a p (W : N -> Prop) top o pre : wfA e a -> aused a < cap a -> (sExt o = true -> aused a < 32768) -> top <= aused a -> sRep k (mem a) p W top o ->
  match sEncoding e (aused a) k o pre with
  | Some (t, o', u') => exists a', match t with Some t => sEncode k p e a pre = EOk tt a' t | None => exists b', sEncode k p e a pre = EFail a' b' end /\ aused a' = u' /\ keeps W a a' /\
      sRep k (mem a') p (fun i => W i \/ span (aused a) u' i) (if u' =? aused a then top else u') o'
  | None => True
  end.
Proof.
  intros Hw Hc H15 Ht HR. num Hw. destruct k as [w|], o as [o|h]; try contradiction; cbn [sEncoding sEncode sExt sRep] in *.
  - pose proof (wEncode_step w e a p W top o pre Hw Hc H15 Ht HR) as S0. destruct (wEncoding e (aused a) w o pre) as [[[t o'] u']|]; [|exact Logic.I]. exact S0.
  - destruct HR as (lo & hi & H1 & H2 & H3 & H4 & H5 & H6). exists a. split; [apply ePut_ok; eapply (enc_hostPort e a hi); [exact Hw|lia|lia| |exact H6]; lia|]. split; [reflexivity|]. split; [eapply keeps_refl; exact Hw|].
    rewrite N.eqb_refl. exists lo, hi. do 4 (split; [assumption|]). split; [auto|exact H6].
Qed.
(** The setters. *)
Lemma repPort_carry m m' p (pt : option N) : m' (p + 1) = m (p + 1) -> g16 m' (p + 2) = g16 m (p + 2) ->
  match pt with None => m (p + 1) = 0 | Some n => m (p + 1) = 1 /\ g16 m (p + 2) = n end -> match pt with None => m' (p + 1) = 0 | Some n => m' (p + 1) = 1 /\ g16 m' (p + 2) = n end.
Proof. intros -> ->. auto. Qed.
Lemma sim_setData e p id n ip (h : host) (pt : option N) a : wfA e a -> 8 <= p -> p + 6 <= aused a -> 0 < n -> n < 1000 -> n <= len ip ->
  match pt with None => mem a (p + 1) = 0 | Some n => mem a (p + 1) = 1 /\ g16 (mem a) (p + 2) = n end ->
  (forall m hi, m p = id -> g16 m (p + 4) = aused a -> aused a + n <= hi -> readBytes m (aused a) (N.to_nat n) = firstn (N.to_nat n) ip -> repHost m p (aused a) hi h) ->
  sim e (inR p 6) (q <~ mAlloc n ;; mCopy q n ip ;~ set8 p id ;~ set16 (p + 4) q) (allocStruct n ;;; ret (SHost (mkhp h pt)))
    (fun a' _ o => exists h', o = SHost h' /\ repHostPort (mem a') p (aused a) (aused a') h') a [].
Proof.
  intros Hw H8 Hl Hn Hn' Hlen Hpt Hrep. num Hw. pose proof (eq_refl (mem a (p + 1))) as Q1. pose proof (eq_refl (g16 (mem a) (p + 2))) as Q2.
  set (v1 := mem a (p + 1)) in Q1 at 2. set (v2 := g16 (mem a) (p + 2)) in Q2 at 2.
  eapply (sim_bind e _ nowhere); [apply sim_alloc; [exact Hw|exact Hn|exact Hn']|exact Hw|slia|].
  intros q [] a1 r1 Hw1 K1 (-> & U1). carry K1.
  apply sim_copy; [exact Hw1|lia|lia|exact Hn|lia|slia|]. step_in a2.
  apply sim_set8; [exact Hw0|slia|]. intros a3 Hw3 K3 U3 V3. carry K3. apply sim_eta.
  apply sim_set16; [exact Hw3|unfold two16; lia|slia|]. intros a4 Hw4 K4 U4 V4. carry K4.
  apply sim_ret; [exact Hw4|]. eexists. split; [reflexivity|]. split; cbn [hpHost hpPort].
  - apply Hrep; auto. lia.
  - eapply repPort_carry; [| |exact Hpt]; [rewrite Q1; reflexivity|rewrite Q2; reflexivity].
Qed.
Lemma sim_setName e p b (pt : option N) a : wfA e a -> 8 <= p -> p + 6 <= aused a ->
  match pt with None => mem a (p + 1) = 0 | Some n => mem a (p + 1) = 1 /\ g16 (mem a) (p + 2) = n end ->
  sim e (inR p 6) (mSetHostname p b) (allocCString b ;;; ret (SHost (mkhp (HName b) pt))) (fun a' _ o => exists h', o = SHost h' /\ repHostPort (mem a') p (aused a) (aused a') h') a [].
Proof.
  intros Hw H8 Hl Hpt. num Hw. pose proof (eq_refl (mem a (p + 1))) as Q1. pose proof (eq_refl (g16 (mem a) (p + 2))) as Q2.
  set (v1 := mem a (p + 1)) in Q1 at 2. set (v2 := g16 (mem a) (p + 2)) in Q2 at 2.
  eapply (sim_bindE e _ nowhere); [apply sim_cstring; exact Hw|exact Hw|slia|].
  intros q b' a1 r1 E1 Hw1 K1 (Hs & Hq & Hq1 & Hu). assert (b' = b) as ->. { unfold allocCString in E1. destruct (leMem e _); [|discriminate]. now injection E1. }
  num Hw1. carry K1.
  apply sim_set8; [exact Hw1|slia|]. step_in a3. apply sim_eta.
  apply sim_set16; [exact Hw0|unfold two16; lia|slia|]. intros a4 Hw4 K4 U4 V4. carry K4.
  apply sim_ret; [exact Hw4|]. eexists. split; [reflexivity|]. split; cbn [hpHost hpPort].
  - cbn [repHost]. split; [exact V|]. rewrite V4. eapply str_mono; [exact Hs|lia|lia].
  - eapply repPort_carry; [| |exact Hpt]; [rewrite Q1; reflexivity|rewrite Q2; reflexivity].
Qed.
Definition editOk (e : env) (a : arena) (k : skind) (p : N) (W : N -> Prop) (top : N) (m : M unit) (q : P sobj) : Prop :=
  match q e (mkst [] (aused a)) with
  | Ok o' s => exists a' r, m e a [] = MOk tt a' r /\ aused a' = used s /\ keeps W a a' /\ sRep k (mem a') p (fun i => W i \/ span (aused a) (used s) i) (if used s =? aused a then top else used s) o'
  | Fail s => exists a' r, m e a [] = MFail a' r /\ aused a' = used s /\ keeps nowhere a a'
  | _ => True
  end.
Lemma editOk_alloc {X A} e a p (W : N -> Prop) top (m0 : M X) (m : X -> M unit) (p0 : P A) (h : hostport) Q0 : wfA e a -> 8 <= p -> p + 6 <= aused a -> (forall i, p <= i < p + 6 -> W i) ->
  sim e nowhere m0 p0 Q0 a [] -> (forall v s, p0 e (mkst [] (aused a)) = Ok v s -> aused a < used s) ->
  sim e (inR p 6) (mbind m0 m) (p0 ;;; ret (SHost h)) (fun a' _ o => exists h', o = SHost h' /\ repHostPort (mem a') p (aused a) (aused a') h') a [] ->
  editOk e a SKHost p W top (mbind m0 m) (p0 ;;; ret (SHost h)).
Proof.
  intros Hw H8 Hl HW S0 G S1. unfold editOk. unfold sim in S0, S1. unfold bind, ret in *. destruct (p0 e (mkst [] (aused a))) as [v s|s| |]; auto.
  - destruct S1 as ([] & a' & R & U & K & (h' & E & HR)). injection E as <-. num K. specialize (G v s eq_refl). exists a', (rest s). split; [exact R|]. split; [exact U|]. split; [eapply keeps_sub; [exact K|intros i _ Hi; apply HW; exact Hi]|].
    replace (used s =? aused a) with false by lia. cbn [sRep]. exists (aused a), (aused a'). split; [exact H8|]. split; [exact Hl|]. split; [lia|]. split; [lia|]. split; [|exact HR]. intros i [Hi|Hi]; [left; auto|right; unfold span; lia].
  - destruct S0 as (a' & R & U & K). exists a', (rest s). split; [|auto]. unfold mbind. rewrite R. reflexivity.
Qed.
Lemma setPort_rep m p lo hi h n : p + 6 <= lo -> n < two16 -> repHostPort m p lo hi h -> repHostPort (p16 (upd m (p + 1) 1) (p + 2) n) p lo hi (mkhp (hpHost h) (Some n)).
Proof.
  intros L Ln (R1 & R2). set (m1 := upd m (p + 1) 1). assert (Ag : forall i, ~ (p + 1 <= i < p + 4) -> p16 m1 (p + 2) n i = m i).
  { intros i Hi. rewrite p16_other by (unfold inR; lia). apply upd_other. lia. }
  split; cbn [hpHost hpPort].
  - assert (Gd : g16 (p16 m1 (p + 2) n) (p + 4) = g16 m (p + 4)) by (apply (g16_frame m); [intros i Hi; apply Ag; lia|reflexivity]). revert R1. unfold repHost. rewrite Gd, (Ag p) by lia.
    assert (Al : agreeR m (p16 m1 (p + 2) n) lo hi) by (intros i Hi; apply Ag; lia). destruct (hpHost h) as [|x y z w|ip|s]; auto.
    + intros (X1 & X2 & X3 & X4). repeat split; auto. eapply readBytes_frame; [|exact X4]. eapply agreeR_sub; [exact Al|lia|lia].
    + intros (X1 & X2 & X3 & X4). repeat split; auto. eapply readBytes_frame; [|exact X4]. eapply agreeR_sub; [exact Al|lia|lia].
    + intros (X1 & X2). split; auto. eapply str_frame; eauto.
  - split; [rewrite p16_other by (unfold inR; lia); apply upd_same|]. apply g16_p16; exact Ln.
Qed.
Lemma sEdit_step k e a d p (W : N -> Prop) top o q : wfA e a -> top <= aused a -> (editReads d = true -> aused a < cap a) -> sRep k (mem a) p W top o -> sEditV d o = Some q -> exists m, sEdit k d p = Some m /\ editOk e a k p W top m q.
Proof.
  intros Hw Ht Hrd HR Hq. num Hw. destruct k as [w|], o as [o|h]; try contradiction; cbn [sRep] in HR.
  - destruct w as [k| |], o as [o|l|x]; try contradiction; cbn [sEditV] in Hq; try discriminate.
    2: { destruct d; try discriminate. injection Hq as <-. destruct HR as (lo & hi & c & H1 & H2 & H3 & H4 & H5 & H6 & H7).
         destruct (remove_msg e a p lo hi c x Hw H1 H2 ltac:(lia) (Hrd eq_refl)) as (a' & R & U & K & HR'); [eapply placed_sub; [| | |exact H4]; lia|exact H7|]. cbn [sEdit]. eexists. split; [reflexivity|]. unfold editOk, ret. cbn [used]. exists a', [].
         split; [exact R|]. split; [exact U|]. split; [eapply keeps_sub; [exact K|intros i _; apply H5]|]. rewrite N.eqb_refl. cbn [sRep wRep]. exists lo, hi, c. do 4 (split; [assumption|]). split; [auto|]. split; [|exact HR'].
         unfold hasBoundary, hasMulti, removeContent, contentTypeOf in *. cbn [mBodies mHdrs hsCommon]. rewrite nth_setNth_other by discriminate. exact H6. }
    pose proof HR as (lo & hi & H1 & H2 & H3 & H4 & H5 & H6). destruct o as [u| | | |]; try discriminate. destruct k; cbn [objRep] in H6; try contradiction.
    destruct d as [n| | | |b|]; try discriminate.
    { destruct (N.ltb_spec n two16) as [Ln|Ln]; [|discriminate]. injection Hq as <-. cbn [sEdit]. eexists. split; [reflexivity|]. unfold editOk, ret. cbn [used objSize] in *. set (m1 := upd (mem a) (p + 6 + 1) 1).
      exists (setMem a (p16 m1 (p + 6 + 2) n)), []. split; [reflexivity|]. split; [reflexivity|]. assert (Ag : forall i, ~ (p + 7 <= i < p + 10) -> p16 m1 (p + 6 + 2) n i = mem a i).
      { intros i Hi. rewrite p16_other by (unfold inR; lia). apply upd_other. lia. }
      split; [repeat split; cbn; auto; try lia; intros i _ Hi; apply Ag; intros X; apply Hi, H5; lia|]. rewrite N.eqb_refl. cbn [sRep wRep]. exists lo, hi. do 4 (split; [assumption|]). split; [auto|]. cbn [objRep mem setMem].
      destruct H6 as (R0 & R1 & R2 & R3 & R4 & R5 & R6). assert (A2 : agreeR (mem a) (p16 m1 (p + 6 + 2) n) lo hi) by (intros i Hi; apply Ag; lia).
      assert (G : forall j, j <= 5 \/ 10 <= j -> g16 (p16 m1 (p + 6 + 2) n) (p + j) = g16 (mem a) (p + j)) by (intros j Hj; apply (g16_frame (mem a)); [intros i Hi; apply Ag; lia|reflexivity]).
      cbn [repSipUri uSecure uUser uPass uHost uKnown uParams uHeaders]. split; [rewrite (Ag p) by lia; exact R0|]. rewrite !G by lia.
      split; [eapply ostr_frame; eauto|]. split; [eapply ostr_frame; eauto|]. split; [apply setPort_rep; [lia|exact Ln|exact R3]|].
      split; [eapply repUParams_frame; eauto|]. split; [eapply repUParams_frame; eauto|]. eapply repTable_frame; [exact repUParam_agree|exact A2|exact R6]. }
    injection Hq as <-. cbn [sEdit]. eexists. split; [reflexivity|]. unfold editOk, ret. cbn [used]. exists (setMem a (upd (mem a) p (if b then 1 else 0))), []. cbn [objSize] in *.
    split; [reflexivity|]. split; [reflexivity|]. split.
    + repeat split; cbn; auto; try lia. intros i _ Hi. apply upd_other. intros ->. apply Hi, H5. lia.
    + rewrite N.eqb_refl. cbn [sRep wRep]. exists lo, hi. do 4 (split; [assumption|]). split; [auto|]. cbn [objRep mem setMem]. destruct H6 as (_ & R1).
      assert (A1 : agreeR (mem a) (upd (mem a) p (if b then 1 else 0)) (p + 2) (p + 18)) by (intros i Hi; apply upd_other; lia).
      assert (A2 : agreeR (mem a) (upd (mem a) p (if b then 1 else 0)) lo hi) by (intros i Hi; apply upd_other; cbn [objSize] in *; lia).
      assert (G : forall n, 2 <= n <= 16 -> g16 (upd (mem a) p (if b then 1 else 0)) (p + n) = g16 (mem a) (p + n)). { intros n Hn. apply (g16_frame (mem a)); [|reflexivity]. eapply agreeR_sub; [exact A1|lia|lia]. }
      destruct R1 as (R1 & R2 & R3 & R4 & R5 & R6). cbn [repSipUri uSecure uUser uPass uHost uKnown uParams uHeaders]. split; [apply upd_same|]. rewrite !G by lia.
      split; [eapply ostr_frame; eauto|]. split; [eapply ostr_frame; eauto|]. split; [eapply repHostPort_frame; [|exact A2|exact R3]; eapply agreeR_sub; [exact A1|lia|lia]|].
      split; [eapply repUParams_frame; eauto|]. split; [eapply repUParams_frame; eauto|]. eapply repTable_frame; [exact repUParam_agree|exact A2|exact R6].
  - pose proof HR as (lo & hi & H1 & H2 & H3 & H4 & H5 & H6). pose proof H6 as (R1 & R2). assert (HW : forall i, p <= i < p + 6 -> W i) by (intros i Hi; apply H5; auto). destruct d as [n|ip|ip|b|b|]; cbn [sEditV] in Hq; try discriminate; cbn [sEdit]; (eexists; split; [reflexivity|]).
    + destruct (N.ltb_spec n two16) as [Ln|Ln]; [|discriminate]. injection Hq as <-. unfold editOk, ret. cbn [used]. set (m1 := upd (mem a) (p + 1) 1).
      exists (setMem a (p16 m1 (p + 2) n)), []. split; [reflexivity|]. split; [reflexivity|]. assert (Ag : forall i, ~ (p + 1 <= i < p + 4) -> p16 m1 (p + 2) n i = mem a i).
      { intros i Hi. rewrite p16_other by (unfold inR; lia). apply upd_other. lia. }
      split; [repeat split; cbn; auto; try lia; intros i _ Hi; apply Ag; intros X; apply Hi, HW; lia|]. rewrite N.eqb_refl. cbn [sRep]. exists lo, hi. do 4 (split; [assumption|]). split; [auto|]. cbn [mem setMem]. apply setPort_rep; [lia|exact Ln|exact H6].
    + destruct ip as [|x [|y [|z [|w ip]]]]; try discriminate. injection Hq as <-. unfold mSetIpv4. eapply editOk_alloc; [exact Hw|exact H1|lia|exact HW|apply sim_alloc; [exact Hw|lia|lia]| |].
      * intros v s E. unfold allocStruct in E. destruct (leMem e _); [|discriminate]. injection E as _ <-. cbn. lia.
      * eapply (sim_setData e p 1 4); [exact Hw|exact H1|lia|lia|lia|unfold len; cbn; lia|exact R2|]. intros m' hi' X1 X2 X3 X4. cbn [repHost]. rewrite X2. split; [exact X1|]. split; [lia|]. split; [lia|exact X4].
    + destruct (N.leb_spec 16 (len ip)) as [Li|Li]; [|discriminate]. injection Hq as <-. unfold mSetIpv6. eapply editOk_alloc; [exact Hw|exact H1|lia|exact HW|apply sim_alloc; [exact Hw|lia|lia]| |].
      * intros v s E. unfold allocStruct in E. destruct (leMem e _); [|discriminate]. injection E as _ <-. cbn. lia.
      * eapply (sim_setData e p 2 16); [exact Hw|exact H1|lia|lia|lia|exact Li|exact R2|]. intros m' hi' X1 X2 X3 X4. cbn [repHost]. rewrite X2. split; [exact X1|]. split; [lia|]. split; [lia|exact X4].
    + injection Hq as <-. unfold mSetHostname. eapply editOk_alloc; [exact Hw|exact H1|lia|exact HW|apply sim_cstring; exact Hw| |].
      * intros v s E. unfold allocCString in E. destruct (leMem e _); [|discriminate]. injection E as _ <-. cbn. unfold len. lia.
      * apply sim_setName; [exact Hw|exact H1|lia|exact R2].
Qed.
Lemma look_same k (m : N -> N) p (W : N -> Prop) top o v : sRep k m p W top o -> vLook o = Some v -> mLook k p m = Some v.
Proof.
  intros HR Hv. destruct k as [w|], o as [o|h]; try contradiction; cbn [sRep] in HR.
  - destruct w as [k| |], o as [o|l|x]; try contradiction; cbn [vLook] in Hv; try discriminate. destruct HR as (lo & hi & _ & _ & _ & _ & _ & H6). destruct o as [u| | | |]; try discriminate. destruct k; cbn [objRep] in H6; try contradiction.
    destruct H6 as (H6 & _). cbn [mLook]. rewrite H6, <- Hv. destruct (uSecure u); reflexivity.
  - destruct HR as (lo & hi & _ & _ & _ & _ & _ & (R1 & R2)). cbn [vLook] in Hv. injection Hv as <-. cbn [mLook]. unfold repHost in R1. f_equal.
    assert (E1 : (if negb (m (p + 1) =? 0) then Some (g16 m (p + 2)) else None) = hpPort h) by (destruct (hpPort h) as [n|]; [destruct R2 as (-> & ->)|rewrite R2]; reflexivity). rewrite E1.
    destruct (hpHost h) as [|x y z w|ip|s]; [rewrite R1|destruct R1 as (-> & _)|destruct R1 as (-> & _)|destruct R1 as (-> & _)]; reflexivity.
Qed.
Lemma ssize_range k : isStruct k = true -> 0 < ssize k /\ ssize k < 1000.
Proof. destruct k as [[k| |]|]; try discriminate; intros _; cbn [ssize]; [apply objSize_range|lia|lia]. Qed.

(** One call. *)
Lemma step e a os vs o v u' vs' : netLen e -> wfA e a -> sInv a os vs -> valStep e (aused a) vs o = Some (v, u', vs') -> exists a' os', memStep e a os o = Some (v, a', os') /\ aused a' = u' /\ wfA e a' /\ sInv a' os' vs'.
Proof.
  intros Hn Hw HI H. num Hw. pose proof HI as (L & W & H1 & H2 & H3).
  assert (Look : forall i k c, nth_error vs i = Some (k, Some c) -> exists p, nth_error os i = Some (k, Some p) /\ held a (k, Some p) (k, Some c) (W i)).
  { intros i k c Ei. destruct (nth_error os i) as [[k' po]|] eqn:Eo; [|apply nth_error_None in Eo; assert (Q : nth_error vs i <> None) by congruence; apply nth_error_Some in Q; lia].
    pose proof (H1 i _ _ Eo Ei) as HH. pose proof HH as (Ek & Hh). cbn [fst snd] in *. subst k'. destruct c as [en c]. destruct Hh as (p & -> & _). eauto. }
  destruct o as [k|i t|t|i pre|i d|i|i q| |n]; cbn [valStep memStep] in *.
  - destruct (isStruct k) eqn:Sk; [|discriminate]. destruct (ssize_range k Sk) as (Z1 & Z2). pose proof (sim_new e (ssize k) a [] Hw Z1 Z2) as S0. unfold sim in S0. destruct (allocStruct (ssize k) e (mkst [] (aused a))) as [[] s|s| |]; try discriminate; injection H as <- <- <-.
    + destruct S0 as (p & a1 & -> & U & K & (-> & U1 & Zr)). pose proof (keeps_wf _ _ _ _ Hw K) as Hw1. num K. exists a1, (os ++ [(k, Some (aused a))]). split; [reflexivity|]. split; [exact U|]. split; [exact Hw1|].
      eapply (inv_add a a1 os vs k (Some (aused a)) _ (inR (aused a) (ssize k))); [exact HI|exact K| |unfold inR; lia]. split; [reflexivity|]. cbn [fst snd]. exists (aused a). split; [reflexivity|]. split; [intros _; lia|]. split; [unfold inR; auto|].
      destruct (sFresh k) as [o0|] eqn:Ef; [|split; [lia|unfold inR; lia]]. split; [lia|]. split; [lia|]. split; [unfold inR; lia|]. destruct k as [w|]; [discriminate|]. injection Ef as <-. cbn [sRep ssize] in *. exists (aused a1), (aused a1).
      split; [lia|]. split; [lia|]. split; [lia|]. split; [lia|]. split; [unfold inR; lia|]. split; cbn [hpHost hpPort repHost]; apply Zr; unfold inR; lia.
    + destruct S0 as (a1 & -> & U & K). pose proof (keeps_wf _ _ _ _ Hw K) as Hw1. exists a1, (os ++ [(k, None)]). split; [reflexivity|]. split; [exact U|]. split; [exact Hw1|].
      eapply (inv_add a a1 os vs k None None (fun _ => False)); [exact HI|exact K|split; [reflexivity|]; cbn; auto|intros y []].
  - destruct (nth_error vs i) as [[k [[en c]|]]|] eqn:Ei; try discriminate. destruct (Look i k _ Ei) as (p & Eo & Hh). rewrite Eo. destruct (isStruct k) eqn:Sk; cbn [andb] in H; [|discriminate]. destruct (sCorner k e t (aused a)) eqn:Ec; cbn [negb] in H; [discriminate|].
    pose proof Hh as (_ & (p' & Ep & P2 & P3 & P4)). cbn [fst snd] in *. injection Ep as <-. destruct (P2 Sk) as (Q1 & Q2). assert (Q3 : en <= aused a) by (destruct c as [[o0 top]|]; lia).
    pose proof (sParse_sim k e a t p Hw Hn Sk Q1 ltac:(lia) Ec) as S0. unfold sim in S0. destruct (sValue k e (mkst t (aused a))) as [o s|s| |] eqn:Ev; try discriminate; injection H as <- <- <-.
    + destruct S0 as ([] & a1 & -> & U & K & HR). pose proof (keeps_wf _ _ _ _ Hw K) as Hw1. num K. exists a1, os. split; [reflexivity|]. split; [exact U|]. split; [exact Hw1|].
      eapply (inv_upd a os vs W i); [exact L|exact H1|exact H2|exact H3|exact Eo|exact Ei| | |]; [eapply keeps_sub; [exact K|intros y _ Hy; apply P3; exact Hy]| |].
      * instantiate (1 := fun y => inR p (ssize k) y \/ span (aused a) (aused a1) y). intros y [Y|Y]; [left; apply P3; exact Y|right; unfold span in Y; lia].
      * split; [reflexivity|]. cbn [fst snd]. exists p. split; [reflexivity|]. split; [auto|]. split; [intros y Hy; left; exact Hy|]. rewrite <- U. split; [lia|]. split; [lia|]. split; [intros y [Y|Y]; unfold inR, span in Y; lia|exact HR].
    + destruct (sLeft k e (mkst t (aused a))) as [o|] eqn:El.
      { destruct (sParse_left k e a t p s o Hw Hn Sk Q1 ltac:(lia) Ec Ev El) as (a1 & -> & U & K & HR). pose proof (keeps_wf _ _ _ _ Hw K) as Hw1. num K. exists a1, os. split; [reflexivity|]. split; [exact U|]. split; [exact Hw1|].
        eapply (inv_upd a os vs W i); [exact L|exact H1|exact H2|exact H3|exact Eo|exact Ei| | |]; [eapply keeps_sub; [exact K|intros y _ Hy; apply P3; exact Hy]| |].
        * instantiate (1 := fun y => inR p (ssize k) y \/ span (aused a) (aused a1) y). intros y [Y|Y]; [left; apply P3; exact Y|right; unfold span in Y; lia].
        * split; [reflexivity|]. cbn [fst snd]. exists p. split; [reflexivity|]. split; [auto|]. split; [intros y Hy; left; exact Hy|]. rewrite <- U. split; [lia|]. split; [lia|]. split; [intros y [Y|Y]; unfold inR, span in Y; lia|exact HR]. }
      destruct S0 as (a1 & -> & U & K). pose proof (keeps_wf _ _ _ _ Hw K) as Hw1. num K. exists a1, os. split; [reflexivity|]. split; [exact U|]. split; [exact Hw1|].
      eapply (inv_upd a os vs W i); [exact L|exact H1|exact H2|exact H3|exact Eo|exact Ei| | |]; [eapply keeps_sub; [exact K|intros y _ Hy; apply P3; exact Hy]| |].
      * instantiate (1 := inR p (ssize k)). intros y Y. left. apply P3. exact Y.
      * split; [reflexivity|]. cbn [fst snd]. exists p. split; [reflexivity|]. split; [auto|]. split; [intros y Hy; exact Hy|]. split; [lia|]. unfold inR. lia.
  - pose proof (sim_parseRawHeaders e a t Hw) as S0. unfold sim in S0. destruct (parseRawHeaders e (mkst t (aused a))) as [l s|s| |]; try discriminate; injection H as <- <- <-.
    + destruct S0 as (p & a1 & -> & U & K & HR). pose proof (keeps_wf _ _ _ _ Hw K) as Hw1. num K. exists a1, (os ++ [(SK WKRaws, Some p)]). split; [reflexivity|]. split; [exact U|]. split; [exact Hw1|].
      eapply (inv_add a a1 os vs _ (Some p) _ (span (aused a) (aused a1))); [exact HI|exact K| |unfold span; lia]. split; [reflexivity|]. cbn [fst snd isStruct ssize]. exists p. split; [reflexivity|]. split; [discriminate|]. split; [lia|]. rewrite <- U.
      split; [lia|]. split; [lia|]. split; [unfold span; lia|]. cbn [sRep wRep]. exists (aused a), (aused a1). split; [assumption|]. split; [lia|]. split; [auto|exact HR].
    + destruct S0 as (a1 & -> & U & K). pose proof (keeps_wf _ _ _ _ Hw K) as Hw1. exists a1, (os ++ [(SK WKRaws, None)]). split; [reflexivity|]. split; [exact U|]. split; [exact Hw1|].
      eapply (inv_add a a1 os vs _ None None (fun _ => False)); [exact HI|exact K|split; [reflexivity|]; cbn; auto|intros y []].
  - destruct (nth_error vs i) as [[k [[en [[o top]|]]|]]|] eqn:Ei; try discriminate. destruct (Look i k _ Ei) as (p & Eo & Hh). rewrite Eo. destruct (ltMem e (aused a) && (negb (sExt o) || (aused a <? 32768))) eqn:Ec; [|discriminate]. apply andb_prop in Ec as (C1 & C2). apply (ltMem_cap e a Hw) in C1.
    pose proof Hh as (_ & (p' & Ep & P2 & P3 & P4 & P5 & P6 & P7)). cbn [fst snd] in *. injection Ep as <-. assert (C3 : sExt o = true -> aused a < 32768) by (intros Et; rewrite Et in C2; cbn in C2; now apply N.ltb_lt).
    pose proof (sEncode_step k e a p (W i) top o pre Hw C1 C3 P5 P7) as S0. destruct (sEncoding e (aused a) k o pre) as [[[t o'] u1]|]; [|discriminate]. injection H as <- <- <-. destruct S0 as (a1 & R & U & K & HR). pose proof (keeps_wf _ _ _ _ Hw K) as Hw1. num K.
    exists a1, os. split; [destruct t as [t|]; [now rewrite R|destruct R as (b' & ->); reflexivity]|]. split; [exact U|]. split; [exact Hw1|].
    eapply (inv_upd a os vs W i); [exact L|exact H1|exact H2|exact H3|exact Eo|exact Ei|exact K| |].
    + instantiate (1 := fun y => W i y \/ span (aused a) u1 y). intros y [Y|Y]; [left; exact Y|right; unfold span in Y; lia].
    + split; [reflexivity|]. cbn [fst snd]. exists p. split; [reflexivity|]. split; [auto|]. split; [auto|]. destruct (N.eqb_spec u1 (aused a)) as [E1|E1].
      * split; [exact P4|]. split; [lia|]. split; [|exact HR]. intros y [Y|Y]; [auto|]. unfold span in Y. lia.
      * split; [lia|]. split; [lia|]. split; [|exact HR]. intros y [Y|Y]; [specialize (P6 y Y); lia|]. unfold span in Y. lia.
  - destruct (nth_error vs i) as [[k [[en [[o top]|]]|]]|] eqn:Ei; try discriminate. destruct (Look i k _ Ei) as (p & Eo & Hh). rewrite Eo. destruct (editReads d && negb (ltMem e (aused a))) eqn:Er; [discriminate|]. destruct (sEditV d o) as [q|] eqn:Eq; [|discriminate].
    assert (Hrd : editReads d = true -> aused a < cap a) by (intros Et; rewrite Et in Er; cbn [andb] in Er; apply Bool.negb_false_iff in Er; now apply (ltMem_cap e a Hw) in Er).
    pose proof Hh as (_ & (p' & Ep & P2 & P3 & P4 & P5 & P6 & P7)). cbn [fst snd] in *. injection Ep as <-. destruct (sEdit_step k e a d p (W i) top o q Hw P5 Hrd P7 Eq) as (m & -> & S0). unfold editOk in S0.
    destruct (q e (mkst [] (aused a))) as [o' s|s| |]; try discriminate; injection H as <- <- <-.
    + destruct S0 as (a1 & r & -> & U & K & HR). pose proof (keeps_wf _ _ _ _ Hw K) as Hw1. num K. exists a1, os. split; [reflexivity|]. split; [exact U|]. split; [exact Hw1|].
      eapply (inv_upd a os vs W i); [exact L|exact H1|exact H2|exact H3|exact Eo|exact Ei|exact K| |].
      * instantiate (1 := fun y => W i y \/ span (aused a) (used s) y). intros y [Y|Y]; [left; exact Y|right; unfold span in Y; lia].
      * split; [reflexivity|]. cbn [fst snd]. exists p. split; [reflexivity|]. split; [auto|]. split; [auto|]. destruct (N.eqb_spec (used s) (aused a)) as [E1|E1].
        -- split; [exact P4|]. split; [lia|]. split; [|exact HR]. intros y [Y|Y]; [auto|]. unfold span in Y. lia.
        -- split; [lia|]. split; [lia|]. split; [|exact HR]. intros y [Y|Y]; [specialize (P6 y Y); lia|]. unfold span in Y. lia.
    + destruct S0 as (a1 & r & -> & U & K). pose proof (keeps_wf _ _ _ _ Hw K) as Hw1. num K. exists a1, os. split; [reflexivity|]. split; [exact U|]. split; [exact Hw1|].
      split; [exact L|]. exists W. split; [|auto]. intros j x w Ex Ew. eapply held_keeps; [exact K|intros ? _ []|eauto].
  - destruct (nth_error vs i) as [[k [[en [[o top]|]]|]]|] eqn:Ei; try discriminate. destruct (Look i k _ Ei) as (p & Eo & Hh). rewrite Eo. destruct (vLook o) as [v0|] eqn:Ev; [|discriminate]. injection H as <- <- <-.
    pose proof Hh as (_ & (p' & Ep & P2 & P3 & P4 & P5 & P6 & P7)). cbn [fst snd] in *. injection Ep as <-. rewrite (look_same _ _ _ _ _ _ _ P7 Ev). exists a, os. auto.
  - destruct (nth_error vs i) as [[[w|] [[en [[[o|hh] top]|]]|]]|] eqn:Ei; try discriminate. destruct (Look i _ _ Ei) as (p & Eo & Hh). rewrite Eo. destruct (ltMem e (aused a) && (negb (wExt o) || (aused a <? 32768))) eqn:Ec; [|discriminate]. apply andb_prop in Ec as (C1 & C2). apply (ltMem_cap e a Hw) in C1.
    destruct (askValue e o q) as [x|] eqn:Ex; [|discriminate]. injection H as <- <- <-.
    pose proof Hh as (_ & (p' & Ep & P2 & P3 & P4 & P5 & P6 & P7)). cbn [fst snd] in *. injection Ep as <-. assert (C3 : wExt o = true -> aused a < 32768) by (intros Et; rewrite Et in C2; cbn in C2; now apply N.ltb_lt). cbn [sRep] in P7.
    destruct (ask_step w e a p (W i) top o q x Hw C1 C3 P5 P7 Ex) as (a1 & b1 & R & U & K & HR). pose proof (keeps_wf _ _ _ _ Hw K) as Hw1. exists a1, os. rewrite R. split; [reflexivity|]. split; [exact U|]. split; [exact Hw1|].
    assert (Es : setAt vs i (SK w, Some (en, Some (SO o, top))) = vs) by (clear - Ei; revert i Ei; induction vs as [|y vs IH]; intros [|i] Ei; try discriminate; cbn [setAt nth_error] in *; [now injection Ei as ->|f_equal; now apply IH]).
    rewrite <- Es. eapply (inv_upd a os vs W i); [exact L|exact H1|exact H2|exact H3|exact Eo|exact Ei|exact K| |].
    + instantiate (1 := W i). intros y Y. now left.
    + split; [reflexivity|]. cbn [fst snd]. exists p. split; [reflexivity|]. split; [auto|]. split; [auto|]. split; [exact P4|]. split; [lia|]. split; [exact P6|exact HR].
  - injection H as <- <- <-. exists (FreeAll a), os. split; [reflexivity|]. split; [reflexivity|]. split; [destruct Hw as (W1 & W2 & W3 & W4); unfold wfA, FreeAll; cbn; repeat split; auto; unfold PREFIX_LEN; lia|]. apply (inv_free a); [exact HI|reflexivity|cbn; lia].
  - cbv zeta in H. destruct (leMem e (freeTo n (aused a))) eqn:El; [|discriminate]. injection H as <- <- <-. unfold leMem in El. rewrite (proj1 Hw) in El. apply N.leb_le in El.
    assert (Eu : aused (FreePart n a) = freeTo n (aused a)).
    { unfold FreePart, freeTo in *. destruct (N.leb_spec (aused a) n) as [L0|L0]; [reflexivity|]. assert (E8 : u32 (n + PREFIX_LEN) = n + 8) by (unfold u32, PREFIX_LEN; apply N.mod_small; unfold two32; lia). rewrite E8. replace (n + 8 <? PREFIX_LEN) with false by (unfold PREFIX_LEN; lia). reflexivity. }
    assert (Em : mem (FreePart n a) = mem a /\ cap (FreePart n a) = cap a) by (unfold FreePart; destruct (aused a <=? n); [auto|]; destruct (u32 (n + PREFIX_LEN) <? PREFIX_LEN); auto). destruct Em as (Em & Ecap).
    assert (Hw1 : wfA e (FreePart n a)) by (destruct Hw as (W1 & W2 & W3 & W4); unfold wfA; rewrite Eu, Ecap; unfold freeTo in *; destruct (aused a <=? n); repeat split; auto; lia).
    exists (FreePart n a), os. split; [reflexivity|]. split; [exact Eu|]. split; [exact Hw1|]. apply (inv_free a); [exact HI|exact Em|lia].
Qed.
Theorem session e : netLen e -> forall ops a os vs outs, wfA e a -> sInv a os vs -> valSession e (aused a) vs ops = Some outs -> memSession e a os ops = Some outs.
Proof.
  intros Hn. induction ops as [|o ops IH]; intros a os vs outs Hw HI; cbn [valSession memSession]; [auto|]. destruct (valStep e (aused a) vs o) as [[[v u'] vs']|] eqn:Es; [|discriminate].
  destruct (step e a os vs o v u' vs' Hn Hw HI Es) as (a' & os' & -> & <- & Hw' & HI'). intros E. destruct (valSession e (aused a') vs' ops) as [outs'|] eqn:Ev; [|discriminate]. rewrite (IH a' os' vs' outs' Hw' HI' Ev). exact E.
Qed.
