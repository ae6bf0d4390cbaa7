(** Properties C05-C12, C41: the arena. *)
From Verif Require Import Base Charset BaseLemmas Lws Str StrSpec StrProofs Num Arena ArenaProofs ArenaOps ArenaOpsProofs ArenaTop ArenaExact LwsSpec QuotedSpec QuotedExact QuotedPanic.
From Verif Require ParsedWf.

(** C05, C06: every history of operations (allocations, string storing, freeing) on an arena below 64 KiB. *)
Theorem C05_history_bounds : forall c os h, c + 8 < 65536 -> saneRun (initH c) os -> run (initH c) os = Some h ->
  Used (ar h) <= Capacity (ar h) /\ Capacity (ar h) = c /\ Used (ar h) + Left (ar h) = c.
Proof. intros c os h H1 H2 H3. destruct (history_ok c os h H1 H2 H3) as (A & B & D & _). auto. Qed.
Print Assumptions C05_history_bounds.
Theorem C05_counters : forall c os h, Forall blkOp os -> run (initH c) os = Some h ->
  allocNum (ar h) mod 4294967296 = countN isAllocOp os mod 4294967296 /\
  allocReqBytes (ar h) mod 4294967296 = sumN (map reqOf os) mod 4294967296 /\
  freeAllNum (ar h) mod 4294967296 = countN isFreeAll os mod 4294967296.
Proof. intros c os h H1 H2. exact (run_counters os (initH c) h H1 H2). Qed.
Print Assumptions C05_counters.
(** What one call does to the five counters: an allocation counts as a success exactly when it returns a pointer. *)
Theorem C05_counters_of_a_call : forall n a, cap a < 65536 -> 8 <= aused a <= cap a -> n < 2147483648 ->
  let counted p a' := allocNum a' = (allocNum a + 1) mod 4294967296 /\ allocReqBytes a' = (allocReqBytes a + n) mod 4294967296 /\
    (p = NILPTR -> allocNumOk a' = allocNumOk a) /\ (p <> NILPTR -> allocNumOk a' = (allocNumOk a + 1) mod 4294967296) /\ freeAllNum a' = freeAllNum a /\ freePartNum a' = freePartNum a in
  counted (fst (Alloc n a)) (snd (Alloc n a)) /\ counted (fst (AllocWithClear n a)) (snd (AllocWithClear n a)) /\ counted (fst (fst (AllocEx n a))) (snd (AllocEx n a)) /\
  (let f := FreeAll a in freeAllNum f = (freeAllNum a + 1) mod 4294967296 /\ (allocNum f, allocNumOk f, allocReqBytes f, freePartNum f) = (allocNum a, allocNumOk a, allocReqBytes a, freePartNum a)) /\
  (let f := FreePart n a in freePartNum f = (freePartNum a + 1) mod 4294967296 /\ (allocNum f, allocNumOk f, allocReqBytes f, freeAllNum f) = (allocNum a, allocNumOk a, allocReqBytes a, freeAllNum a)) /\
  (let f := ClearAllocNum a in allocNum f = 0 /\ (allocNumOk f, allocReqBytes f, freeAllNum f, freePartNum f) = (allocNumOk a, allocReqBytes a, freeAllNum a, freePartNum a)).
Proof.
  intros n a Hc Hu Hn counted.
  assert (CA : counted (fst (Alloc n a)) (snd (Alloc n a))).
  { unfold counted, Alloc. destruct (n <=? 0); [cbn; intuition congruence|]. destruct (cap a <? RoundToAlign1 (u32 (aused a + n))); [cbn; intuition congruence|].
    cbn [fst snd allocNum allocNumOk allocReqBytes freeAllNum freePartNum]. rewrite u16_small by (unfold two16; lia). unfold NILPTR. repeat split; lia. }
  pose proof (Alloc_case n a Hc Hu Hn) as CC.
  split; [exact CA|]. split; [|split; [|split; [|split]]].
  - unfold AllocWithClear. destruct (Alloc n a) as [p a']. cbn [fst snd] in *. destruct (aused a' =? aused a); exact CA.
  - unfold AllocEx. destruct (Alloc n a) as [p a']. cbn [fst snd] in *. destruct (N.eqb_spec (aused a') (aused a)) as [Ea|Na]; cbn [fst snd]; [|exact CA].
    destruct CC as (_ & _ & [[-> _]|(H3 & H4 & H5 & H6)]); [exact CA|lia].
  - split; reflexivity.
  - unfold FreePart. destruct (aused a <=? n); [split; reflexivity|]. destruct (u32 (n + PREFIX_LEN) <? PREFIX_LEN); split; reflexivity.
  - split; reflexivity.
Qed.
Print Assumptions C05_counters_of_a_call.
Theorem C05_failed_alloc : forall n a, fst (Alloc n a) = NILPTR -> cap a < 65536 -> 8 <= aused a <= cap a -> n < 2147483648 ->
  Used (snd (Alloc n a)) = Used a /\ mem (snd (Alloc n a)) = mem a.
Proof. exact Alloc_fail. Qed.
Print Assumptions C05_failed_alloc.
(** The exact outcome for every 32-bit request: it is refused iff it is empty or does not fit, except that a request for which
    fill level + size reaches 2^32 wraps around, "succeeds" and moves the fill level back. *)
Theorem C05_alloc_exact : forall n a, n < 4294967296 -> cap a < 65536 -> 8 <= aused a <= cap a ->
  mem (snd (Alloc n a)) = mem a /\ cap (snd (Alloc n a)) = cap a /\
  (n = 0 \/ cap a < aused a + n < 4294967296 -> fst (Alloc n a) = NILPTR /\ aused (snd (Alloc n a)) = aused a) /\
  (0 < n /\ aused a + n <= cap a -> fst (Alloc n a) = aused a /\ aused (snd (Alloc n a)) = aused a + n) /\
  (4294967296 <= aused a + n -> fst (Alloc n a) = aused a /\ aused (snd (Alloc n a)) = aused a + n - 4294967296 /\ aused (snd (Alloc n a)) < aused a).
Proof.
  intros n a Hn Hc Hu.
  assert (R : RoundToAlign1 (u32 (aused a + n)) = if aused a + n <? 4294967296 then aused a + n else aused a + n - 4294967296).
  { rewrite round1 by (unfold u32; apply N.mod_lt; discriminate). unfold u32, two32. destruct (N.ltb_spec (aused a + n) 4294967296); [now apply N.mod_small|].
    symmetry. apply N.mod_unique with 1; lia. }
  assert (U : u16 (aused a) = aused a) by (apply u16_small; unfold two16; lia).
  unfold Alloc. rewrite R, U. destruct (N.leb_spec n 0).
  - cbn [fst snd mem cap aused]. repeat split; intros; try lia; reflexivity.
  - destruct (N.ltb_spec (aused a + n) 4294967296); destruct (N.ltb_spec (cap a) (aused a + n)); try destruct (N.ltb_spec (cap a) (aused a + n - 4294967296));
    cbn [fst snd mem cap aused]; repeat split; intros; try lia; reflexivity.
Qed.
Print Assumptions C05_alloc_exact.
Example C05_alloc_case : let a := snd (Alloc 20 (Init 100)) in cap a < 65536 /\ 8 <= aused a <= cap a /\ fst (Alloc 80 a) = 28 /\ fst (Alloc 81 a) = NILPTR /\ fst (Alloc 4294967290 a) = 28.
Proof. vm_compute. repeat split; discriminate. Qed.
(** Without the size bound the claim is false: a request close to 2^32 wraps around, "succeeds" and lowers Used(). *)
Theorem C05_wrap_refuted : exists a n, n < 4294967296 /\ Capacity a < n /\ fst (Alloc n a) <> NILPTR /\ Used (snd (Alloc n a)) < Used a.
Proof. exact Alloc_wraps. Qed.
Print Assumptions C05_wrap_refuted.
(** The requested-bytes statistic is overwritten by the string-storing parses. *)
Theorem C05_reqbytes_refuted : exists a r, match ParseAndAllocCString DIGIT a r with
  | AOk _ a' _ => allocReqBytes a = 50 /\ allocReqBytes a' = 2 | _ => False end.
Proof. exact reqBytes_overwritten. Qed.
Print Assumptions C05_reqbytes_refuted.

Theorem C06_live_disjoint : forall c os h, c + 8 < 65536 -> saneRun (initH c) os -> run (initH c) os = Some h ->
  ForallOrdPairs disjoint (live h) /\
  Forall (fun b => fst b <> NILPTR /\ 0 < snd b /\ fst b + snd b <= c + 8) (live h).
Proof. intros c os h H1 H2 H3. destruct (history_ok c os h H1 H2 H3) as (_ & _ & _ & A & B & _). auto. Qed.
Print Assumptions C06_live_disjoint.
(** Beyond 64 KiB two live blocks can share an address, and a live block can have the nil address. *)
Theorem C06_large_arena_refuted :
  (exists c, fst (Alloc 8 (Init c)) = fst (Alloc 8 (snd (Alloc 65528 (snd (Alloc 8 (Init c)))))) /\ fst (Alloc 8 (Init c)) <> NILPTR) /\
  (exists c n, let a := snd (Alloc n (Init c)) in fst (Alloc 8 a) = NILPTR /\ Used (snd (Alloc 8 a)) = Used a + 8).
Proof. exact (conj Alloc_ptr_wraps Alloc_ptr_nil). Qed.
Print Assumptions C06_large_arena_refuted.

(** C07: a string stored in the first part of a history reads back the same after any further operations that do not free. *)
Theorem C07_strings_preserved : forall c os1 os2 h1 h2, c + 8 < 65536 -> saneRun (initH c) (os1 ++ os2) -> Forall noFree os2 ->
  run (initH c) os1 = Some h1 -> run h1 os2 = Some h2 ->
  forall p b, In (p, b) (strs h1) -> p < c + 8 -> readCString (ar h1) p = Some b /\ readCString (ar h2) p = Some b.
Proof. exact history_frame. Qed.
Print Assumptions C07_strings_preserved.
(** AllocWithClear clears its block and nothing else. *)
Theorem C07_alloc_clear : forall n a, cap a < 65536 -> 8 <= aused a <= cap a -> n < 2147483648 ->
  fst (AllocWithClear n a) <> NILPTR ->
  forall i, mem (snd (AllocWithClear n a)) i = if (aused a <=? i) && (i <? aused a + n) then 0 else mem a i.
Proof.
  intros n a H1 H2 H3 H4. destruct (AllocWithClear_case n a H1 H2 H3) as (_ & _ & [[H _]|H]); [contradiction|apply H].
Qed.
Print Assumptions C07_alloc_clear.

(** C08. *)
Theorem C08_free_part : forall n a, 8 <= aused a -> aused a < 4294967288 -> n <= Used a ->
  Used (FreePart n a) = n /\ mem (FreePart n a) = mem a /\ Capacity (FreePart n a) = Capacity a.
Proof.
  intros n a H1 H2 H3. destruct (FreePart_spec n a H1 ltac:(unfold two32 in *; lia) H3) as (A & B & D).
  unfold Used at 1, Capacity. rewrite A, B, D. repeat split. unfold PREFIX_LEN. apply u32_diff; [lia|].
  revert H3. unfold Used, u32, PREFIX_LEN, two32. intros H3.
  pose proof (N.mod_lt (aused a + 4294967296 - 8) 4294967296 ltac:(discriminate)). lia.
Qed.
Print Assumptions C08_free_part.
(** For every argument: up to the fill level plus the 8 bytes of the prefix, Used() becomes the argument; beyond, nothing changes. *)
Theorem C08_free_part_exact : forall n a, 8 <= aused a -> aused a < 4294967288 ->
  Used (FreePart n a) = (if n <? Used a + 8 then n else Used a) /\ mem (FreePart n a) = mem a /\ Capacity (FreePart n a) = Capacity a.
Proof. exact FreePart_exact. Qed.
Print Assumptions C08_free_part_exact.
Example C08_case : let a := snd (Alloc 20 (Init 100)) in 8 <= aused a /\ aused a < 4294967288 /\ Used a = 20 /\ Used (FreePart 5 a) = 5 /\ Used (FreePart 30 a) = 20.
Proof. vm_compute. repeat split; discriminate. Qed.
(** So asking to keep slightly more than is used grows Used(), even past the capacity. *)
Theorem C08_free_part_refuted :
  (exists a, Used a = 0 /\ Used (FreePart 7 a) = 7) /\
  (exists a n, Used a <= Capacity a /\ Used a <= n /\ Capacity a < Used (FreePart n a)).
Proof. exact (conj FreePart_grows FreePart_beyond). Qed.
Print Assumptions C08_free_part_refuted.

(** C09. *)
Theorem C09_token_reads_back : forall a cs r p a' r', cap a < 65536 ->
  ParseAndAllocCString cs a r = AOk p a' r' ->
  exists tok, maximalRun cs r tok r' /\ tok <> [] /\ readCString a' p = Some tok /\ aused a' = aused a + 2 + len tok.
Proof. exact CString_ok. Qed.
Print Assumptions C09_token_reads_back.
Theorem C09_token_succeeds : forall a cs r tok r', cap a < 65536 -> maximalRun cs r tok r' -> tok <> [] ->
  aused a + 2 + len tok < cap a -> exists p a', ParseAndAllocCString cs a r = AOk p a' r'.
Proof. exact CString_succeeds. Qed.
Print Assumptions C09_token_succeeds.
Theorem C09_token_empty_reads_back : forall a cs r p a' r', cap a < 65536 ->
  ParseAndAllocCStringEnableEmpty cs a r = AOk p a' r' ->
  exists tok, maximalRun cs r tok r' /\ readCString a' p = Some tok /\ aused a' = aused a + 2 + len tok.
Proof. exact CStringEmpty_reads. Qed.
Print Assumptions C09_token_empty_reads_back.
Theorem C09_escapable_reads_back : forall a cs r p a' r', cap a < 65536 ->
  ParseAndAllocCStringEscapable cs a r = AOk p a' r' ->
  exists run tok, r = run ++ r' /\ Decodes (inset cs) run tok /\ endsRun (inset cs) r' /\ tok <> [] /\
    readCString a' p = Some tok /\ aused a' = aused a + 2 + len tok.
Proof. exact Escapable_reads. Qed.
Print Assumptions C09_escapable_reads_back.
Theorem C09_escapable_empty_reads_back : forall a cs r p a' r', cap a < 65536 ->
  ParseAndAllocCStringEscapableEnableEmpty cs a r = AOk p a' r' ->
  exists run tok, r = run ++ r' /\ Decodes (inset cs) run tok /\ endsRun (inset cs) r' /\
    readCString a' p = Some tok /\ aused a' = aused a + 2 + len tok.
Proof. exact EscapableEmpty_reads. Qed.
Print Assumptions C09_escapable_empty_reads_back.
(** The quoted string (if it is empty and ends at the last byte of the arena, there is no byte its pointer could point to). *)
Theorem C09_quoted_reads_back : forall a r p a' r', cap a < 65536 ->
  ParseAndAllocSipQuotedString a r = AOk p a' r' ->
  exists src tok, SWS r (34 :: src ++ 34 :: r') /\ QText plainQd isWsp src tok /\ aused a' = aused a + 2 + len tok /\ (aused a + 2 < cap a -> readCString a' p = Some tok).
Proof.
  intros a r p a' r' Hc E. pose proof (refine_Quoted (envOf a) a (envOf_cap a) ltac:(unfold two16, two32 in *; lia) r) as R. rewrite E in R.
  destruct (refines_read _ _ _ _ _ _ Hc R) as (tok & s & Ev & H1 & H2 & H3 & H4 & H5). destruct (ParsedWf.quoted_inv _ _ _ _ Ev) as (src & Hs & Hq). cbn [rest] in Hs. rewrite H1 in Hs.
  exists src, tok. split; [exact Hs|]. split; [exact Hq|]. split; [exact H3|]. intros L. apply H4. lia.
Qed.
Print Assumptions C09_quoted_reads_back.
Theorem C09_number_reads_back : forall a cs r p a' r', cap a < 65536 ->
  ParseAndAllocTelNumber cs a r = AOk p a' r' ->
  exists plus run, r = plus ++ run ++ r' /\ (plus = [] \/ plus = [43]) /\ maximalRun cs (run ++ r') run r' /\
    filter (fun v => negb (IsTelVisualSperator v)) run <> [] /\
    readCString a' p = Some (plus ++ filter (fun v => negb (IsTelVisualSperator v)) run) /\
    aused a' = aused a + 2 + len (plus ++ filter (fun v => negb (IsTelVisualSperator v)) run).
Proof. exact Tel_ok. Qed.
Print Assumptions C09_number_reads_back.
(** Every string recorded along a history is readable at its pointer, also after FreeAll/FreePart and reuse. *)
Theorem C09_history_reads_back : forall c os h, c + 8 < 65536 -> saneRun (initH c) os -> run (initH c) os = Some h ->
  Forall (fun s => fst s < c + 8 -> readCString (ar h) (fst s) = Some (snd s)) (strs h).
Proof.
  intros c os h H1 H2 H3. destruct (history_ok c os h H1 H2 H3) as (_ & _ & _ & _ & _ & A).
  eapply Forall_impl; [|exact A]. intros s [_ Hs]. exact Hs.
Qed.
Print Assumptions C09_history_reads_back.

(** C10: atomic for the plain parses; for the others only Used() and stored data are preserved. *)
Theorem C10_token_fail_atomic : forall a cs r a' r', cap a < 4294967296 -> ParseAndAllocCString cs a r = AFail a' r' ->
  r' = r /\ aused a' = aused a /\ (forall i, i < aused a -> mem a' i = mem a i).
Proof. exact CString_fail_atomic. Qed.
Print Assumptions C10_token_fail_atomic.
Theorem C10_token_empty_fail_atomic : forall a cs r a' r', cap a < 4294967296 -> ParseAndAllocCStringEnableEmpty cs a r = AFail a' r' ->
  r' = r /\ aused a' = aused a /\ (forall i, i < aused a -> mem a' i = mem a i).
Proof. exact CStringEmpty_fail_atomic. Qed.
Print Assumptions C10_token_empty_fail_atomic.
(** The escapable parses: the position stays, or it is at the malformed escape. *)
Theorem C10_escapable_fail : forall a cs r a' r', cap a < 4294967296 ->
  ParseAndAllocCStringEscapable cs a r = AFail a' r' \/ ParseAndAllocCStringEscapableEnableEmpty cs a r = AFail a' r' ->
  aused a' = aused a /\ (forall i, i < aused a -> mem a' i = mem a i) /\
  (r' = r \/ exists run tok, r = run ++ r' /\ Decodes (inset cs) run tok /\ badEscape (inset cs) r').
Proof. exact Escapable_fail_pos. Qed.
Print Assumptions C10_escapable_fail.
(** The number parse: the position stays, or it is behind the digits and separators. *)
Theorem C10_number_fail : forall a cs r a' r', cap a < 4294967296 -> ParseAndAllocTelNumber cs a r = AFail a' r' ->
  aused a' = aused a /\ (forall i, i < aused a -> mem a' i = mem a i) /\
  (r' = r \/ exists plus run, r = plus ++ run ++ r' /\ (plus = [] \/ plus = [43]) /\ maximalRun cs (run ++ r') run r').
Proof. exact Tel_fail_pos. Qed.
Print Assumptions C10_number_fail.
(** The quoted-string parse: what is stored stays, Used() may have grown within the capacity. *)
Theorem C10_quoted_fail : forall a r a' r', cap a < 4294967296 -> aused a <= cap a -> ParseAndAllocSipQuotedString a r = AFail a' r' ->
  aused a <= aused a' <= cap a /\ (forall i, i < aused a -> mem a' i = mem a i).
Proof. exact Quoted_fail_frame. Qed.
Print Assumptions C10_quoted_fail.
(** In these three the claim of an unchanged position, or an unchanged fill level, is false. *)
Theorem C10_fail_atomic_refuted :
  (exists a r a' r', ParseAndAllocCStringEscapable SIP_USER a r = AFail a' r' /\ r' <> r) /\
  (exists a r a' r', ParseAndAllocTelNumber TEL_PHONE_DIGIT a r = AFail a' r' /\ r' <> r) /\
  (exists a r a' r', ParseAndAllocSipQuotedString a r = AFail a' r' /\ aused a < aused a').
Proof. exact (conj Escapable_fail_moves (conj Tel_fail_moves Quoted_fail_leaks)). Qed.
Print Assumptions C10_fail_atomic_refuted.

(** C11: with [tok] the bytes of the class at the position, the parse crashes exactly when they do not fit behind the length
    prefix, and fails when they leave no byte free. *)
Theorem C11_token : forall a cs r tok r', cap a < 4294967296 -> maximalRun cs r tok r' ->
  (isOk (ParseAndAllocCString cs a r) <-> tok <> [] /\ aused a + 2 + len tok < cap a) /\
  (ParseAndAllocCString cs a r = APanic <-> aused a + 2 < cap a /\ cap a < aused a + 2 + len tok) /\
  (isFail (ParseAndAllocCString cs a r) <-> cap a <= aused a + 2 \/ tok = [] \/ cap a = aused a + 2 + len tok).
Proof. exact CString_outcome. Qed.
Print Assumptions C11_token.
Theorem C11_token_empty : forall a cs r tok r', cap a < 4294967296 -> maximalRun cs r tok r' ->
  (isOk (ParseAndAllocCStringEnableEmpty cs a r) <-> aused a + 2 + len tok < cap a) /\
  (ParseAndAllocCStringEnableEmpty cs a r = APanic <-> aused a + 2 < cap a /\ cap a < aused a + 2 + len tok) /\
  (isFail (ParseAndAllocCStringEnableEmpty cs a r) <-> cap a <= aused a + 2 \/ cap a = aused a + 2 + len tok).
Proof. exact CStringEmpty_outcome. Qed.
Print Assumptions C11_token_empty.
Theorem C11_number : forall a cs r plus run r', cap a < 4294967296 -> r = plus ++ run ++ r' ->
  (plus = [43] \/ plus = [] /\ match run ++ r' with x :: _ => x <> 43 | [] => True end) -> maximalRun cs (run ++ r') run r' ->
  (ParseAndAllocTelNumber cs a r = APanic <->
   aused a + 2 < cap a /\ cap a < aused a + 2 + len (plus ++ filter (fun v => negb (IsTelVisualSperator v)) run)).
Proof. exact Tel_panics_iff. Qed.
Print Assumptions C11_number.
(** The escapable parses crash exactly when a byte of the class (not an escape) meets the full memory. *)
Theorem C11_escapable : forall a cs r, cap a < 4294967296 ->
  (ParseAndAllocCStringEscapable cs a r = APanic <->
   exists run tok v r', r = run ++ v :: r' /\ Decodes (inset cs) run tok /\ inset cs v = true /\ tok <> [] /\ cap a = aused a + 2 + len tok) /\
  (ParseAndAllocCStringEscapableEnableEmpty cs a r = APanic <->
   exists run tok v r', r = run ++ v :: r' /\ Decodes (inset cs) run tok /\ inset cs v = true /\ tok <> [] /\ cap a = aused a + 2 + len tok).
Proof. exact Escapable_panics_iff. Qed.
Print Assumptions C11_escapable.
(** The quoted-string parse with room for the rest of the input crashes exactly when only white space is left. *)
Theorem C11_quoted : forall a r, cap a < 4294967296 -> aused a + 2 + len r <= cap a ->
  (ParseAndAllocSipQuotedString a r = APanic <-> SWS r []).
Proof.
  intros a r Hc Hr. rewrite <- (quoted_panic_iff (envOf a) r (aused a) Hr).
  pose proof (refine_Quoted (envOf a) a (envOf_cap a) Hc r) as R. apply refines_ok in R as (_ & _ & R & _). exact R.
Qed.
Print Assumptions C11_quoted.
(** With any amount of memory: it crashes exactly when only white space is left, or the text behind the quote (up to and including a
    possible line folding) overruns the arena, or the string is empty and its length word does. *)
Theorem C11_quoted_any_room : forall a r, cap a < 4294967296 ->
  (ParseAndAllocSipQuotedString a r = APanic <->
   SWS r [] \/ exists src k, SWS r (34 :: src ++ k) /\ QStart plainQd isWsp src /\ cap a < aused a + 2 + len src /\ (src <> [] \/ exists k', k = 34 :: k')).
Proof.
  intros a r Hc. rewrite <- (paQuoted_panic (envOf a) (cap a) r (aused a) (envOf_cap a)).
  pose proof (refine_Quoted (envOf a) a (envOf_cap a) Hc r) as R. apply refines_ok in R as (_ & _ & R & _). exact R.
Qed.
Print Assumptions C11_quoted_any_room.
Example C11_quoted_case : SWS (s2b " ""abc") (34 :: s2b "a" ++ s2b "bc") /\ QStart plainQd isWsp (s2b "a") /\ cap (Init 2) < aused (Init 2) + 2 + len (s2b "a").
Proof. split; [apply sws_iff; vm_compute; reflexivity|]. split; [constructor; [reflexivity|constructor]|vm_compute; reflexivity]. Qed.
(** All four crashes happen. *)
Theorem C11_exhaustion_refuted : 
  ParseAndAllocCString DIGIT (Init 4) (s2b "123456") = APanic /\ ParseAndAllocTelNumber TEL_PHONE_DIGIT (Init 4) (s2b "1-2-3-4") = APanic /\
  ParseAndAllocCStringEscapable SIP_USER (Init 4) (s2b "%41bc") = APanic /\ ParseAndAllocSipQuotedString (Init 4) (s2b """abc""") = APanic.
Proof. vm_compute. auto. Qed.
Print Assumptions C11_exhaustion_refuted.

(** C12: only capacity and fill level matter. *)
Theorem C12_stale_contents : forall a1 a2 r cs, cap a1 < 65536 -> cap a1 = cap a2 -> aused a1 = aused a2 ->
  sameOutcome (ParseAndAllocCString cs a1 r) (ParseAndAllocCString cs a2 r) /\
  sameOutcome (ParseAndAllocCStringEnableEmpty cs a1 r) (ParseAndAllocCStringEnableEmpty cs a2 r) /\
  sameOutcome (ParseAndAllocCStringEscapable cs a1 r) (ParseAndAllocCStringEscapable cs a2 r) /\
  sameOutcome (ParseAndAllocCStringEscapableEnableEmpty cs a1 r) (ParseAndAllocCStringEscapableEnableEmpty cs a2 r) /\
  sameOutcome (ParseAndAllocTelNumber cs a1 r) (ParseAndAllocTelNumber cs a2 r) /\
  sameOutcome (ParseAndAllocSipQuotedString a1 r) (ParseAndAllocSipQuotedString a2 r).
Proof. exact stale_independent. Qed.
Print Assumptions C12_stale_contents.

(** C41. *)
Theorem C41_zero : forall m p n i, let inside := (p <=? i) && (i <? p + n) in
  ZeroMem m p n i = (if inside then 0 else m i) /\
  ZeroByteSlice m p n i = (if inside then 0 else m i) /\
  ZeroByteSlice2 m p n i = (if inside then 0 else m i).
Proof. intros. split; [|split]; [apply ZeroMem_spec|apply ZeroByteSlice_spec|apply ZeroByteSlice2_spec]. Qed.
Print Assumptions C41_zero.
Theorem C41_memcpy : forall m p1 p2 n i, p1 + n <= p2 \/ p2 + n <= p1 ->
  Memcpy m p1 p2 n i = if (p1 <=? i) && (i <? p1 + n) then m (p2 + (i - p1)) else m i.
Proof. exact Memcpy_spec. Qed.
Print Assumptions C41_memcpy.

(** A non-trivial history meeting the hypotheses: struct, token, escaped string, clear, free part, reuse. *)
Definition sampleOps : list op :=
  [OAlloc 6; OToken SIP_TOKEN (s2b "INVITE sip"); OEscapable SIP_USER (s2b "a%41b@h"); OFreePart 14; OString (s2b "xyz"); OAllocClear 40].
Example C05_case : saneRun (initH 100) sampleOps /\
  match run (initH 100) sampleOps with
  | Some h => strs h = [(24, s2b "xyz"); (16, s2b "INVITE")] /\ live h = [(27, 40); (22, 5); (14, 8); (8, 6)] /\ Used (ar h) = 59
  | None => False
  end.
Proof. split; [apply saneRunb_ok; vm_compute; reflexivity|vm_compute; auto]. Qed.
