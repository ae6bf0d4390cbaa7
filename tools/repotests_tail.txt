(** ** The tests without a table *)
Definition allocCheck (r : N * N * bool) : bool := let '(size, n, ok) := r in (Capacity (Init size) =? size) && Bool.eqb (negb (fst (Alloc n (Init size)) =? NILPTR)) ok.
(** AbnfMem_test.go (TestMemAllocatorAlloc, TestMemAllocatorAllocEx). *)
Lemma TestMemAllocatorAlloc : forallb allocCheck [(200, 1, true); (200, 199, true); (100, 0, false)] = true. Proof. vm_compute. reflexivity. Qed.
Lemma TestMemAllocatorAllocEx : map (fun n => let '(p, k, _) := AllocEx n (Init 200) in (negb (p =? NILPTR), k)) [1; 2] = [(true, 1); (true, 2)]. Proof. vm_compute. reflexivity. Qed.
(** AbnfMem_test.go (TestMemAllocatorUsed): used, allocNum and allocNumOk after each request, then FreePart and FreeAll. *)
Fixpoint allocAll (ns : list N) (a : arena) : list (bool * N * N * N) * arena :=
  match ns with
  | [] => ([], a)
  | n :: ns' => let (p, a') := Alloc n a in let (l, a'') := allocAll ns' a' in ((negb (p =? NILPTR), Used a', allocNum a', allocNumOk a') :: l, a'')
  end.
Lemma TestMemAllocatorUsed :
  let (l, a) := allocAll [101; 203; 0; 21; 1] (Init 1000) in
  l = [(true, 101, 1, 1); (true, 304, 2, 2); (false, 304, 3, 2); (true, 325, 4, 3); (true, 326, 5, 4)] /\ freeAllNum a = 0 /\ freePartNum a = 0 /\
  Used (FreePart 100 a) = 100 /\ Used (FreePart 200 (FreePart 100 a)) = 100 /\ Used (FreeAll a) = 0.
Proof. vm_compute. repeat split. Qed.
(** AbnfBasic_test.go (TestEncodeUIntWithWidth, TestAllocCString1, TestAllocCStringWithUnescape). *)
Lemma TestEncodeUIntWithWidth : EncodeUIntWithWidth 123 10%Z = Some (s2b "       123"). Proof. vm_compute. reflexivity. Qed.
Definition stored (o : ares) : option bytes := match o with AOk p a _ => readCString a p | _ => None end.
Lemma TestAllocCString1 : stored (AllocCString (s2b "0123456%37%38%39") (Init 10240)) = Some (s2b "0123456%37%38%39"). Proof. vm_compute. reflexivity. Qed.
Lemma TestAllocCStringWithUnescape : stored (AllocCStringWithUnescapeNum (s2b "0123456%37%38%39") 3 (Init 10240)) = Some (s2b "0123456789"). Proof. vm_compute. reflexivity. Qed.
(** AbnfPtr_test.go (TestAbnfPtrCStringEqualNoCase). *)
Lemma TestAbnfPtrCStringEqualNoCase : match stored (ParseAndAllocCStringEscapable SIP_PNAME (Init 10240) (s2b "user")) with Some t => CStringEqualNoCase t (s2b "user") = Some true | None => False end.
Proof. vm_compute. reflexivity. Qed.
(** SipHeadersIndex_test.go (TestGetSipHeaderIndex): every name of the table, as it is, in lower case and in upper case. *)
Definition lower (c : N) : N := if (65 <=? c) && (c <=? 90) then c + 32 else c.
Definition upper (c : N) : N := if (97 <=? c) && (c <=? 122) then c - 32 else c.
Lemma TestGetSipHeaderIndex : forallb (fun q => forallb (fun t => match GetSipHeaderIndex t with Some (i, _) => i =? fst q | None => false end)
  [hiName (snd q); map lower (hiName (snd q)); map upper (hiName (snd q))]) headerInfos = true.
Proof. vm_compute. reflexivity. Qed.
(** SipHostPort_test.go (TestSipHostPortUnknownString, TestSipHostPortIpv4String, TestSipHostPortIpv6String, TestSipHostPortHostnameString). *)
Lemma TestSipHostPortString :
  map (encHostPort (ctx 1024)) [mkhp HUnknown None; mkhp (HIpv4 10 1 1 1) None; mkhp (HIpv6 mapped) None; mkhp (HName (s2b "abc.com")) None] = [s2b "unknown host"; s2b "10.1.1.1"; s2b "[10.1.1.1]"; s2b "abc.com"].
Proof. vm_compute. reflexivity. Qed.
