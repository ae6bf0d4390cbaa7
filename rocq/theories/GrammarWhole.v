(** The language of whole messages, continuing GrammarSpec and GrammarMsg: header fields, header blocks, bodies, messages. *)
From Verif Require Import Base BaseLemmas Charset CharsetSpec NumSpec LwsSpec StrSpec QuotedSpec MethodTree HeaderTree NameSpec Monad Host HostSpec Uri UriSpec Tel TelSpec GenParam GenParamSpec Addr AddrSpec
  StartLine StartLineSpec Headers HeadersSpec RawHeaders RawSpec Msg MsgSpec GrammarSpec GrammarMsg.

(** ** Header names *)
Definition lookedUp : list (bytes * N) := headerNames ++ compactNames ++ misspeltNames.
(** A token; after "in", "p", "priv" and "refer" a CR may stand in it. *)
Definition nameText (p : bytes) : Prop := wfToken p \/ exists a b, p = a ++ 13 :: b /\ In (map asciiLower a) crDashAfter /\ forallb rfcToken b = true.
(** A name the library knows by a number, or another one. *)
Inductive NameRead : bytes -> option bytes -> N -> Prop :=
| NRknown p name i : In (name, i) lookedUp -> spells p name -> NameRead p None i
| NRother p : nameText p -> (forall name i, In (name, i) lookedUp -> ~ spells p name) -> NameRead p (Some p) SIP_HDR_UNKNOWN.
Definition FieldNameRead (t : bytes) (v : option bytes * N) (k : bytes) : Prop := exists p c, t = p ++ c /\ NameRead p (fst v) (snd v) /\ Colon c k.

(** ** Header fields *)
(** An unstructured value: up to the end of the (folded) line. *)
Definition TextRead (t v k : bytes) : Prop := exists line, t = line ++ [10] /\ folded line /\ ~ startsWsp k /\ cutCR line v.
(** Values separated by commas, up to a line end or the end of the input. *)
Definition commaNext (r : bytes) : Prop := exists w r', r = w ++ 44 :: r' /\ Skip w (44 :: r').
Inductive ValuesRead (e : env) (h : hkind) : bytes -> list hval -> bytes -> Prop :=
| VSend t v : ValueRead e h t v [] -> ValuesRead e h t [v] []
| VSline t v k : ValueRead e h t v (13 :: 10 :: k) -> ~ commaNext (13 :: 10 :: k) -> ValuesRead e h (t ++ [13; 10]) [v] k
| VSmore t v m ts vs k : ValueRead e h t v (m ++ ts ++ k) -> Mark 44 m (ts ++ k) -> ValuesRead e h ts vs k -> ValuesRead e h (t ++ m ++ ts) (v :: vs) k.
(** A field that is kept with a number and its values, or as it is written. *)
Inductive field := FValues (i : N) (vs : list hval) | FRaw (h : raw).
Inductive FieldRead (e : env) (o : owner) : bytes -> field -> bytes -> Prop :=
| FRone tn n i h t v k : FieldNameRead tn (n, i) (t ++ 13 :: 10 :: k) -> readAs o e i h false -> ValueRead e h t v (13 :: 10 :: k) -> FieldRead e o (tn ++ t ++ [13; 10]) (FValues i [v]) k
| FRmany tn n i h t vs k : FieldNameRead tn (n, i) (t ++ k) -> readAs o e i h true -> ValuesRead e h t vs k -> FieldRead e o (tn ++ t) (FValues i vs) k
| FRraw tn n i t v k : FieldNameRead tn (n, i) (t ++ k) -> (forall h several, ~ readAs o e i h several) -> TextRead t v k -> FieldRead e o (tn ++ t) (FRaw (mkraw i n v)) k.
(** Fields up to an empty line or the end of the input. *)
Inductive FieldsRead (e : env) (o : owner) : bytes -> list field -> bytes -> Prop :=
| FSend : FieldsRead e o [] [] []
| FSline k : FieldsRead e o [13; 10] [] k
| FScons t f ts fs k : FieldRead e o t f (ts ++ k) -> FieldsRead e o ts fs k -> FieldsRead e o (t ++ ts) (f :: fs) k.
(** What is stored: for a number all the values of its fields if there may be several, else those of the last field; and the other fields in their order. *)
Definition maySeveral (i : N) : bool := existsb (fun q => (fst q =? i) && snd (snd q)) structured.
Definition valuesOf (i : N) (fs : list field) : list (list hval) := flat_map (fun f => match f with FValues j vs => if j =? i then [vs] else [] | FRaw _ => [] end) fs.
Definition slotValues (fs : list field) (i : N) : list hval := if maySeveral i then List.concat (valuesOf i fs) else last (valuesOf i fs) [].
Definition collect (o : owner) (fs : list field) : hset := mkhset (map (slotValues fs) (slotIndexes o)) (flat_map (fun f => match f with FRaw h => [h] | _ => [] end) fs).

(** The same with every field kept as it is written (ParseRawHeaders). *)
Inductive RawFieldsRead : bytes -> list raw -> bytes -> Prop :=
| RFend : RawFieldsRead [] [] []
| RFline k : RawFieldsRead [13; 10] [] k
| RFcons tn n i t v ts hs k : FieldNameRead tn (n, i) (t ++ ts ++ k) -> TextRead t v (ts ++ k) -> RawFieldsRead ts hs k -> RawFieldsRead (tn ++ t ++ ts) (mkraw i n v :: hs) k.

(** ** Bodies *)
(** [d] is what stands in front of the first occurrence of [p]. *)
Definition FirstAt (p d k : bytes) : Prop := forall d' k', d ++ p ++ k = d' ++ p ++ k' -> (List.length d <= List.length d')%nat.
(** The parts behind the first delimiter. The end is seen at any pair of bytes of which one is a dash; otherwise the rest of the line is skipped, and headers, an empty line and
    the data follow, up to the next delimiter. In an arena that is exhausted the data may be missing. *)
Definition delimiter (b : bytes) : bytes := CRLF ++ s2b "--" ++ b.
Definition noDash (r : bytes) : Prop := forall x y r', r = x :: y :: r' -> x <> 45 /\ y <> 45.
Inductive PartsRead (e : env) (b : bytes) : bytes -> list body -> bytes -> Prop :=
| PAend x y k : x = 45 \/ y = 45 -> PartsRead e b [x; y] [] k
| PApart line tf fs d data ts bs k :
    noDash (line ++ 10 :: tf ++ d ++ delimiter b ++ ts ++ k) -> folded line -> ~ startsWsp (tf ++ d ++ delimiter b ++ ts ++ k) ->
    FieldsRead e OBody tf fs (d ++ delimiter b ++ ts ++ k) -> FirstAt (delimiter b) d (ts ++ k) -> (data = d \/ memend e <> None /\ data = []) -> PartsRead e b ts bs k ->
    PartsRead e b (line ++ 10 :: tf ++ d ++ delimiter b ++ ts) (mkbody (collect OBody fs) data :: bs) k.
(** The boundary of a multipart Content-Type; a parameter without a value counts as an empty boundary. *)
Definition boundaryIs (h : hset) (b : bytes) : Prop := exists m s tbl p ps, nth 10 (hsCommon h) [] = [VType m s (Some tbl) ps] /\ sameNoCase m (s2b "multipart") /\ nth 0 tbl None = Some p /\
  b = match gpValue p with Some (GToken x) | Some (GQuoted x) | Some (GBracket x) => x | None => [] end.
(** The bodies of a message with the headers [h]. Without a Content-Type there are none. With a Content-Type other than multipart there is one, of the stated length or as much of it as is there; it is
    not passed over. *)
Inductive BodiesRead (e : env) (h : hset) : bytes -> list body -> bytes -> Prop :=
| BOnone k : noType h -> BodiesRead e h [] [] k
| BOempty k : singleType h -> firstn (N.to_nat (statedLength h)) k = [] -> BodiesRead e h [] [] k
| BOone k : singleType h -> firstn (N.to_nat (statedLength h)) k <> [] -> BodiesRead e h [] [mkbody (mkhset [[]; []; []] []) (firstn (N.to_nat (statedLength h)) k)] k
| BOmany b t bs k : boundaryIs h b -> PartsRead e b t bs k -> BodiesRead e h (s2b "--" ++ b ++ t) bs k.

(** ** Messages *)
Inductive MessageRead (e : env) : bytes -> msg -> bytes -> Prop :=
| MRead tl l tf fs tb bs k : StartLineRead e tl l (tf ++ tb ++ k) -> tf ++ tb ++ k <> [] -> FieldsRead e OMsg tf fs (tb ++ k) -> BodiesRead e (collect OMsg fs) tb bs k ->
    MessageRead e (tl ++ tf ++ tb) (mkmsg l (collect OMsg fs) bs) k.
