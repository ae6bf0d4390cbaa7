# Formal model of lioneagle/sipparser in Rocq (Coq 8.16.1)

Go paths are relative to `/repo/src/sipparser`. Theory files are in `rocq/theories/`. `properties.jsonl` has the English properties, `MANIFEST.json` the
theorems for each of them, `seeded/LOG.jsonl` the wrong programs the theorems were tested against (`tools/mutate.py`).

## How the files are organised

* `X.v` — model of Go file(s) X; every definition cites file and lines. `XSpec.v` — what the theorems about X speak about (grammars, well-formedness, what a list or a
  line is), written without the model's loops. `XProofs.v` etc. — lemmas. `Pnn_*.v` — the theorems of the manifest, each with a concrete instance (`..._ex`) that meets its
  hypotheses, and the refutations (`..._refuted`) of the plainer expectations that are false of the code.
* Generated, literally, from the Go source: `Charset.v` (`tools/gen_charset.py`, the class table and masks of `AbnfCharset.go`), `MethodTree.v` and `HeaderTree.v`
  (`tools/gen_tree.py`, the bodies of `GetSipMethodIndex` and `GetSipHeaderIndex`, statement by statement, as terms of the small language of `IndexTree.v`).

## Layers

1. **Bytes and classes.** A byte is an `N`, a byte string a `list N`. `CharsetSpec.v` is the independent RFC 3261/3966 transcription.
2. **Value layer** (`Str.v`, `Monad.v`, `Host.v` … `Msg.v`). A parser is a function from `{rest; used}` (the *unread suffix* `src[parsePos:]` and the fill level of the arena) to
   `Ok a s`, `Fail s` (an error was returned; position and fill level it leaves), `Panic` (a Go run-time panic: index out of range, slice bounds) or `Loop` (the Go loop makes no
   progress and never ends; shown to be exactly divergence in `C32_loop_is_divergence`). The environment gives the size of the arena (`None`: never exhausted) and the package-level flags.
   A string stored in the arena is represented by its bytes, a struct by a record, a linked list by a list; memory use is charged exactly, allocation by allocation.
3. **Byte layer** (`Arena.v`, `ArenaOps.v`, `Ref.v`, `Layout.v`). Memory as a function from addresses to bytes, `used`, 16-bit pointers, two-byte length prefix: `MemAllocator`, every
   `ParseAndAlloc*` as the loop that writes memory, `ZeroMem`/`Memcpy`, histories of operations, struct layouts with New/Init. `ArenaProofs.v`/`ArenaTop.v` prove that each byte-level
   string parse has the same outcome, position and fill level as its value-layer counterpart and that reading the pointer back gives the bytes.
4. **Memory layer** (`Mem.v`, `MemUri.v`, `MemTel.v`, `MemGen.v`, `MemAddr.v`, `MemStart.v`, `MemHdr.v`, `MemMsg.v`; encoders `MemEnc.v`, `MemMsgEnc.v` and the `mEnc...` definitions). The parsers of layer 2 again, now as
   programs on the bytes of layer 3: structs are field offsets from an address (checked against `Layout.v` by `C48_offsets`), lists are `next` pointers, tables of recognised parameters are arrays
   of pointers, assignments write bytes, `NewX` allocates and clears. `MemSim.v` has the simulation relation to the value layer (same outcome, position and fill level; the bytes represent the
   value; no other allocated byte changes) and its rules; the `Mem...Proofs.v` files prove it for each parser and that Encode reads the value back. `MemHistory.v` composes it over any
   sequence of parses in one arena, `MemWorld.v` over any sequence of creations, encodings (SipMsg.Encode writes to the arena), FreeAll and FreePart, `MemSession.v` over the same with structs parsed into again, setters, and FreePart that keeps a struct. Statistics counters of the allocator are not part of the relation.
5. **Pointer layer** (`HeaderList.v`). The linked lists of headers with next pointers; `P14_Lists.v` relates them to the lists of layer 2.
6. **Encoders** are functions to byte strings (what is appended to the buffer); `encMsg` also returns the message it leaves behind and charges memory.

## Trusted base

* Coq 8.16.1's kernel (no kernel check switched off; `vm_compute` is used, `native_compute` is not). No axioms of our own, no functors or module types.
* `Print Assumptions` says "Closed under the global context" for every theorem in the manifest: the build prints it for each of them. No axiom of the standard library is used.
* External code not in the repository is modelled by its documented meaning: goutil `chars.*` (`ToLower`, `EqualNoCase`, `ToUpperHex`, `UnescapeToByteEx`), `buffer.ByteBuffer` (append),
  `encoding/binary` (16-bit big/little endian store and load: only that load inverts store is used), `strconv.FormatUint` (= decimal), `bytes.Index`/`IndexByte`. `net.ParseIP` and
  `IP.String` (IPv6) are an oracle: a parameter of the environment, theorems state what they need of it.
* The memory layout rules of the gc compiler (`unsafe.Sizeof`, alignment) in `Layout.v`. Unaligned access is allowed (amd64).
* That the model is the code: by reading. Transcription errors are what the citations, the mutation log, the witnesses and
  the repository's own unit tests are for: `RepoTests.v` (written by `tools/repotests.py` from the tables of the `_test.go` files) runs 444 rows of them on the model, on the value layer and on
  the memory layer, and every row agrees. They are tests of the model, not proofs: no claim of the manifest rests on them.

## What is modelled and what is not

Modelled: `AbnfBasic.go`, `AbnfCharset.go`, `AbnfMem.go`, `AbnfPtr.go`, `AbnfRef.go`, `AbnfContext.go` (the state), `SipHostPort.go`, `SipUri.go`, `UriParam.go`, `UriHeader.go`,
`TelUri.go`, `SipGenericParam.go`, `SipAddr.go`, `SipMethod*.go`, `SipVersion.go`, `SipStartLine.go`, all `SipHeader*.go`, `SipHeaders.go`, `SipHeadersInfo.go`, `SipMsg.go`,
`SipMsgBody.go` — parsing, encoding, storing and searching.

Simplifications, each also in the comment of the definition concerned:

* **Arena below 64 KiB.** An `AbnfPtr` is a `uint16`, so addresses wrap beyond that. The byte layer has the wrap (C06_large_arena_refuted); the value layer does not: its
  theorems are about arenas whose addresses do not wrap.
* **32 KiB tag.** The highest bit of an `AbnfPtr` marks a small number stored in the pointer itself (`IsAbnfPtr`), used for methods and versions. A string at an address of 32 KiB or more
  is taken for such a number by `SipMethod.Encode` and the version. The value layer represents a method as known index or string, as if addresses stayed below 32 KiB. So Encode in the memory layer needs less than 32 KiB in use, but only for values with an
  unregistered method, a version other than 2.0 or a Via protocol other than SIP/2.0 (Extension.v); all other values have no such word and Encode is right in every arena below 64 KiB. What is written otherwise: C69 (MemTag.v).
* **Parsers see only the rest of the input**, so that earlier input has no influence holds by construction (part of C31). No modelled Go function reads before its start position.
* A failed parse keeps position and memory; in the value layer the partly filled object is described for SipMsg (Left.v, C67), SipUri, TelUri, SipHostPort and SipStartLine (LeftUri.v, C68) and not for SipAddr and single headers (the caller gets an error); in the memory layer it is the bytes in the struct of the failed parse.
* `Scan.v`: slices whose capacity is their length. `Ref.v`: the negative slice length of `AllocCStringWithUnescapeNum` is modelled as an unchecked one.
* `X.Parse` = `X.Init` followed by `X.ParseWithoutInit`, `NewX` followed by it in `ParseSipX`: modelled by the parse of a fresh record; Init and New themselves are C47.

Not modelled: `String()` methods, printing and dumps, statistics getters, `CallerName*`, `Init.go` (`printSize`), `unsafe` casts (`AbnfSip.go` and `GetX` of `AbnfPtr`),
`IsCRLF2`. `AbnfSipHeader.go` and `SipMsg.CopyContentToSipMsgBody` are commented out in the source. `SipHeaderCallId.go` and `SipHeaderCallID.go` have the same bytes.
`commonBodies` of a message is never written by the library.

## Per-property plan

| id | what is modelled | how it is proved |
|----|------------------|------------------|
| C01 | class tables, all classifiers | sweep over the 256 bytes lifted by `forallb_forall` (the bound is part of the type of a byte); the deviating classes with their exact deviation |
| C02, C03 | ParseUInt family, loops with explicit `mod 2^64` | induction on the input; exact truncation law, refutation of the plain claim |
| C04 | EncodeUInt family, fixed width | induction on digits; round trip with C02 |
| C05–C08 | allocator, histories of operations | invariant by induction over operation lists; exact laws; refutations (wrap, large arena, FreePart prefix) |
| C09–C12 | byte-level ParseAndAlloc* | refinement to the value layer; exact outcome, also when memory runs short, including the exact crash condition |
| C13, C14 | escape and unescape | induction |
| C15 | twin functions | extensional equality by induction; exact difference where they differ |
| C16 | LWS/SWS | against a declarative grammar |
| C17, C18 | generated decision trees | checker on the finite tree, proved sound for all inputs by path analysis; exact panic set |
| C19 | end-of-header search | against a declarative notion of line |
| C20, C21 | SipHostPort | round trip; exact ranges; wrap refuted |
| C22, C23 | SipUri | round trip by induction on the lists; stability of re-encoding under an exact side condition |
| C24, C25 | TelUri | round trip, stability, exact set of crashing texts |
| C26, C27 | generic parameters, quoted strings | round trip; exact grammar of what a quoted string reads as |
| C28 | SipAddr | round trip |
| C29 | structured headers | round trip per header type |
| C30 | start lines | round trip |
| C31–C34 | every parser of the value layer | a predicate (`Good.v`, `Thrift.v`) closed under the combinators; exact divergence set; no crash on complete lines; arena size |
| C35 | raw header blocks | sound and complete against a declarative notion of block |
| C36, C37, C38 | Content-Length, bodies, multipart | exact law of the patching; round trip; refutations |
| C39, C44 | linked lists | pointer layer against list segments; exact effect of RemoveContentHeaders |
| C40 | comparison and search | induction; match at the very end refuted |
| C41 | ZeroMem, Memcpy | induction |
| C42, C43 | whole messages | round trip of messages without and with body; encode is idempotent |
| C45 | FindSipHeader1/2, ByteSliceIndexNoCase | against a declarative notion of header line; refutations |
| C46 | references and two-step parses | refinement to C09/C14; refutation of AllocCStringWithUnescape |
| C48 | parsers and encoders on the bytes of the arena | simulation of the value layer rule by rule, invariants for the list and table loops, frame lemmas for everything represented, induction over the history |
| C49 | histories of create/encode/free on one arena | one step of the memory layer simulates one step of independent values; invariant: live objects have disjoint footprints below the fill level; induction over the history |
| C47 | struct layouts, New, Init | generic lemma on layouts, sweep over the 40 types (finite list of the source) |
| C50 | parse, encode, parse again | what a parser returns is well-formed in the sense of the round trips once the recognised names are in the library's spelling (ParsedWf.v, ParsedMsg*.v); encoding does not depend on that spelling (RelEnc.v); then the round trips |
| C51, C52 | context.Errors: every parser again, returning its result and the errors it adds (Log.v) | predicate lgAt (same result as the parser without errors; no error on success; an error on failure, when claimed; positions inside the text) closed under the combinators, so that the proofs follow the parsers; C52 by cases on the part that fails |
| C53 | sequences of calls on one context | induction over the sequence from C51 |
| C54 | AbnfError.Write, AbnfErrors.Write (Errors.v) | slices partial as in Go; shown to be defined; induction over the list. The error's reference to the caller's source slice (so later changes of that slice by the caller) is not modelled |
| C55 | histories with re-use of structs: New, Parse again, setters, looks, Encode, FreeAll/FreePart (MemSession.v) | as C49, with an object's struct and the memory behind it released separately: invariant of disjoint footprints, one call of the bytes simulates one call of the values, induction over the history; C55_reuse and C55_setters by induction in the value layer |
| C56 | SipMsg.Parse with two settings of NeedParse (LessParsing.v); the tables of header descriptions as arrays of pointers into a heap (Config.v) | two runs in lockstep, header by header: what a parser of a header reads has, in clean text, every line feed followed by a blank (Tidy.v), so the raw scan ends on the same line; parsers do not depend on NeedParse or on the fill level (Shift.v). Tables: simulation of the heap by sheets of settings, induction over the history. Names in the descriptions and replacing single entries of a table are not modelled |
| C57 | the getters and searches on the arena's bytes (MemAsk.v), RemoveContentHeaders relinking the list in the arena (MemRemove.v), as further calls of the sessions of C55 | each getter reads from the bytes what the value says (MemAskProofs.v); RemoveContentHeaders keeps the invariant of the message (MemRemove.v); composed with the simulation of C55 and, for text in, answer out, with the round trips C22 and C28 |
| C58 | nothing new is modelled; grammars written as inductive relations, text × value × continuation, without reference to the parsers (GrammarSpec.v for hosts, URIs and telephone URIs, GrammarMsg.v for the rest) | a parser and a relation are `exact` if every answer is a reading and every reading is answered when memory does not run out (Exact.v); closed under sequencing, so each parser is shown exact from its parts (Exact.v, ExactUri.v, ExactMsg.v, ExactHead.v); finite arenas by C34; uniqueness of readings because parsers are functions |
| C59 | nothing new is modelled; the grammar of header names, fields, blocks, bodies and messages (GrammarWhole.v), and `collect`, which says from a list of fields alone what is stored | as C58; loops of the parsers are exact for the iteration of their steps (ExactWhole.v); header names by the exact specification of the generated lookup (ExactName.v, NameExact.v); the stored headers by induction over the fields from the left |
| C60 | nothing new is modelled; `ordinary` (FramingSpec.v) says what a header section must look like | the lines read by the parsers are tidy (Tidy.v, LessParsing.v), hence no line passes the first empty line: induction over the header loop (Framing.v); every grammar of C58 and C59 looks no farther than a line feed followed by a CR (Behind.v, induction over each grammar), and readings are unique (C59), so another body gives the same reading |
| C61 | nothing new is modelled: the memory counted by the value layer (`used`), which C48 ties to the arena | a potential argument: bytes in use plus nine for every unread byte; `nine` (Nine.v) bounds what a parser adds to the potential and what it needs beyond it, closed under the combinators (NineParse.v); `inside` (Inside.v): the arena is never overfull; the worst case is a Contact with many stars, by induction on their number |
| C62 | nothing new is modelled: the memory-level parsers and encoders of C48 and C49 | the theorems of C59 (readings), C48/C49 (the bytes follow the value layer), C61 (the room needed; the corner case of C48 does not occur), C33/C32 (no crash, no loop) and C50 (stability) are composed; Encode of a message that was read succeeds if the Content-Type of a message with several bodies names a boundary (`encodes`) |
| C63 | nothing new is modelled: the parsers and encoders under two sets of settings | a relation between two contexts (`blind`, Blind.v) is carried through every parser by the structure of the parsers; the encoders by unfolding; raw mode by induction over the loops over headers and parts (`sw_block`, `sw_multi`), and C56 for the comparison with the mode in which all headers are parsed |
| C64 | nothing new is modelled: `encMsg pre` and the histories of C49 | the digits that are filled in (at most 32) lie behind the buffer's contents because a start line and the Content-Length field with its ten columns come first; histories by induction with the invariant that stored messages have at most one Content-Length, then C49 |
| C65 | nothing new is modelled: the logged parsers of C51-C54; the fault is specified with the (exactly characterised, C55) parsers of names and values | every logged value parser's failure ends in an error that names its header (a closure property of the combinators); induction over the values of a header and over the headers; a fault makes the parse fail, so it is unique |
| C66 | nothing new is modelled: the logged parsers of C51-C54; faults are specified with the parsers of the parts | case analysis along the start line; induction over the parts of a multipart body; a fault makes the parse fail, so it is unique; headers of parts by C65 |
| C67 | the message after a failed parse (Left.v: the value; the byte programs are those of C48, which also run on after a failure) | the value layer: induction over the loops over values, headers and parts, with the faults of C65 and C66; the bytes: a simulation for failing parses (`simF`, MemLeft.v: the struct represents the value that is left, no other allocated byte changes) carried through start line (MemLine.v), headers and bodies; sessions (C55) go on with it |
| C68 | the URIs, host and start line after a failed parse (LeftUri.v, Left.v: the value; the byte programs are those of C48) | the value layer: case analysis along the parts, induction over the parameters in front of the fault, which are then read as the grammar of C58 says; the bytes: `simF` (MemLeftUri.v, MemLeftTel.v), a failed list of parameters leaves the table where the struct points; sessions (C55) go on with it |
| C69 | the words for a method, a version and a Via protocol at any address (MemTag.v), in the byte programs of MemStart.v and MemHdr.v | a second simulation that follows the one word through Parse (where the string is stored), joined with that of C48 by determinism; then Encode at every address below 64 KiB |
| C70 | encMsg / parseMsg of MsgEnc.v and Msg.v, the fields of a text by GrammarMsg.v (FieldsRead) | the exact grammar (ExactWhole.v) gives the fields; the table of header slots is compared with a literal list of names; induction over parts and fields |
