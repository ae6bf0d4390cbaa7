#!/usr/bin/env python3
# Regenerates /verif/properties.jsonl (one JSON object per line).
import json, os
P=[]
def p(title, statement, quantifier, why, *anchors):
    P.append(dict(id="C%02d"%(len(P)+1), title=title, statement=statement, quantifier=quantifier,
                  why_tests_cant=why, anchors=list(anchors)))

p("Character classes are the RFC 3261/3966 classes",
  "Every exported byte classifier (IsDigit, IsAlpha, IsSipToken, IsSipUser, IsSipQuotedText, IsTelVisualSperator, ...) answers true for exactly the bytes that the corresponding ABNF production of RFC 3261 / RFC 3966 allows; where the shipped table deviates, the deviation is exactly the stated set of bytes.",
  "every byte value and every character class in the table",
  "The classes are a 2x256 hand-generated bit table; existing tests probe a few characters per class.",
  "AbnfCharset.go: g_charsets, IsSipToken, IsSipUser, IsSipPassword, IsSipPname, IsTelPname, IsTelVisualSperator, ...")
p("Decimal parsing returns the number written, modulo the integer width",
  "Parsing an unsigned integer succeeds iff the input begins with a digit, consumes exactly the maximal digit run, and returns the value of that run reduced modulo 2^64 (ParseUInt) or truncated modulo 2^32 / 2^16 / 2^8 (ParseUInt32/16/8); it never reads past the end of the input.",
  "all inputs and start positions",
  "Unbounded digit strings, including those that overflow, cannot be enumerated.",
  "AbnfBasic.go: ParseUInt, ParseUInt_2, ParseUInt32, ParseUInt16, ParseUInt8")
p("Numeric header fields never silently change value",
  "A numeric field (CSeq, Max-Forwards, status code, Content-Length, Expires, ...) accepted by the parser has the value written on the wire (a number that does not fit is rejected).",
  "all digit strings",
  "The failing inputs are those beyond the integer width; tests only use small numbers.",
  "AbnfBasic.go: ParseUInt32, ParseUInt16, ParseUInt8","SipHeaderMaxForwards.go: ParseValue","SipStartLine.go: Parse")
p("Decimal encoding round-trips",
  "EncodeUInt/EncodeUInt32/WriteByteAsString write the canonical decimal representation (no leading zeros, '0' for zero) and parsing what was written returns the number with nothing left over; EncodeUIntWithWidth right-aligns the digits with leading blanks to the requested width and never truncates digits.",
  "all 64-bit (resp. 32-bit, 8-bit) numbers, all widths",
  "2^64 numbers times widths.",
  "AbnfBasic.go: EncodeUInt, EncodeUInt2, EncodeUIntWithWidth, EncodeUInt32, EncodeUInt32WithWidth","SipHostPort.go: WriteByteAsString")
p("Arena bookkeeping invariant",
  "After Init(capacity) and any sequence of Alloc/AllocWithClear/AllocEx/ClearAllocNum/FreeAll calls, Used() lies between 0 and Capacity(), Used()+Left()=Capacity(), and the allocation counters count exactly the calls and requested bytes; a failed allocation leaves Used() unchanged and returns nil.",
  "all capacities, all operation sequences and sizes",
  "Operation histories are unbounded.",
  "AbnfMem.go: MemAllocator, Init, Alloc, AllocWithClear, AllocEx, FreeAll, Used, Left, Capacity, AllocNum, AllocReqBytes")
p("Live allocations are disjoint",
  "Blocks returned by successful allocations (strings and structs) that have not been freed never overlap each other, lie within the arena and are never at the nil address, provided the arena is shorter than 65536 bytes (the pointer width); beyond that the returned 16-bit pointer wraps and two live blocks can share an address.",
  "all operation sequences, all capacities",
  "Depends on whole histories and on sizes near 2^16.",
  "AbnfMem.go: Alloc, AllocWithClear, AllocEx","AbnfPtr.go: AbnfPtr")
p("Allocation and string storing preserve earlier data",
  "Storing a string or allocating (and clearing) a block never changes the contents of any string stored earlier.",
  "all arenas, all sequences of stores",
  "Histories are unbounded.",
  "AbnfMem.go: AllocWithClear, AllocCString*, ParseAndAllocCString*")
p("FreePart releases exactly the tail",
  "FreePart(n) with n <= Used() makes Used() = n and keeps everything below; a call with n >= Used() changes nothing, in particular it never increases Used().",
  "all arena states and all n",
  "Boundary n in [Used, Used+8) is only reached by exact arithmetic.",
  "AbnfMem.go: FreePart")
p("A stored string reads back exactly",
  "When a string-storing parse (ParseAndAllocCString and variants) succeeds, the returned pointer denotes exactly the bytes of the maximal run of the requested class at the parse position (percent-decoded for the escapable variants), the parse position moves exactly past that run, and Used() grows by the string length plus 2 (reading back an empty quoted string stored at the very end of the arena is excepted).",
  "all inputs, positions, classes and arena states",
  "Inputs are unbounded.",
  "AbnfMem.go: ParseAndAllocCString, ParseAndAllocCStringEnableEmpty, ParseAndAllocCStringFromPos, ParseAndAllocCStringEscapable, ParseAndAllocCStringEscapableEnableEmpty", "AbnfPtr.go: Strlen, CString")
p("Failure of a string-storing parse is atomic",
  "When a string-storing parse fails, neither the parse position nor Used() nor any stored string changes.",
  "all inputs, positions, classes and arena states",
  "The failure points are as many as the inputs and capacities.",
  "AbnfMem.go: ParseAndAlloc*")
p("Arena exhaustion is reported, not crashed on",
  "A token too long for the remaining arena makes the parse fail with 'no mem'; the process does not panic. ",
  "all inputs and remaining capacities",
  "Only exact arithmetic on token length against remaining space reaches the boundary.",
  "AbnfMem.go: ParseAndAllocCString, ParseAndAllocSipQuotedString, AbnfError.go")
p("Results do not depend on stale arena contents",
  "Parsing into a recycled arena (after FreeAll) returns the same result, the same strings and the same positions as parsing into a fresh one: the outcome depends on the free space only, never on leftover bytes. The same for whole programs: any sequence of calls gives from a recycled arena what it gives from a new one.",
  "all inputs and all prior arena contents",
  "All previous histories of a recycled arena.",
  "AbnfMem.go: FreeAll, ParseAndAlloc*, AllocWithClear")
p("Percent-escape round-trip",
  "Escaping any byte string for a given character class and then decoding it with the corresponding escapable parse returns the original string and stops exactly at its end, for every following input that does not extend the run.",
  "all byte strings, all classes not containing '%', all suffixes",
  "Unbounded strings over 256 byte values.",
  "AbnfPtr.go: WriteCStringEscape","AbnfMem.go: ParseAndAllocCStringEscapable","AbnfBasic.go: Escape")
p("Malformed percent escapes are rejected",
  "The escapable parses fail iff the run contains a '%' that is not followed by two hex digits (or the result is empty when empty is not allowed), and never read outside the input.",
  "all inputs",
  "The position and shape of bad escapes are unbounded.",
  "AbnfMem.go: ParseAndAllocCStringEscapable","AbnfBasic.go: ParseEscapable","AbnfRef.go: ParseEscapable")
p("The interchangeable variants agree",
  "Function pairs documented as alternatives (ParseUInt/ParseUInt_2, ParseSWS/ParseSWS_2, ParseLWS/ParseLWS_2, ParseHcolon/ParseHcolon2, ParseSWSMark/_2, AbnfRef.ParseEscapable/2/3, ParseCRLF/ParseCRLF2, EncodeUInt/EncodeUInt2) give identical results on every input.",
  "all inputs and positions",
  "Equivalence over all inputs.",
  "AbnfBasic.go, AbnfRef.go: the listed functions")
p("Linear white space and folding",
  "ParseSWS always succeeds, consumes exactly an optional LWS ([*WSP CRLF] 1*WSP), and restores the position when a CRLF is not followed by white space; hence the parser never consumes the CRLF that ends a header line.",
  "all inputs",
  "All mixtures of blanks, CR, LF at all positions.",
  "AbnfBasic.go: ParseSWS, ParseLWS, eatWsp")
p("Method recognition",
  "The method recogniser returns the index of a method exactly when the input at the position is that (case-sensitive) method name followed by a non-token byte (or the end); otherwise 'unknown'. It never panics.",
  "all inputs",
  "All byte strings, including prefixes cut at any point.",
  "SipMethodIndex.go: GetSipMethodIndex","SipMethod.go: Parse, Encode")
p("Header-name recognition",
  "The header-name recogniser returns a header's index exactly when the input at the position spells that header name or its compact form, in any letter case, followed by a non-token byte or the end; otherwise 'unknown'. It never panics.",
  "all inputs",
  "A 2800-line generated decision tree: every path and every truncation point.",
  "SipHeadersIndex.go: GetSipHeaderIndex")
p("End-of-header search",
  "The header-line scanner finds the first line end that is not followed by white space (folding), returns the header value without the line terminator, and fails iff there is no such line end; it never reads past the end of the input.",
  "all inputs",
  "All mixtures of CR, LF and white space.",
  "AbnfBasic.go: FindCrlfByRFC3261","SipHeaders.go: parseRawHeaderValue")
p("Host and port round-trip",
  "Encoding a host (IPv4, IPv6 via net, or name) with optional port and parsing it returns the same host and port and stops at the end.",
  "all IPv4 addresses, all syntactically valid host names, all ports",
  "2^32 addresses x 2^16 ports x unbounded names.",
  "SipHostPort.go: Parse, ParseHost, ParsePort, Encode")
p("Port and IPv4 range checks",
  "A port above 65535 or an IPv4 component above 255 written in the input is never accepted as an in-range number.",
  "all digit strings",
  "Arbitrarily long digit strings (2^64 wrap-around).",
  "SipHostPort.go: parseIpv4, ParsePort")
p("SIP URI encode/parse round-trip",
  "Encoding any SIP URI value (arbitrary user/password bytes, host, port, parameters, headers) and parsing the result returns the same value and consumes exactly the encoding.",
  "all SIP URI values",
  "Unbounded structures with arbitrary bytes.",
  "SipUri.go: Parse, Encode","UriParam.go","UriHeader.go")
p("SIP URI re-encoding is stable",
  "If a URI text is accepted, encoding the result and parsing again gives the same URI (normal form reached after one step).",
  "all accepted texts",
  "All texts, e.g. headers with '=' at the end of input.",
  "SipUri.go: Parse, Encode","UriHeader.go: Parse, Encode")
p("Tel URI: visual separators removed, round-trip",
  "A parsed telephone number contains no visual separators and is the written number without them; encoding and reparsing a telephone URI returns the same URI; removing separators twice is the same as once.",
  "all texts and all tel URI values",
  "Unbounded numbers with separators anywhere.",
  "TelUri.go","AbnfMem.go: ParseAndAllocTelNumberRemoveVisualSeperator","AbnfPtr.go: RemoveTelUriVisualSeperator")
p("Tel URI parsing never crashes",
  "Parsing any telephone URI returns success or failure without panicking.",
  "all inputs",
  "Needs the one shape of parameter that crashes.",
  "TelUri.go: SetKnownParams / ParseParams")
p("Generic parameters round-trip",
  "A list of generic header parameters (token, quoted string or bracketed value) encodes to text that parses back to the same list.",
  "all well-formed parameter lists, any separator white space the encoder emits",
  "Unbounded lists and strings.",
  "SipGenericParam.go: Parse, Encode, ParseSipGenericParams, EncodeSipGenericParams")
p("Quoted strings round-trip",
  "The text inside a quoted string is preserved byte for byte by parse then encode.",
  "all quoted strings incl. folded ones",
  "Arbitrary contents including folding and escapes.",
  "AbnfMem.go: ParseAndAllocSipQuotedString","AbnfBasic.go: ParseAndCopyLWS")
p("Name-addr / addr-spec round-trip",
  "Encoding an address (optional display name, SIP or tel URI) and parsing it back yields the same address.",
  "all address values",
  "Unbounded structures.",
  "SipAddr.go: Parse, Encode")
p("Header values round-trip",
  "For each structured header (From, To, Via, Contact, Route, Record-Route, Path, Service-Route, P-Asserted-Identity, CSeq, RAck, RSeq, Expires, Max-Forwards, Content-Length, Content-Type, Content-Disposition, Call-ID) encoding a value and parsing the encoding gives the value back.",
  "all well-formed header values",
  "Unbounded structures.",
  "SipHeader*.go: ParseValueWithoutInit, EncodeValue")
p("Start line round-trip",
  "A request line (method, request URI, version) or status line (version, code, reason) encodes to a line that parses back to the same start line.",
  "all start lines",
  "Unbounded URIs and reason phrases.",
  "SipStartLine.go: Parse, Encode","SipVersion.go","SipMethod.go")
p("Parse position discipline",
  "Every parser leaves the parse position within the input, never moves it backwards, and its outcome depends only on the input from the start position on.",
  "all parsers, all inputs",
  "All inputs.",
  "all Parse functions")
p("Parsing terminates",
  "Every parse loop makes progress: parsing any message terminates (with a number of loop iterations bounded by the input length).",
  "all inputs",
  "Non-termination cannot be observed by finite tests.",
  "UriParam.go, SipGenericParam.go, SipHeaders.go, SipMsg.go: loops")
p("Parsing never crashes",
  "Parsing any byte string returns success or failure and never panics (given a large enough arena).",
  "all inputs",
  "Every truncation of every construct.",
  "SipMsg.go: Parse and everything below")
p("Enough memory: results do not depend on the arena size",
  "If parsing succeeds or fails for a reason other than memory in some arena, then it gives the same result in every larger arena.",
  "all inputs, all capacities",
  "Two unbounded dimensions.",
  "AbnfMem.go and all parsers")
p("Header block: order and multiplicity preserved",
  "Parsing a header block in raw mode and encoding it keeps every header, in order, with its value.",
  "all header blocks",
  "Unbounded lists.",
  "SipHeaders.go: ParseHeaders, EncodeRawHeaders, appendUnknownSipHeader, FindKnownRawHeaderByIndex, FindUnknownRawHeaderByName")
p("Content-Length equals body length on encode",
  "In the encoding of a message with a body the Content-Length header states exactly the number of body bytes that follow the empty line.",
  "all messages",
  "Depends on the relation between the stale parsed length and the real one.",
  "SipMsg.go: Encode","SipHeaderContentLength.go: EncodeValue")
p("Body extraction",
  "The single body parsed from a message is the min(Content-Length, available) bytes after the empty line.",
  "all messages",
  "All lengths.",
  "SipMsg.go: ParseSingleBody")
p("Multipart splitting inverts multipart encoding",
  "Encoding a message with several bodies under a boundary that occurs in none of them and parsing yields the same bodies.",
  "all body lists and boundaries",
  "Unbounded lists.",
  "SipMsg.go: EncodeMultiBody, ParseMultiBody")
p("Removing content headers keeps the others",
  "RemoveContentHeaders removes exactly the Content-* headers and keeps every other header in order.",
  "all header lists",
  "Unbounded lists with every interleaving of kept/removed headers.",
  "SipMsg.go: RemoveContentHeaders")
p("Case-insensitive comparison",
  "EqualNoCase comparisons of stored strings (and HasPrefixNoCase, ByteSliceIndexNoCase, FindSipHeader) agree with byte-wise comparison after ASCII lower-casing.",
  "all string pairs",
  "Unbounded strings; chunked comparison.",
  "AbnfPtr.go: CStringEqualNoCase, HasPrefixNoCase","SipMsg.go: ByteSliceIndexNoCase, FindSipHeader1, FindSipHeader2")
p("Memory primitives",
  "ZeroMem/ZeroByteSlice zero exactly the given range and Memcpy copies exactly the given range.",
  "all ranges and contents",
  "Chunked loops, all lengths modulo the chunk size.",
  "AbnfBasic.go: ZeroMem, ZeroByteSlice, ZeroByteSlice2, Memcpy")
p("Whole message round-trip",
  "Encoding a message without body or with one body and parsing the text gives the start line, the headers (with Content-Length set to the body length) and the body back.",
  "all well-formed messages with fewer than two bodies, all sufficiently large arenas",
  "Unbounded header lists and bodies, all arena sizes.",
  "SipMsg.go: Parse, Encode","SipHeaders.go: EncodeRawHeaders, EncodeSingleValueHeaders")
p("Encoding again changes nothing",
  "Encoding a message a second time, after the Content-Length fix-up of the first time, writes the same text and allocates no memory.",
  "all messages",
  "The first encoding updates the stored message; all header lists and bodies.",
  "SipMsg.go: Encode")
p("Linked lists of headers",
  "Setting headers one after another, or reading a raw header block, links all of them in that order and touches no other node; a lookup returns the first header with the index, and writing the list writes every header in order.",
  "all heaps and all lists of distinct new headers",
  "Unbounded lists, all placements of the nodes in the arena.",
  "SipHeaders.go: appendUnknownSipHeader, ParseRawHeaders, FindKnownRawHeaderByIndex, EncodeRawHeaders","SipMsg.go: SetHeaders, GetHeaderByIndex","SipHeader*.go: Append*Value")
p("Searching headers in the text",
  "FindSipHeader1 writes all values of the header (or of its compact form), joined by commas, and reports whether there is one; FindSipHeader2 finds the first line with the header or its short name and reports false if there is none.",
  "all texts and header names",
  "Unbounded texts; every arrangement of header lines.",
  "SipMsg.go: FindSipHeader1, FindSipHeader2, ByteSliceIndexNoCase")
p("References into the input and the two-step string parses",
  "Parsing a reference takes exactly the longest run of allowed bytes and copies nothing; unescaping a reference into the arena stores exactly the decoded bytes when it is given the number of escapes in it, and fails without a change when memory is short. AllocCStringWithUnescape gives memory back that was not its own.",
  "all inputs, character classes, references and arenas",
  "Unbounded strings and every arena fill level.",
  "AbnfRef.go: AbnfRef.Parse, ParseEscapable, AllocCStringWithUnescape, AllocCStringWithUnescapeNum","AbnfBasic.go: ParseAndAllocSipToken, ParseEscapable2")
p("Objects in the arena: layout, New and Init",
  "The fields of every object type lie inside it and do not overlap; New returns an all-zero object in fresh memory and Init makes a used object all-zero and touches nothing else. The exception is Via, whose Init leaves its last two bytes, the link to the next header, as they were.",
  "all object types and all arena contents",
  "All contents of re-used memory; every type.",
  "SipHeader*.go: Init, New*, Sizeof*","SipUri.go: Init, NewSipUri","SipAddr.go: Init","SipHostPort.go: Init")
p("Parsed objects in the arena stay what was parsed",
  "Parsing into a struct in the arena has the outcome of the abstract parse, leaves bytes that represent exactly the parsed value and changes no other allocated byte; whatever sequence of further parses runs in the same arena, encoding the object afterwards still writes the encoding of that value.",
  "all inputs, all arena contents (below 64 KB), all lengths of history",
  "Every layout of objects in the arena, every fill level, unbounded sequences of parses sharing the memory.",
  "SipUri.go: SipUri.Parse, Encode","SipHostPort.go: Parse, Encode","UriParam.go: ParseUriParamsEx, EncodeUriParams","UriHeader.go: ParseUriHeaders","TelUri.go: TelUri.Parse, Encode","SipGenericParam.go: ParseSipGenericParams","SipAddr.go: SipAddr.Parse, Encode","SipStartLine.go: SipStartLine.Parse, Encode","SipHeaderFrom.go ... SipHeaderCallID.go: Parse, Encode, ParseSipFrom ...","AbnfPtr.go: GetCString, WriteCString","AbnfAlloc.go: AllocWithClear","SipMsg.go: SipMsg.Parse, SipMsg.Encode, ParseSingleBody, ParseMultiBody","SipHeaders.go: ParseHeaders, ParseRawHeaders")
p("Any history of operations on one arena behaves as on separate values",
  "Take any sequence of: creating an object from a text (URI, address, start line, header, raw header list, message), encoding an object created earlier (which for a message may add a Content-Length header to it), FreeAll and FreePart, on one arena whatever bytes it contains. What the caller sees, that is success or failure, what is left of the text, the text written by Encode and the amount of memory in use after each step, is what results when every object is an independent value; objects whose memory FreeAll or FreePart gave back are excluded.",
  "all sequences of operations of any length, all texts, all arena sizes below 64 KB and contents",
  "Unbounded interleavings of creations, encodings and releases; aliasing between objects shows only in particular combinations.",
  "SipMsg.go: SipMsg.Parse, SipMsg.Encode","SipMsgBody.go: SipMsgBody","SipHeaders.go: ParseRawHeaders, ParseHeaders","SipUri.go: SipUri.Parse, Encode","SipAddr.go: SipAddr.Parse, Encode","SipStartLine.go: SipStartLine.Parse, Encode","AbnfMem.go: FreeAll, FreePart")
p("What was read is stable: encode and read again",
  "Take any text the parser accepts, as a generic parameter list, an address, a start line, a structured header or a whole message with no body, one body or several, whose values can be written again (listed below). Encoding what was read gives a text (followed by whatever may follow) that is accepted again; what comes back is the same value, up to the letter case of the recognised parameter names and up to what the encoder fills in (angle brackets, Content-Length, MIME-Version, lengths of parts), and encoding that gives the same text again, byte for byte. Excluded: quoted text with a folded line, a URI header without value, a telephone request URI, a Via version that only looks like SIP/2.0, a Contact display name starting with '*', a raw header with empty value or without a name, '@' behind an unbracketed host, a stated length with more digits than the real one, a multipart type with fewer than two parts.",
  "all inputs, all settings of the context, all arenas and amounts of memory in use",
  "The parser accepts many spellings of each value (folding, white space, compact names, escapes, letter case); stability has to hold for every accepted text.",
  "SipMsg.go: SipMsg.Parse, SipMsg.Encode","SipHeaders.go: ParseHeaders, EncodeRawHeaders","SipMsgBody.go: Encode","SipAddr.go: Parse, Encode","SipStartLine.go: Parse, Encode","SipGenericParam.go: ParseSipGenericParams, EncodeSipGenericParams","SipHeader*.go: Parse, Encode")
p("Errors tells whether a parse failed",
  "A parse never reads context.Errors: result, position and memory do not depend on it. A call that succeeds adds no error; a call that fails adds at least one, keeps all older ones, and every added error carries the text being parsed and a position between the start of the parse and the end of the text. Exceptions, which may fail without a word: TelUri.Parse when the text does not begin with 'tel:', SipAddr/SipNameAddr/SipAddrSpec.Parse of a scheme other than sip, sips, tel, and ParseHeaders/ParseRawHeaders called directly. SipMsg.Encode adds errors exactly when it fails.",
  "all inputs, start positions, contexts with any older errors, all amounts of memory, all parsing calls",
  "Every failing path of every parser has to report; a path without AddError shows only on the input that takes it.",
  "AbnfError.go: AbnfError, AbnfErrors.Add","AbnfContext.go: AddError, Errors","SipMsg.go: Parse, Encode","SipHeaders.go: ParseHeaders, ParseRawHeaders","SipUri.go: Parse","TelUri.go: Parse","SipAddr.go: Parse","SipHostPort.go: Parse","SipStartLine.go: Parse","SipHeader*.go: Parse")
p("The newest error names the part of the message that is wrong",
  "When SipMsg.Parse fails, exactly one of start line, missing headers, headers, body is the part that failed; the newest error has the description of that part and its position is the position where the parse stopped.",
  "all inputs on which SipMsg.Parse fails without a panic, all contexts",
  "All malformed messages.",
  "SipMsg.go: SipMsg.Parse, parseMsgBody","AbnfContext.go: AddError")
p("Errors over a session",
  "Over any sequence of parses on one context no error is lost; with calls that report (C51) there is at least one error per failed call, and a context that started without errors has Errors.Len() == 0 at the end exactly when every call succeeded.",
  "all sequences of calls of any length with any inputs",
  "Unbounded sequences of calls.",
  "AbnfContext.go: AddError, Errors","AbnfError.go: AbnfErrors.Add, Len")
p("Rendering of errors",
  "AbnfError.Write never goes out of range, whatever position is stored: inside the text it shows description, position in decimal and the next at most 40 bytes (fewer only at the end of the text), otherwise the description alone. AbnfErrors.Write shows all errors, newest first, numbered from 1.",
  "all errors with all positions and texts, all lists of errors",
  "Every position relative to the end of the text; unbounded lists.",
  "AbnfError.go: AbnfError.Write, AbnfErrors.Write, String")
p("Using objects again",
  "A program may make structs with NewX, Parse into the same struct as often as it likes, call the setters of SipHostPort and SipUri, Encode, and give memory back with FreeAll and FreePart, also memory behind a struct it keeps. Every call then answers what the values say: a second Parse leaves nothing of the first, a setter replaces exactly what it sets, FreePart harms no object that lies below; in the loop FreePart, Parse, Encode on one struct every round depends on its own text only and uses the same memory, for ever. Exception: SetIpv4 / SetIpv6 with a net.IP shorter than 4 / 16 bytes leave memory contents in the address.",
  "all sequences of these calls, all texts, all setter arguments, all arenas below 64 KB with any contents, any number of rounds",
  "Unbounded sequences of calls and all interleavings of re-use and release; what memory contained before must never show.",
  "SipMsg.go: NewSipMsg, SipMsg.Parse, SipMsg.Encode","SipHostPort.go: SipHostPort.Parse, SetPort, SetIpv4, SetIpv6, SetHostname, IsIpv4, IsIpv6, IsHostname, HasPort, GetPort, Encode","SipUri.go: SipUri.Parse, SetSipUri, SetSipsUri, IsSipsUri","AbnfMem.go: MemAllocator.FreeAll, FreePart")
p("Which headers are parsed",
  "Clearing NeedParse of headers in context.SipHeaders only makes parsing leave them as written: a message that is parsed is still parsed, with the same start line, bodies and end position; the headers parsed in both settings have the same values; a header no longer parsed is found among the unparsed headers exactly when it was there, and these are otherwise the same in the same order. (Needs an empty line after the headers, no escaped line feed, and brackets closed before the line ends; each is shown to be needed.) Settings are per table: after context.SipHeaders = context.SipHeaders.Clone() (or a clone of another context's table) nothing done through other contexts changes what this context parses, and nothing done through it changes the others. Without Clone all contexts share the table of the package: clearing NeedParse through one clears it for all, also for contexts made later. With NeedParse of a content header cleared, ParseSipHeaderAsRaw (and for Content-Length and Content-Disposition any multipart body) stores an unparsed header where a parsed one is expected; in all other cases what is stored has the right kind.",
  "all inputs, all pairs of settings of which one parses fewer headers, all histories of making contexts, cloning and copying tables and setting NeedParse through them",
  "All messages times all subsets of headers; unbounded histories with sharing of descriptions between contexts.",
  "AbnfContext.go: NewContext, Context.SipHeaders","SipHeadersInfo.go: SipHeaderInfo.Clone, SipHeaderInfos.Clone, g_SipHeaderInfos","SipHeaders.go: parseKnownHeader","SipMsg.go: SipMsg.NeedParse, SipMsg.SetHeaders","SipMsgBody.go: SipMsgBody.NeedParse, SipMsgBody.SetHeaders")
p("Reading and changing parsed objects",
  "The getters answer for what was parsed, and go on doing so whatever happens to other objects as long as the memory is not given back: IsSipUri, IsSipsUri, user, password, IsIpv4, IsIpv6, IsHostname, HasPort, GetPort of a URI; GetUriParamByName finds the first parameter with that name in any case of letters among those not stored apart (with ParseSetSipUriKnownParam the known ones are stored apart and not found); GetHeaderByIndex finds the parsed header whose values are in a line of what Encode writes, else the first unparsed header with that index, else nothing; HasMultiBody. SetPort, SetSipUri and SetSipsUri change exactly the port or scheme, RemoveContentHeaders exactly what C39 says, and getters and Encode then agree with the change. Encode changes no answer except Content-Length (and Content-Type with several bodies); the Content-Length then found is not the one in the text but the number before. hasDisplayName answers the opposite of what its name says.",
  "all well-formed URIs and addresses, all messages that are parsed, all questions, all sequences of calls in between, all arenas below 64 KB with any contents",
  "All objects times all questions times all histories in between; memory contents of earlier use must never show in an answer.",
  "SipUri.go: SipUri.IsSipUri, IsSipsUri, SetSipUri, SetSipsUri","SipAddr.go: SipAddr.hasDisplayName, IsSipUri, IsSipsUri","SipHostPort.go: IsIpv4, IsIpv6, IsHostname, HasPort, GetPort, SetPort","UriParam.go: GetUriParamByName","SipHeaders.go: FindKnownRawHeaderByIndex, FindUnknownRawHeaderByName","SipMsg.go: SipMsg.GetHeaderByIndex, HasMultiBody, RemoveContentHeaders")
p("Exactly the grammar is accepted",
  "Hosts and ports, SIP and telephone URIs, addresses, generic parameters, start lines, the values of all eighteen structured headers and whole header lines are accepted exactly when the text at the current position starts with a reading of a written grammar (productions over the character classes of RFC 3261, with the places where the library departs from the RFC spelt out: numbers modulo the word size, white space inside values, a CR for the dash in Record-Route, Service-Route and P-Asserted-Identity, 'l' for Content-Type, VT in reason phrases). What the parser stores and where it stops are those of the reading, and no text has two readings. In an arena that runs out of memory answers are still readings, except that the table of recognised parameters may be missing.",
  "all inputs, all positions, all settings, all fill levels of the arena; the converse for arenas with room in proportion to the input",
  "Soundness and completeness range over every byte string and every continuation behind the text; a test can only sample accepted and rejected strings.",
  "SipHostPort.go: SipHostPort.Parse","SipUri.go: SipUri.Parse","TelUri.go: TelUri.Parse","SipAddr.go: SipAddr.Parse","SipGenericParam.go: SipGenericParams.Parse","SipStartLine.go: SipStartLine.Parse","SipHeaderFrom.go: SipHeaderFrom.Parse","SipHeaderVia.go: SipHeaderVia.Parse","SipHeaderContact.go: SipHeaderContact.Parse","SipHeaderRecordRoute.go: parseHeaderName","SipHeaderCallID.go: SipHeaderCallID.Parse","SipHeaderContentType.go: SipHeaderContentType.Parse")
p("Whole messages: exactly the grammar",
  "A message is accepted exactly when the text at the current position starts with a start line, header fields up to an empty line or the end of the input, and the bodies its headers announce, each read as a written grammar says; likewise blocks of headers (ParseHeaders, ParseRawHeaders) and header names. Stored are: for each header read into values those of all its fields if there may be several, else those of the last field; the other fields in their order as they are written, with the number the library has for the name, or the name. A multipart message is split at the first occurrence of the delimiter in what follows the headers of a part. No text has two readings. The grammar spells out where the library departs from the RFCs: the four misspelt header names, a CR inside 'in', 'p', 'priv' and 'refer' names, a line feed alone at the end of unparsed headers, headers that end with the input, a pair of bytes with one dash as the end of a multipart body, a single body cut off where the input ends and left unread.",
  "all inputs, all positions, all settings, all fill levels of the arena; the converse for arenas with room in proportion to the input",
  "Soundness and completeness range over every byte string, every list of header fields and bodies of any number, and every continuation; a test samples a few messages.",
  "SipMsg.go: SipMsg.Parse, SipMsg.ParseMsgBody, SipMsg.ParseSingleBody, SipMsg.ParseMultiBody, SipMsg.SetHeaders","SipMsgBody.go: SipMsgBody.SetHeaders","SipHeaders.go: ParseHeaders, ParseRawHeaders, ParseHeaderName, parseKnownHeader, parseUnknownHeader")
p("Framing: the header section ends at the first empty line",
  "In a message whose header section is ordinary - every line ends with CRLF, and where a \"[\" is not closed before the end of its line the line is continued - and is followed by the first empty line, what is accepted as start line and header fields is exactly the text up to and including that empty line, and the bodies are read from the text behind it. The body has no influence on how the header section is read: two accepted messages with the same header section have the same start line and headers; without a Content-Type, or with one that is not multipart, any other body is accepted as well. Without the two conditions this is false: an open \"[\" in a header parameter swallows the empty line and text of the body is read as headers; a line ended by a bare LF followed by CRLF ends the headers early.",
  "all accepted messages with an ordinary header section, all bodies, all settings, all fill levels of the arena (the comparison of two bodies with room in proportion to the input)",
  "It ranges over all header sections and all pairs of bodies; a test cannot show that no body ever changes how the headers in front of it are read.",
  "SipMsg.go: SipMsg.Parse","SipHeaders.go: ParseHeaders, parseKnownHeader, parseUnknownHeader, FindCrlfByRFC3261","SipGenericParam.go: SipGenericParam.ParseValue","AbnfBasic.go: ParseLWS")
p("Memory: nine bytes per byte",
  "An accepted message takes at most nine bytes of the arena for every byte of the text it was read from; an accepted URI, address, start line, header or block of headers at most nine for every byte that was read (nine more for a Contact in a message). However a parse ends, the arena is not overfull, and at most nine bytes for every byte of the input and 57 more were taken; an arena with that much room never makes a difference. So for texts of up to 7200 bytes an arena of 65535 bytes with at most 600 in use is as good as an unlimited one. The factor cannot be improved: for every smaller factor and every constant there is a message that an unlimited arena accepts and all arenas within that bound refuse.",
  "all inputs, all positions, all settings, all sizes and fill levels of the arena, all ways a parse can end",
  "The bound and its tightness range over inputs of every length; the worst case (many one-byte values) need not be among the messages a test uses.",
  "AbnfMem.go: MemAllocator.Alloc, MemAllocator.ParseAndAllocCString","SipMsg.go: SipMsg.Parse","SipHeaders.go: ParseHeaders, parseKnownHeader","SipHeaderContact.go: NewSipHeaderContact","SipUri.go: SipUri.Parse")
p("End to end: from the text to the bytes of the arena and back",
  "In one arena of bytes with nine free bytes for every byte of the text (plus a constant), creating a message and parsing a text into it succeeds exactly when the written grammar reads the text, leaves exactly the text the grammar leaves, changes no other allocated byte, and the bytes of the new object are the message that the grammar says was read; likewise for SIP and tel URIs, addresses, start lines, headers and blocks of raw headers; on other texts made of lines it returns an error. Encoding the object then writes the encoding of that message. If the values can be written again (as in C50), reading a message, writing it, reading the text that was written into a second object in the same arena and writing both objects again gives the same text each time.",
  "all inputs, all contents and fill levels of an arena below 64 KB (Encode of a value with an unregistered method, a version other than 2.0 or a Via protocol other than SIP/2.0: with less than 32 KB in use), all settings",
  "It joins three statements that each range over all inputs (which texts are read, which bytes they become, what is written); a test observes single texts in single arenas.",
  "SipMsg.go: NewSipMsg, SipMsg.Parse, SipMsg.Encode","SipHeaders.go: ParseHeaders, ParseRawHeaders","AbnfMem.go: MemAllocator.Alloc","SipUri.go: SipUri.Parse, SipUri.Encode","TelUri.go: TelUri.Parse, TelUri.Encode","SipAddr.go: SipAddr.Parse","SipStartLine.go: SipStartLine.Parse")
p("Settings: which ones matter where, and raw mode",
  "Parsing does not depend on the settings for Encode, and encoding does not depend on the settings for parsing: with any others every parser gives the same result at the same position with the same memory, and every encoder writes the same text. The choice of headers (ParseSipHeaderAsRaw, NeedParse) matters to blocks of headers only; what is written depends on EncodeUriAsNameSpace, EncodeUriNoEscape, net.IP.String and, for status lines, EncodeReasonPhraseNoEscape only (EncodeHeaderShorName has no effect). Raw mode is the same as clearing NeedParse of every header, as long as no part of a multipart body has a Content-Type: it accepts every message made of lines that is accepted without it, with the same start line, bodies and position; the three content headers have the same values, the other headers are kept as written in their order. With a Content-Type in a part this is false: raw mode reads it, may refuse the message for it, and Encode leaves it out.",
  "all inputs, all positions, all fill levels of the arena, all pairs of settings, all values",
  "It compares the program under all pairs of settings on all inputs; a test runs a few combinations of the thirteen flags.",
  "AbnfContext.go: Context, NewContext","SipMsg.go: SipMsg.NeedParse, SipMsg.Parse, SipMsg.Encode","SipMsgBody.go: SipMsgBody.NeedParse","SipAddr.go: SipAddr.Encode","SipStartLine.go: SipStartLine.EncodeStatusLine","UriParam.go: UriParam.Encode","SipHeaders.go: parseKnownHeader")
p("Encode appends to the caller's buffer",
  "Encode of a message writes behind what the buffer holds exactly what it writes into an empty buffer, although it goes back to fill in the Content-Length at a position counted from the start of the buffer; it leaves the same message behind, takes the same memory, and fails in the same cases. In any program that creates objects, frees memory and encodes objects into buffers with any contents, each text is the contents of its buffer followed by what the program with empty buffers writes at that point, and everything else the caller sees is the same.",
  "all messages with at most one Content-Length (in particular all that were read), all buffer contents, all settings and fill levels of the arena; all histories of operations",
  "It ranges over all buffer contents and all histories; a test encodes into an empty buffer.",
  "SipMsg.go: SipMsg.Encode","SipHeaderContentLength.go: SipHeaderContentLength.EncodeValue","Abnf.go: AbnfEncoder")
p("When a header is wrong, the errors name it",
  "If SipMsg.Parse stops in the headers, exactly one header is at fault, in exactly one way: its name, one of its values, the end of its line, or (for a header kept as text) its line. The newest error says that the headers are wrong; for a wrong name or value the error before it says so, at the same position, and for a value it names the header; these texts tell all headers apart except that Max-Forwards and Content-Length are reported as CSeq. For a line that does not end nothing else is said, or only that the end was reached before a comma. (One would expect each header to be reported under its own name, and every fault to be reported.)",
  "all texts, all starting positions, all settings, all fill levels of the arena, all earlier contents of Errors",
  "Which of the many error texts comes out depends on where in an unbounded text the parser stops; a test looks at one wrong text at a time.",
  "SipMsg.go: SipMsg.Parse","SipHeaders.go: ParseHeaders, parseKnownHeader, parseUnknownHeader, ParseHeaderName","AbnfContext.go: Context.AddError","SipHeaderMaxForwards.go: SipHeaderMaxForwards.ParseValueWithoutInit","SipHeaderContentLength.go: SipHeaderContentLength.ParseValueWithoutInit")
p("When the start line or the body is wrong, the errors name the part",
  "If SipMsg.Parse stops in the start line, exactly one part of the line is wrong and the parts before it can be read; the error before the newest names that part and stands where the parse stopped, except that a wrong Request-URI is reported as a wrong method, and a missing space behind the status code as one behind the version; otherwise different parts have different texts. If it stops in the body there is exactly one fault (no boundary, no first delimiter, a delimiter with nothing or one byte behind it, no line end behind it, a wrong header in a part, no delimiter behind a part, no memory), and the error before the newest names it, except that nothing is said when the input ends right behind a delimiter; for a wrong header of a part the error before that names the header as for the message's own. (One would expect every part to be reported under its own name.)",
  "all texts, all starting positions, all settings, all fill levels of the arena, all earlier contents of Errors",
  "Which of the many error texts comes out depends on where in an unbounded text the parser stops; a test looks at one wrong text at a time.",
  "SipMsg.go: SipMsg.Parse, SipMsg.ParseMsgBody, SipMsg.ParseSingleBody, SipMsg.ParseMultiBody","SipStartLine.go: SipStartLine.ParseRequestLine, SipStartLine.ParseStatusLineAfterVersionStart","AbnfContext.go: Context.AddError")
p("What a failed SipMsg.Parse leaves in the message",
  "When SipMsg.Parse fails, the message holds exactly this: a start line that could be read, or else a status line with the version, code and reason that were read of a status line (of a wrong request line no more than the version; method and URI are gone); every header in front of the wrong one, and of the wrong one the values in front of the fault if it may have several, otherwise nothing of it; of a wrong multipart body the complete parts, of another body nothing. Nothing is left of what the struct held before. On the bytes of the arena: if the arena is not full and less than 32 KB of it is in use, the exported functions then answer for that message, and Encode writes its text or fails; it does not crash.",
  "all texts, all settings, all fill levels of the arena, all questions and encodings afterwards",
  "The struct left behind depends on where in an unbounded text the parse stopped and on every pointer written before; a test looks at one wrong text, and seldom at the object after the error.",
  "SipMsg.go: SipMsg.Parse, SipMsg.Init, SipMsg.ParseMsgBody, SipMsg.ParseMultiBody, SipMsg.Encode","SipStartLine.go: SipStartLine.Parse, SipStartLine.ParseRequestLine, SipStartLine.ParseStatusLineAfterVersionStart","SipHeaders.go: SipHeaders.ParseHeaders, parseKnownHeader, parseUnknownHeader","SipVersion.go: SipVersion.Parse")
p("What a failed Parse leaves in a SIP URI, a TEL URI, a host or a start line",
  "When SipUri.Parse fails, the URI holds exactly the parts in front of the fault and nothing of what it held before: its scheme; the user, if something follows it, and the password, if it could be read; of a wrong host nothing, of a wrong port the host; of a wrong parameter list the table of recognised parameters as it was in front of the wrong parameter (the last one with each name) but none of the other parameters; of a wrong header list everything but the headers. Likewise TelUri.Parse (the number; of a wrong parameter list the context and the table of recognised parameters as they were in front of the wrong one), SipHostPort.Parse (the host, if only the port is wrong) and SipStartLine.Parse (a status line with what was read of it). On the bytes of the arena, if it is not full: Encode writes, and the getters answer for, exactly that object, and the program may go on setting fields of it; a missing host is written as 'unknown host'.",
  "all texts, all settings, all fill levels of the arena, all questions and encodings afterwards",
  "The object after an error depends on where in an unbounded text the parse stopped, how many parameters came before it and every pointer written until then; tests look at the error, not at the object.",
  "SipUri.go: SipUri.Parse, SipUri.ParseAfterSchemeWithoutInit, SipUri.SetKnownParams, SipUri.Encode","TelUri.go: TelUri.Parse, TelUri.ParseAfterSchemeWithoutInit, TelUri.SetKnownParams, TelUri.Encode","SipHostPort.go: SipHostPort.Parse, SipHostPort.Encode","SipStartLine.go: SipStartLine.Parse, SipStartLine.Encode","UriParam.go: ParseUriParamsEx")
p("Beyond half of the arena: what a start line and a Via, CSeq or RAck header is written as",
  "Create a start line or a Via, CSeq or RAck header anywhere in an arena below 64 KB and encode it: the text written is exactly known from the value and the place of its strings. An unregistered method whose name is stored below address 32768 is written as read; stored at 32768 + i it is written as the i-th registered method, and Encode crashes from 32782 on. A version other than 2.0 (a protocol other than SIP/2.0) stored from 32768 on is written as SIP/2.0. So a CSeq or RAck header with an unregistered method is written as read exactly if its name is stored below 32768 (or is UKNOWN, stored at 32768). (One would expect the text that was read, wherever it is stored: refuted.)",
  "all texts that parse, all contents and fill levels of an arena below 64 KB, all settings",
  "The text written depends on the address at which a string happens to be stored, that is on everything that was parsed before in the same arena; a test uses small arenas.",
  "AbnfPtr.go: AbnfPtr.IsAbnfPtr, AbnfPtr.GetValue","SipMethod.go: SipMethod.Encode, SipMethod.Parse","SipVersion.go: SipVersion.Encode","SipHeaderVia.go: SipHeaderVia.EncodeValue","SipStartLine.go: SipStartLine.Encode")
p("How a message is written: lines, names, order",
  "A message that SipMsg.Parse read and SipMsg.Encode writes (with the same or other settings, behind whatever is in the buffer) is written as: its start line; one line for each header it has, with the full name, all its values (of all the fields it came in) joined by a comma, in the order Via, Route, Contact, From, To, Call-ID, Content-Length (always written), CSeq, Record-Route, Content-Type, Max-Forwards, Content-Disposition, Expires, Path, Service-Route, RSeq, RAck, P-Asserted-Identity, whatever the order they came in; then the fields kept as they were written, in the order they came in, an unknown one under its own name, a known one under its registered name; MIME-Version: 1.0 if there are two or more bodies and no such field; an empty line; the body, or the parts between their delimiters, of each part its Content-Length (if it had one, with the length of its data), its Content-Disposition, its other fields in order, an empty line and its data. The number in Content-Length is that of the message if it has no body, else the length of what follows the empty line, if that length has no more digits than the field leaves room for (C36). Texts below 4 GB.",
  "all texts that are messages, any number and order of headers, values, parts, all settings and contents of the buffer",
  "Which line is written where depends on the whole list of fields, of unbounded length and in any order; a test shows one message.",
  "SipMsg.go: SipMsg.Encode, SipMsg.EncodeHeaders, SipMsg.EncodeSingleMsgBody, SipMsg.EncodeMultiMsgBody","SipMsgBody.go: SipMsgBody.Encode, SipMsgBody.EncodeHeaders","SipHeaders.go: EncodeRawHeaders")
# Restated to what the code does for every input; the plain expectation and its counterexamples are named in the statement.
def fix(i, title, statement):
    x=P[int(i[1:])-1]; assert x["id"]==i
    if title: x["title"]=title
    x["statement"]=statement
fix("C03","Numeric fields are read modulo their width",
  "A numeric field (CSeq, RAck, RSeq, Max-Forwards, status code, Content-Length, Expires, ...) is accepted iff it starts with a digit; its value is that of the whole digit run reduced modulo the width of the field (2^8 for Max-Forwards, 2^16 for status codes, 2^32 otherwise). So it equals the number written iff that number fits. (One would expect a number that does not fit to be rejected; it is not, e.g. 'Max-Forwards: 326' is read as 70.)")
fix("C05",None,
  "For an arena below 64 KiB and requests below 2^31: after Init(capacity) and any sequence of Alloc/AllocWithClear/AllocEx/ClearAllocNum/FreeAll calls, Used() lies between 0 and Capacity(), Used()+Left()=Capacity(), and the allocation counters count exactly the calls and requested bytes modulo 2^32; a failed allocation leaves Used() unchanged and returns nil. The effect of one Alloc is given exactly for every 32-bit size: a request that makes the 32-bit sum wrap around is granted and lowers Used(). The string parses overwrite the requested-bytes counter instead of adding to it.")
fix("C08","FreePart: exact effect",
  "FreePart(n) changes no byte and not the capacity, and makes Used() = n if n < Used()+8 and leaves it otherwise. So with n <= Used() it releases exactly the tail; with n in [Used(), Used()+8) it increases Used() instead of changing nothing, even beyond the capacity.")
fix("C10","What a failed string-storing parse leaves behind",
  "When a string-storing parse fails, no byte of any stored string changes. The plain parses change neither the position nor Used(); the escapable and the telephone-number parses leave Used() and either do not move or stop at the bad escape resp. behind the digits; the quoted-string parse never lowers Used() nor exceeds the capacity, but may leave Used() higher (one would expect atomicity there too).")
fix("C11","When a string-storing parse crashes for lack of room",
  "Exactly when a string-storing parse panics: the plain and number parses iff the length word fits and the string does not (so a token too long for the remaining arena panics instead of failing with 'no mem'); the escapable parses iff a byte of the run follows when the arena is exactly full; the quoted-string parse iff the input ends where the quote is expected or the text copied from behind the quote overruns the arena. In all other cases the plain parses succeed iff the run is allowed and fits with a byte to spare.")
fix("C15",None,
  "Function pairs documented as alternatives (ParseUInt/ParseUInt_2, ParseSWS/ParseSWS_2, ParseLWS/ParseLWS_2, ParseHcolon/ParseHcolon2, ParseSWSMark/_2, the angle-quote pairs, ParseCRLF/ParseCRLF2, EncodeUInt/EncodeUInt2, ParseEscapable/ParseEscapable2 and ParseAndAllocSipToken/2 given room) give identical results on every input. The one documented pair that does not is ParseSWSMarkCanOmmit/_2: they differ exactly in that, when the mark is absent, the first has consumed white space.")
fix("C17","Method recognition, exactly",
  "The method recogniser returns the index of a method exactly when the input at the position is that (case-sensitive) method name followed by a non-token byte or the end; otherwise 'unknown', having skipped token bytes only. It panics exactly when the whole rest of the input is 'P', 'IN' or 'RE' (one would expect 'unknown').")
fix("C18","Header-name recognition, exactly",
  "The header-name recogniser returns a header's index exactly when the input at the position spells, in any letter case, one of the names built into it, followed by a non-token byte or the end; otherwise 'unknown'. The built-in names are the header names and compact forms, four of them misspelt, without a stated list of missed ones; after 'in', 'p', 'priv' and 'refer' a carriage return is taken for the dash. It panics exactly when the whole rest of the input spells one of a listed set of prefixes, so never when a colon follows.")
fix("C19","End-of-header search, exactly",
  "The header-line scanner finds the first LF that is not followed by white space, returns everything before it without a CR in front of it (except that a line consisting of the CR alone keeps it), and fails iff there is no such LF; the raw header value is that text and never reads past the end of the input.")
fix("C21","Port and IPv4 range checks, exactly",
  "A port is accepted iff the digits written, reduced modulo 2^64, are at most 65535; a dotted quad is read as IPv4 iff each component, reduced modulo 2^64, is at most 255 and no host-name byte follows. So a number below 2^64 is accepted iff it is in range (larger ones can be taken for in-range numbers).")
fix("C23",None,
  "If a SIP URI text is accepted and no header value was cut off by the end of the input (which happens only if the input ends right behind the '='), encoding the result and parsing again gives the same URI up to letter case of the known parameter names, and encoding again gives the same text.")
fix("C24",None,
  "A parsed telephone number contains no visual separators and is the written number without them; every well-formed telephone URI value encodes to text that reads back as the same value; and encoding any accepted telephone URI and parsing again gives the same URI up to letter case of the known parameter names, except that the phone-context of a global number is dropped, and encoding that gives the same text. (Of two phone-context parameters only the last is kept.)")
fix("C25","Tel URI parsing crashes exactly on a bare phone-context",
  "Given room, parsing a telephone URI panics iff the text is the scheme, a number and parameters leading to a parameter name that decodes to 'phone-context' (any letter case) with no '=' behind it; on every other input it returns success or failure. (One would expect it never to panic.)")
fix("C26",None,
  "A list of generic header parameters (token, quoted string or bracketed value), with or without the table of known names, encodes to text that parses back to the same list, whatever follows that does not continue it. A quoted value must be unfolded: a folded one is stored with a doubled CR, and parsing its encoding never ends.")
fix("C27","Quoted strings, exactly",
  "Given room, a quoted string is accepted iff it is optional white space, a quote, text of allowed bytes, escapes and foldings, and a quote; the stored text is that text with each folding's line break replaced by two CRs. So text without line folding is preserved byte for byte (one would expect the same with folding). It is refused exactly at a byte that is not allowed or at a line end that is not folding.")
fix("C28",None,
  "Encoding a well-formed address (optional display name, SIP or tel URI) and parsing it back yields the same address in the form in which it was written (in angle brackets or not), whatever follows that does not continue it; likewise a SIP request URI. (A telephone request URI is accepted but not written at all.)")
fix("C29",None,
  "For each structured header (From, To, Via, Contact, Route, Record-Route, Path, Service-Route, P-Asserted-Identity, CSeq, RAck, RSeq, Expires, Max-Forwards, Content-Length, Content-Type, Content-Disposition, Call-ID) encoding a well-formed value, with or without the header name in any of its spellings, and parsing the encoding gives the value back. Well-formed excludes: a Contact display name starting with '*', a Via SIP version that is not 2.0, '/' in a Call-ID.")
fix("C30",None,
  "A request line (method, SIP request URI, version) or status line (version, code below 2^16, reason) encodes to a line that parses back to the same start line. (A telephone request URI is accepted but not written; a larger status code is reduced modulo 2^16.)")
fix("C32","Parsing terminates unless a quote is followed by a lone line break",
  "A parse that does not terminate was given an input with a double quote and, later, a line feed without CR in front, a CR without LF behind, or a backslash before a CR. So parsing terminates on every input without double quotes and on every input whose line breaks are all unescaped CRLF. The quoted-string parse, given room, loops for ever exactly if allowed text leads to a lone break. (One would expect termination on all inputs.)")
fix("C33","Parsing does not crash on complete lines",
  "Given an arena with nine free bytes for every byte of the input and 57 more, no parser panics on an input that is empty or ends in a line feed and in which every text that decodes to the name 'phone-context' is followed by '='. (One would expect no panics at all: 'IN' as a whole message, and a bare phone-context, panic.)")
fix("C34",None,
  "For every parser, all arenas with nine free bytes for every byte of the input and 57 more give the same result, and a success in such an arena is the same success in every arena with more bytes than it used; nor does it matter how much of the arena is in use when the parse starts: outcome, position and bytes taken are the same at every fill level. (In a smaller arena a failed allocation is in places taken for the end of the list, so the result can differ: a Via loses its parameters.)")
fix("C35",None,
  "Given room, and if every line break is CRLF and no header name is cut off by the end of the input, reading a header block succeeds iff it is a sequence of header lines ended by an empty line, and returns every header in order with its value; encoding well-formed raw headers and reading the block returns them all, as does encoding what was read, unless a value is empty or starts with white space or a line break, or a known header has no table entry (its name is lost). The lookups return the first header with the index or name.")
fix("C36",None,
  "In every encoding of a message with a body (Encode adds the Content-Length header if there is none) the header states exactly the number of body bytes that follow the empty line, provided the number that was in the header before (0 if there was none) has no more digits than that; otherwise its leading digits remain in front of the new ones. Every message that was parsed meets the other condition, that there is at most one such header. Without a body the stated length is kept.")
fix("C37",None,
  "The single body parsed from a message with a non-multipart Content-Type is the min(Content-Length, available) bytes after the empty line, none if that is 0; a message without Content-Type has no body in the result, whatever its Content-Length (one would expect the bytes).")
fix("C38",None,
  "Encoding a message with two or more bodies, a multipart Content-Type and a boundary that occurs in none of the parts, and parsing the text yields the same bodies with their headers (with the lengths set). (Not so for one part, for a type other than multipart, a preamble, or with raw header mode.)")
fix("C39","Removing content headers, exactly",
  "RemoveContentHeaders leaves only headers that are not Content-* headers, in order, each of them from the list; if the list has no Content-* header it is unchanged, otherwise what remains is the first kept header (if it stands before the last removed one) and those behind the last removed one. So it removes exactly the Content-* headers iff no kept header stands between another kept header and a removed one. Of the parsed headers it clears Content-Disposition only.")
fix("C40",None,
  "EqualNoCase and HasPrefixNoCase agree with byte-wise comparison after ASCII lower-casing, for every stored string and non-empty name (an empty name panics when comparing); ByteSliceIndexNoCase finds the first such occurrence iff a byte follows it (an occurrence at the very end is not found).")
fix("C45",None,
  "FindSipHeader1: if the lines with the header are complete, unfolded, and not adjacent, it writes the first of them and the trimmed values of the others, joined by commas, and reports true; if the header is only there once and in its compact form (other than Subject's and Supported's), it writes that line; if neither occurs it reports false. FindSipHeader2: it returns the first line with the header or its short name; reports false only if there is none; panics instead if a line that is shorter than the longer of the names comes first. (One would expect all arrangements of lines to be handled.)")
if __name__=="__main__":
    d=os.path.dirname(os.path.dirname(os.path.abspath(__file__)))
    with open(d+"/properties.jsonl","w") as f:
        for x in P: f.write(json.dumps(x)+"\n")
    print(len(P))
