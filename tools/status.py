STATUS={
'C01':('proved','exact classes proved for all 256 bytes; the six deviating classes proved to deviate on exactly the listed bytes'),
'C02':('proved',''),
'C03':('proved','values are reduced modulo the width: C03_numbers_refuted and C03_headers_refuted refute the plain expectation'),
'C04':('proved',''),
'C05':('proved','C05_wrap_refuted and C05_reqbytes_refuted are the stated exceptions'),
'C06':('proved','arena below 64 KiB as stated; the stated failure beyond that is C06_large_arena_refuted'),
'C07':('proved',''),
'C08':('proved','C08_free_part_refuted is the stated exception'),
'C09':('proved',''),
'C10':('proved','C10_fail_atomic_refuted refutes atomicity of the other variants'),
'C11':('proved','C11_exhaustion_refuted refutes the plain expectation that lack of room is always reported'),
'C12':('proved',''),
'C13':('proved',''),
'C14':('proved',''),
'C15':('proved','C15_mark_can_omit_refuted; outside the stated room C15_two_step_full_refuted, C15_sip_token_refuted; AllocCStringWithUnescapeNum2 is no twin (C15_unescape_num2_refuted)'),
'C16':('proved',''),
'C24':('proved','C24_global_context_refuted, C24_two_contexts_refuted are the stated exceptions'),
'C25':('proved','C25_tel_crash_refuted refutes the plain expectation'),
'C27':('proved','C27_quoted_refuted is the folding case'),
'C40':('proved','C40_empty_refuted, C40_index_end_refuted are the stated exceptions'),
'C41':('proved',''),

'C17':('proved','exact panic set C17_panics_exactly'),
'C18':('proved','C18_cr_as_dash_refuted, C18_missed_names_refuted show the stated exceptions'),
'C20':('proved','host, port and host-port; net.ParseIP/IP.String are an oracle assumed to invert each other on the value'),
'C21':('proved','above 2^64 refuted: C21_port_refuted, C21_ipv4_refuted'),
'C22':('proved','with escaping on output (the default); without it refuted'),
'C23':('proved','the condition is needed: C23_stable_refuted; it fails only as stated: C23_cut_off'),
'C26':('proved','C26_folded_quoted_refuted is the stated exception'),
'C28':('proved','C28_tel_request_uri_refuted is the stated exception; C28_bare_host_at_refuted shows why the follow condition is needed'),
'C30':('proved','C30_tel_request_refuted, C30_status_code_refuted are the stated exceptions'),
'C29':('proved','well-formed values: HeadersSpec.v; the exclusions are refuted: C29_contact_star_refuted, C29_via_version_refuted, C29_call_id_slash_refuted; C29_header_name_refuted: wrong names are accepted'),
'C19':('proved','C19_empty_value_refuted is the stated exception'),
'C35':('proved','exceptions: C35_name_lost_refuted, C35_blank_value_refuted, C35_double_folding_refuted, C35_lone_cr_refuted, C35_cut_off_refuted'),
'C31':('proved','positions, for every parser; that the outcome does not depend on earlier input holds by construction: the modelled parsers are given only the rest of the input'),
'C32':('proved','C32_quoted_loop_refuted, C32_message_refuted refute the plain expectation'),
'C33':('proved','C33_message_refuted refutes the plain expectation; exact crash sets of the parts: C17_panics_exactly, C18_panics_exactly, C25_crashes_exactly, C11_quoted'),
'C34':('proved','C34_param_refuted is the stated exception'),
'C36':('proved','C36_longer_refuted, C36_removed_refuted are the exceptions'),
'C37':('proved','C37_no_type_refuted refutes the plain expectation'),
'C38':('proved','five refutations for the stated exceptions'),
'C42':('proved',''),
'C43':('proved',''),
'C39':('proved','C39_loses_header_refuted refutes the plain expectation'),
'C44':('proved','for new headers; a header set twice makes a ring (refuted)'),
'C45':('proved','the exceptions are refuted: C45_adjacent_refuted, C45_folded_refuted, C45_short_twice_refuted, C45_compact_form_refuted, C45_panics_refuted, C45_find2_absent_refuted'),
'C46':('proved','AllocCStringWithUnescape moves the fill level back and the next allocation overwrites an earlier string (C46_unescape_refuted)'),
'C47':('proved','every type; the Via exception is C47_init_via_exact / C47_init_via_refuted'),
'C48':('proved','covers SIP and tel URIs, addresses, generic parameters, start lines, the 18 structured headers, raw headers, header blocks, bodies and messages (MemUri.v, MemTel.v, MemGen.v, MemAddr.v, MemStart.v, MemHdr.v, MemMsg.v, MemEnc.v, MemMsgEnc.v); arenas below 64 KB, for Encode not full to the last byte, and below 32 KB for values with an unregistered method, a version other than 2.0 or a Via protocol other than SIP/2.0 (Extension.v; needed: C48_tags_refuted); for SipMsg.Parse with an empty boundary at the very end of a full arena excluded (needed: C48_boundary_refuted)'),
'C49':('proved','conditions inside valRun, which gives no result otherwise: no crash; no use of objects that failed or were given back; at Encode the arena is not full to the last byte, and below 32 KB in use for values with an unregistered method, version or protocol'),
'C50':('proved','from the text to the value and back (C42 and C38 start from a well-formed value); the exclusions are the plain... predicates of ParsedSpec.v; that they are needed: C50_starred_refuted, C50_bare_at_refuted, C50_no_parts_refuted, C50_length_refuted and C26_folded_quoted_refuted, C29_via_version_refuted, C28_tel_request_uri_refuted, C38_one_part_refuted'),
 'C51':('proved','C51_one_call for all calls; "fails => reports" for the calls with reports a = true, C51_tel_uri and C51_addresses for the others under the stated condition; the silent failures are examples ex_silent_*'),
 'C52':('proved','panics give no result (see C01/C11 for when they occur)'),
 'C53':('proved','a sequence in which a call panics has no result'),
 'C55':('proved','arenas below 64 KB; Encode with the limits of C49; setters of SipHostPort and SipUri.SetSipUri/SetSipsUri (other setters: C36 and others in the value layer)'),
 'C56':('proved','the conditions on lines are needed: C56_lines_refuted; contexts share settings without Clone: C56_independent_refuted; C56_cleared_content_refuted is the stated exception; in the model of message parsing (C56_less_parsing) NeedParse of the three content headers counts as set'),
 'C57':('proved','C57_display_name_refuted, C57_known_param_refuted, C57_removed_refuted are the stated exceptions; the questions include the unexported fields user, password, hostport and params of SipUri, which only code of the package can read'),
 'C58':('proved','C58_*_sound for any arena, C58_*_exact with room; whole messages are C59'),
 'C59':('proved','C59_*_sound for any arena, C59_*_exact with room; in an arena that runs out of memory the data of a body part may be missing'),
 'C60':('proved','for ordinary header sections; the two conditions are needed: C60_bracket_refuted, C60_bare_lf_refuted'),
 'C61':('proved','the arena is counted as the code counts it: structures have the sizes unsafe.Sizeof gives them with 16-bit AbnfPtr fields (Layout.v)'),
 'C62':('proved','composition of C59 (grammar), C48/C49 (bytes), C61 (room), C50 (stability); texts on which the parsers crash or loop are those of C32 and C33; with the large parameter tables (bigTables) refusal is claimed for texts made of lines only'),
 'C63':('proved','the three content headers count as NeedParse whatever the program sets (see C56)'),
 'C64':('proved','histories within the domain of C49 (valRun gives a result: no crash, no use of destroyed objects)'),
 'C65':('proved','refuted that a wrong Max-Forwards or Content-Length is reported under its own name'),
 'C66':('proved','refuted that a wrong Request-URI, and a missing space behind the status code, are reported as such'),
 'C67':('proved','on the bytes: with the limits of C55; failed parses of SipAddr and single headers are not described'),
 'C68':('proved','on the bytes: with the limits of C55 (start lines with an unregistered method or a version other than 2.0: less than 32 KB in use); in an arena that runs out of memory the table may be missing (Sorted); SipAddr and single headers are not described'),
 'C69':('proved','the start line and the three headers as objects of their own (not inside a message); that the text read is written: refuted (C69_wrong_texts_refuted)'),
 'C70':('proved','messages that were read, as values; the limit on the digits of Content-Length is that of C36'),
 'C54':('proved','file:line of the AddError call and the line end written by goutil Printfln are parameters; texts below 2^64 bytes'),
}
