{
 "claims": [
  {
   "property": "C01",
   "status": "proved",
   "theorems": [
    "C01_classes_exact",
    "C01_classes_deviating"
   ],
   "note": "exact classes proved for all 256 bytes; the six deviating classes proved to deviate on exactly the listed bytes"
  },
  {
   "property": "C02",
   "status": "proved",
   "theorems": [
    "C02_parse_uint",
    "C02_parse_uint_fails",
    "C02_parse_uint_truncated"
   ],
   "note": ""
  },
  {
   "property": "C03",
   "status": "proved",
   "theorems": [
    "C03_numbers_refuted",
    "C03_numbers",
    "C03_exact_iff_fits",
    "C03_status_code",
    "C03_header_numbers",
    "C03_cseq_number",
    "C03_rack_numbers",
    "C03_headers_refuted"
   ],
   "note": "values are reduced modulo the width: C03_numbers_refuted and C03_headers_refuted refute the plain expectation"
  },
  {
   "property": "C04",
   "status": "proved",
   "theorems": [
    "C04_encode_canonical",
    "C04_encode32",
    "C04_encode_byte",
    "C04_encode_width",
    "C04_encode32_width"
   ],
   "note": ""
  },
  {
   "property": "C05",
   "status": "proved",
   "theorems": [
    "C05_history_bounds",
    "C05_counters",
    "C05_counters_of_a_call",
    "C05_failed_alloc",
    "C05_alloc_exact",
    "C05_wrap_refuted",
    "C05_reqbytes_refuted"
   ],
   "note": "C05_wrap_refuted and C05_reqbytes_refuted are the stated exceptions"
  },
  {
   "property": "C06",
   "status": "proved",
   "theorems": [
    "C06_live_disjoint",
    "C06_large_arena_refuted"
   ],
   "note": "arena below 64 KiB as stated; the stated failure beyond that is C06_large_arena_refuted"
  },
  {
   "property": "C07",
   "status": "proved",
   "theorems": [
    "C07_strings_preserved",
    "C07_alloc_clear"
   ],
   "note": ""
  },
  {
   "property": "C08",
   "status": "proved",
   "theorems": [
    "C08_free_part",
    "C08_free_part_exact",
    "C08_free_part_refuted"
   ],
   "note": "C08_free_part_refuted is the stated exception"
  },
  {
   "property": "C09",
   "status": "proved",
   "theorems": [
    "C09_token_reads_back",
    "C09_token_succeeds",
    "C09_token_empty_reads_back",
    "C09_escapable_reads_back",
    "C09_escapable_empty_reads_back",
    "C09_quoted_reads_back",
    "C09_number_reads_back",
    "C09_history_reads_back"
   ],
   "note": ""
  },
  {
   "property": "C10",
   "status": "proved",
   "theorems": [
    "C10_token_fail_atomic",
    "C10_token_empty_fail_atomic",
    "C10_escapable_fail",
    "C10_number_fail",
    "C10_quoted_fail",
    "C10_fail_atomic_refuted"
   ],
   "note": "C10_fail_atomic_refuted refutes atomicity of the other variants"
  },
  {
   "property": "C11",
   "status": "proved",
   "theorems": [
    "C11_token",
    "C11_token_empty",
    "C11_number",
    "C11_escapable",
    "C11_quoted",
    "C11_quoted_any_room",
    "C11_exhaustion_refuted"
   ],
   "note": "C11_exhaustion_refuted refutes the plain expectation that lack of room is always reported"
  },
  {
   "property": "C12",
   "status": "proved",
   "theorems": [
    "C12_stale_contents",
    "C12_recycled_arena"
   ],
   "note": ""
  },
  {
   "property": "C13",
   "status": "proved",
   "theorems": [
    "C13_escape_roundtrip",
    "C13_escape_roundtrip_empty",
    "C13_classes_exclude_percent"
   ],
   "note": ""
  },
  {
   "property": "C14",
   "status": "proved",
   "theorems": [
    "C14_escapable_accepts",
    "C14_escapable_rejects",
    "C14_escapable_empty_accepts",
    "C14_escapable_empty_rejects"
   ],
   "note": ""
  },
  {
   "property": "C15",
   "status": "proved",
   "theorems": [
    "C15_twins",
    "C15_encode_twins",
    "C15_mark_can_omit_refuted",
    "C15_mark_can_omit_exact",
    "C15_two_step",
    "C15_two_step_full_refuted",
    "C15_sip_token",
    "C15_sip_token_refuted",
    "C15_unescape_num2_refuted"
   ],
   "note": "C15_mark_can_omit_refuted; outside the stated room C15_two_step_full_refuted, C15_sip_token_refuted; AllocCStringWithUnescapeNum2 is no twin (C15_unescape_num2_refuted)"
  },
  {
   "property": "C16",
   "status": "proved",
   "theorems": [
    "C16_sws_exact",
    "C16_sws_consumes_lws",
    "C16_line_end_kept"
   ],
   "note": ""
  },
  {
   "property": "C17",
   "status": "proved",
   "theorems": [
    "C17_method_lookup",
    "C17_method_unknown_skips_token",
    "C17_panics_exactly"
   ],
   "note": "exact panic set C17_panics_exactly"
  },
  {
   "property": "C18",
   "status": "proved",
   "theorems": [
    "C18_header_lookup",
    "C18_header_lookup_no_cr",
    "C18_header_lookup_complete",
    "C18_cr_as_dash_refuted",
    "C18_missed_names_refuted",
    "C18_panics_exactly",
    "C18_no_panic_before_colon",
    "C18_header_unknown_skips_token"
   ],
   "note": "C18_cr_as_dash_refuted, C18_missed_names_refuted show the stated exceptions"
  },
  {
   "property": "C19",
   "status": "proved",
   "theorems": [
    "C19_line_end",
    "C19_no_line_end",
    "C19_unique",
    "C19_value",
    "C19_empty_value_refuted"
   ],
   "note": "C19_empty_value_refuted is the stated exception"
  },
  {
   "property": "C20",
   "status": "proved",
   "theorems": [
    "C20_hostport_round_trip",
    "C20_host_round_trip",
    "C20_accepted_is_wellformed"
   ],
   "note": "host, port and host-port; net.ParseIP/IP.String are an oracle assumed to invert each other on the value"
  },
  {
   "property": "C21",
   "status": "proved",
   "theorems": [
    "C21_port_sound",
    "C21_port_exact",
    "C21_port_rejected",
    "C21_port_refuted",
    "C21_ipv4_exact",
    "C21_ipv4_in_range",
    "C21_ipv4_refuted"
   ],
   "note": "above 2^64 refuted: C21_port_refuted, C21_ipv4_refuted"
  },
  {
   "property": "C22",
   "status": "proved",
   "theorems": [
    "C22_uri_round_trip",
    "C22_no_escape_refuted"
   ],
   "note": "with escaping on output (the default); without it refuted"
  },
  {
   "property": "C23",
   "status": "proved",
   "theorems": [
    "C23_stable",
    "C23_cut_off",
    "C23_stable_refuted"
   ],
   "note": "the condition is needed: C23_stable_refuted; it fails only as stated: C23_cut_off"
  },
  {
   "property": "C24",
   "status": "proved",
   "theorems": [
    "C24_remove_idempotent",
    "C24_remove_none_left",
    "C24_remove_in_place",
    "C24_tel_round_trip",
    "C24_number_written",
    "C24_stable",
    "C24_global_context_refuted",
    "C24_two_contexts_refuted"
   ],
   "note": "C24_global_context_refuted, C24_two_contexts_refuted are the stated exceptions"
  },
  {
   "property": "C25",
   "status": "proved",
   "theorems": [
    "C25_tel_crash_refuted",
    "C25_crashes_exactly",
    "C25_otherwise_returns",
    "C25_tel_no_crash"
   ],
   "note": "C25_tel_crash_refuted refutes the plain expectation"
  },
  {
   "property": "C26",
   "status": "proved",
   "theorems": [
    "C26_params_round_trip",
    "C26_known_params_round_trip",
    "C26_folded_quoted_refuted"
   ],
   "note": "C26_folded_quoted_refuted is the stated exception"
  },
  {
   "property": "C27",
   "status": "proved",
   "theorems": [
    "C27_quoted_exact",
    "C27_quoted_refused",
    "C27_quoted_unfolded",
    "C27_quoted_refuted"
   ],
   "note": "C27_quoted_refuted is the folding case"
  },
  {
   "property": "C28",
   "status": "proved",
   "theorems": [
    "C28_name_addr_round_trip",
    "C28_addr_round_trip",
    "C28_request_uri_round_trip",
    "C28_tel_request_uri_refuted",
    "C28_bare_host_at_refuted"
   ],
   "note": "C28_tel_request_uri_refuted is the stated exception; C28_bare_host_at_refuted shows why the follow condition is needed"
  },
  {
   "property": "C29",
   "status": "proved",
   "theorems": [
    "C29_header_round_trip",
    "C29_value_round_trip",
    "C29_contact_star_refuted",
    "C29_via_version_refuted",
    "C29_call_id_slash_refuted",
    "C29_header_name_refuted",
    "C29_header_names"
   ],
   "note": "well-formed values: HeadersSpec.v; the exclusions are refuted: C29_contact_star_refuted, C29_via_version_refuted, C29_call_id_slash_refuted; C29_header_name_refuted: wrong names are accepted"
  },
  {
   "property": "C30",
   "status": "proved",
   "theorems": [
    "C30_start_line_round_trip",
    "C30_tel_request_refuted",
    "C30_status_code_refuted"
   ],
   "note": "C30_tel_request_refuted, C30_status_code_refuted are the stated exceptions"
  },
  {
   "property": "C31",
   "status": "proved",
   "theorems": [
    "C31_position"
   ],
   "note": "positions, for every parser; that the outcome does not depend on earlier input holds by construction: the modelled parsers are given only the rest of the input"
  },
  {
   "property": "C32",
   "status": "proved",
   "theorems": [
    "C32_quoted_loops_exactly",
    "C32_quoted_loop_refuted",
    "C32_loop_is_divergence",
    "C32_terminates",
    "C32_no_quote",
    "C32_crlf_only",
    "C32_message_refuted"
   ],
   "note": "C32_quoted_loop_refuted, C32_message_refuted refute the plain expectation"
  },
  {
   "property": "C33",
   "status": "proved",
   "theorems": [
    "C33_no_crash",
    "C33_message_refuted"
   ],
   "note": "C33_message_refuted refutes the plain expectation; exact crash sets of the parts: C17_panics_exactly, C18_panics_exactly, C25_crashes_exactly, C11_quoted"
  },
  {
   "property": "C34",
   "status": "proved",
   "theorems": [
    "C34_enough",
    "C34_success",
    "C34_fill_level",
    "C34_param_refuted"
   ],
   "note": "C34_param_refuted is the stated exception"
  },
  {
   "property": "C35",
   "status": "proved",
   "theorems": [
    "C35_block_read",
    "C35_block_sound",
    "C35_block_exact",
    "C35_round_trip",
    "C35_reparse",
    "C35_written",
    "C35_find_known",
    "C35_find_unknown",
    "C35_name_lost_refuted",
    "C35_blank_value_refuted",
    "C35_double_folding_refuted",
    "C35_lone_cr_refuted",
    "C35_cut_off_refuted"
   ],
   "note": "exceptions: C35_name_lost_refuted, C35_blank_value_refuted, C35_double_folding_refuted, C35_lone_cr_refuted, C35_cut_off_refuted"
  },
  {
   "property": "C36",
   "status": "proved",
   "theorems": [
    "C36_content_length",
    "C36_parsed",
    "C36_smaller",
    "C36_no_body",
    "C36_longer_refuted",
    "C36_removed_refuted"
   ],
   "note": "C36_longer_refuted, C36_removed_refuted are the exceptions"
  },
  {
   "property": "C37",
   "status": "proved",
   "theorems": [
    "C37_single_body",
    "C37_no_type",
    "C37_cases",
    "C37_no_type_refuted"
   ],
   "note": "C37_no_type_refuted refutes the plain expectation"
  },
  {
   "property": "C38",
   "status": "proved",
   "theorems": [
    "C38_multipart_round_trip",
    "C38_one_part_refuted",
    "C38_plain_type_refuted",
    "C38_dash_refuted",
    "C38_preamble_refuted",
    "C38_part_type_refuted"
   ],
   "note": "five refutations for the stated exceptions"
  },
  {
   "property": "C39",
   "status": "proved",
   "theorems": [
    "C39_exact",
    "C39_none_left",
    "C39_removes_exactly",
    "C39_disposition",
    "C39_loses_header_refuted"
   ],
   "note": "C39_loses_header_refuted refutes the plain expectation"
  },
  {
   "property": "C40",
   "status": "proved",
   "theorems": [
    "C40_equal_nocase",
    "C40_equal_nocase_total",
    "C40_empty_refuted",
    "C40_index",
    "C40_index_none",
    "C40_index_end_refuted",
    "C40_prefix"
   ],
   "note": "C40_empty_refuted, C40_index_end_refuted are the stated exceptions"
  },
  {
   "property": "C41",
   "status": "proved",
   "theorems": [
    "C41_zero",
    "C41_memcpy"
   ],
   "note": ""
  },
  {
   "property": "C42",
   "status": "proved",
   "theorems": [
    "C42_header_lines",
    "C42_no_body",
    "C42_one_body"
   ],
   "note": ""
  },
  {
   "property": "C43",
   "status": "proved",
   "theorems": [
    "C43_encode_again"
   ],
   "note": ""
  },
  {
   "property": "C44",
   "status": "proved",
   "theorems": [
    "C44_set_in_order",
    "C44_append",
    "C44_append_to_nothing",
    "C44_raw_block_in_order",
    "C44_find",
    "C44_write",
    "C44_list",
    "C44_same_header_twice_refuted"
   ],
   "note": "for new headers; a header set twice makes a ring (refuted)"
  },
  {
   "property": "C45",
   "status": "proved",
   "theorems": [
    "C45_all_values",
    "C45_short_name",
    "C45_absent",
    "C45_adjacent_refuted",
    "C45_folded_refuted",
    "C45_short_twice_refuted",
    "C45_compact_form_refuted",
    "C45_panics_refuted",
    "C45_find2",
    "C45_find2_found",
    "C45_find2_absent_refuted"
   ],
   "note": "the exceptions are refuted: C45_adjacent_refuted, C45_folded_refuted, C45_short_twice_refuted, C45_compact_form_refuted, C45_panics_refuted, C45_find2_absent_refuted"
  },
  {
   "property": "C46",
   "status": "proved",
   "theorems": [
    "C46_reference_is_run",
    "C46_escapable_reference",
    "C46_escapable_refused",
    "C46_variants",
    "C46_unescape_exact",
    "C46_unescape_refuted",
    "C46_unescape_plain"
   ],
   "note": "AllocCStringWithUnescape moves the fill level back and the next allocation overwrites an earlier string (C46_unescape_refuted)"
  },
  {
   "property": "C47",
   "status": "proved",
   "theorems": [
    "C47_fields_disjoint",
    "C47_sizes",
    "C47_new_is_zero",
    "C47_init_clears",
    "C47_init_via_exact",
    "C47_init_via_refuted"
   ],
   "note": "every type; the Via exception is C47_init_via_exact / C47_init_via_refuted"
  },
  {
   "property": "C48",
   "status": "proved",
   "theorems": [
    "C48_offsets",
    "C48_sipuri_parse",
    "C48_sipuri_kept",
    "C48_sipuri_encode",
    "C48_startline_parse",
    "C48_header_parse",
    "C48_history",
    "C48_tags_refuted",
    "C48_msg_offsets",
    "C48_message_parse",
    "C48_raw_headers_parse",
    "C48_message_encode",
    "C48_boundary_refuted"
   ],
   "note": "covers SIP and tel URIs, addresses, generic parameters, start lines, the 18 structured headers, raw headers, header blocks, bodies and messages (MemUri.v, MemTel.v, MemGen.v, MemAddr.v, MemStart.v, MemHdr.v, MemMsg.v, MemEnc.v, MemMsgEnc.v); arenas below 64 KB, for Encode not full to the last byte, and below 32 KB for values with an unregistered method, a version other than 2.0 or a Via protocol other than SIP/2.0 (Extension.v; needed: C48_tags_refuted); for SipMsg.Parse with an empty boundary at the very end of a full arena excluded (needed: C48_boundary_refuted)"
  },
  {
   "property": "C49",
   "status": "proved",
   "theorems": [
    "C49_world",
    "C49_undisturbed"
   ],
   "note": "conditions inside valRun, which gives no result otherwise: no crash; no use of objects that failed or were given back; at Encode the arena is not full to the last byte, and below 32 KB in use for values with an unregistered method, version or protocol"
  },
  {
   "property": "C50",
   "status": "proved",
   "theorems": [
    "C50_params",
    "C50_addr",
    "C50_start_line",
    "C50_header",
    "C50_starred_refuted",
    "C50_bare_at_refuted",
    "C50_message_no_body",
    "C50_message_one_body",
    "C50_message_multipart",
    "C50_no_parts_refuted",
    "C50_length_refuted"
   ],
   "note": "from the text to the value and back (C42 and C38 start from a well-formed value); the exclusions are the plain... predicates of ParsedSpec.v; that they are needed: C50_starred_refuted, C50_bare_at_refuted, C50_no_parts_refuted, C50_length_refuted and C26_folded_quoted_refuted, C29_via_version_refuted, C28_tel_request_uri_refuted, C38_one_part_refuted"
  },
  {
   "property": "C51",
   "status": "proved",
   "theorems": [
    "C51_one_call",
    "C51_tel_uri",
    "C51_addresses",
    "C51_encode"
   ],
   "note": "C51_one_call for all calls; \"fails => reports\" for the calls with reports a = true, C51_tel_uri and C51_addresses for the others under the stated condition; the silent failures are examples ex_silent_*"
  },
  {
   "property": "C52",
   "status": "proved",
   "theorems": [
    "C52_newest_error",
    "C52_missing_boundary"
   ],
   "note": "panics give no result (see C01/C11 for when they occur)"
  },
  {
   "property": "C53",
   "status": "proved",
   "theorems": [
    "C53_errors_kept",
    "C53_empty_iff_all_ok"
   ],
   "note": "a sequence in which a call panics has no result"
  },
  {
   "property": "C54",
   "status": "proved",
   "theorems": [
    "C54_one_error",
    "C54_all_errors"
   ],
   "note": "file:line of the AddError call and the line end written by goutil Printfln are parameters; texts below 2^64 bytes"
  },
  {
   "property": "C55",
   "status": "proved",
   "theorems": [
    "C55_session",
    "C55_reuse",
    "C55_setters",
    "C55_short_ip_refuted"
   ],
   "note": "arenas below 64 KB; Encode with the limits of C49; setters of SipHostPort and SipUri.SetSipUri/SetSipsUri (other setters: C36 and others in the value layer)"
  },
  {
   "property": "C56",
   "status": "proved",
   "theorems": [
    "C56_less_parsing",
    "C56_lines_refuted",
    "C56_settings",
    "C56_own_table",
    "C56_own_edits",
    "C56_clone_same",
    "C56_shared",
    "C56_independent_refuted",
    "C56_right_kind",
    "C56_cleared_content_refuted",
    "C56_decision"
   ],
   "note": "the conditions on lines are needed: C56_lines_refuted; contexts share settings without Clone: C56_independent_refuted; C56_cleared_content_refuted is the stated exception; in the model of message parsing (C56_less_parsing) NeedParse of the three content headers counts as set"
  },
  {
   "property": "C57",
   "status": "proved",
   "theorems": [
    "C57_answer",
    "C57_uri",
    "C57_param_exact",
    "C57_known_param_refuted",
    "C57_set_port",
    "C57_set_scheme",
    "C57_addr",
    "C57_header",
    "C57_removed",
    "C57_after_encode",
    "C57_removed_refuted",
    "C57_display_name_refuted"
   ],
   "note": "C57_display_name_refuted, C57_known_param_refuted, C57_removed_refuted are the stated exceptions; the questions include the unexported fields user, password, hostport and params of SipUri, which only code of the package can read"
  },
  {
   "property": "C58",
   "status": "proved",
   "theorems": [
    "C58_host_sound",
    "C58_host_exact",
    "C58_hostport_sound",
    "C58_hostport_exact",
    "C58_sip_uri_sound",
    "C58_sip_uri_exact",
    "C58_tel_uri_sound",
    "C58_tel_uri_exact",
    "C58_nameaddr_sound",
    "C58_nameaddr_exact",
    "C58_addr_sound",
    "C58_addr_exact",
    "C58_start_line_sound",
    "C58_start_line_exact",
    "C58_value_sound",
    "C58_value_exact",
    "C58_header_sound",
    "C58_header_exact",
    "C58_params_sound",
    "C58_header_unambiguous",
    "C58_start_line_unambiguous",
    "C58_addr_unambiguous"
   ],
   "note": "C58_*_sound for any arena, C58_*_exact with room; whole messages are C59"
  },
  {
   "property": "C59",
   "status": "proved",
   "theorems": [
    "C59_field_name_sound",
    "C59_field_name_exact",
    "C59_raw_block_sound",
    "C59_raw_block_exact",
    "C59_block_sound",
    "C59_block_exact",
    "C59_message_sound",
    "C59_message_exact",
    "C59_message_unambiguous",
    "C59_raw_block_unambiguous"
   ],
   "note": "C59_*_sound for any arena, C59_*_exact with room; in an arena that runs out of memory the data of a body part may be missing"
  },
  {
   "property": "C60",
   "status": "proved",
   "theorems": [
    "C60_framing",
    "C60_block_framing",
    "C60_same_head",
    "C60_no_type",
    "C60_single",
    "C60_bracket_refuted",
    "C60_bare_lf_refuted"
   ],
   "note": "for ordinary header sections; the two conditions are needed: C60_bracket_refuted, C60_bare_lf_refuted"
  },
  {
   "property": "C61",
   "status": "proved",
   "theorems": [
    "C61_message",
    "C61_message_read",
    "C61_read",
    "C61_contact",
    "C61_inside",
    "C61_any",
    "C61_64k",
    "C61_tight",
    "C61_needed"
   ],
   "note": "the arena is counted as the code counts it: structures have the sizes unsafe.Sizeof gives them with 16-bit AbnfPtr fields (Layout.v)"
  },
  {
   "property": "C62",
   "status": "proved",
   "theorems": [
    "C62_message_accept",
    "C62_message_exact",
    "C62_session",
    "C62_loop",
    "C62_object",
    "C62_object_reject",
    "C62_raw_block"
   ],
   "note": "composition of C59 (grammar), C48/C49 (bytes), C61 (room), C50 (stability); texts on which the parsers crash or loop are those of C32 and C33; with the large parameter tables (bigTables) refusal is claimed for texts made of lines only"
  },
  {
   "property": "C63",
   "status": "proved",
   "theorems": [
    "C63_parse",
    "C63_parse_part",
    "C63_encode",
    "C63_encode_start",
    "C63_encode_msg",
    "C63_raw_block",
    "C63_raw_message",
    "C63_raw_message_back",
    "C63_raw_accepts",
    "C63_encode_needed",
    "C63_raw_part_refuted"
   ],
   "note": "the three content headers count as NeedParse whatever the program sets (see C56)"
  },
  {
   "property": "C64",
   "status": "proved",
   "theorems": [
    "C64_message",
    "C64_history"
   ],
   "note": "histories within the domain of C49 (valRun gives a result: no crash, no use of destroyed objects)"
  },
  {
   "property": "C65",
   "status": "proved",
   "theorems": [
    "C65_faults",
    "C65_names",
    "C65_tells_apart",
    "C65_own_name_refuted"
   ],
   "note": "refuted that a wrong Max-Forwards or Content-Length is reported under its own name"
  },
  {
   "property": "C66",
   "status": "proved",
   "theorems": [
    "C66_line_parts",
    "C66_line_names",
    "C66_line_tells_apart",
    "C66_body_faults",
    "C66_body_names",
    "C66_body_tells_apart",
    "C66_uri_text_refuted",
    "C66_space_text_refuted"
   ],
   "note": "refuted that a wrong Request-URI, and a missing space behind the status code, are reported as such"
  },
  {
   "property": "C67",
   "status": "proved",
   "theorems": [
    "C67_left",
    "C67_start_line",
    "C67_line_kept",
    "C67_headers_kept",
    "C67_observed"
   ],
   "note": "on the bytes: with the limits of C55; failed parses of SipAddr and single headers are not described"
  },
  {
   "property": "C68",
   "status": "proved",
   "theorems": [
    "C68_uri",
    "C68_host",
    "C68_tel",
    "C68_line",
    "C68_known",
    "C68_tel_known",
    "C68_uri_observed",
    "C68_tel_observed",
    "C68_host_observed",
    "C68_line_observed"
   ],
   "note": "on the bytes: with the limits of C55 (start lines with an unregistered method or a version other than 2.0: less than 32 KB in use); in an arena that runs out of memory the table may be missing (Sorted); SipAddr and single headers are not described"
  },
  {
   "property": "C69",
   "status": "proved",
   "theorems": [
    "C69_start_line",
    "C69_header",
    "C69_below",
    "C69_method",
    "C69_wrong_texts_refuted"
   ],
   "note": "the start line and the three headers as objects of their own (not inside a message); that the text read is written: refuted (C69_wrong_texts_refuted)"
  },
  {
   "property": "C70",
   "status": "proved",
   "theorems": [
    "C70_message"
   ],
   "note": "messages that were read, as values; the limit on the digits of Content-Length is that of C36"
  }
 ]
}