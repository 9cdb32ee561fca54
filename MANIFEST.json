{
 "claims": [
  {
   "property": "C01",
   "status": "partial",
   "theorems": [
    "C01_round_trip_partial",
    "C01_round_trip_valid_partial",
    "C01_refuted",
    "C01_refuted_ambiguous"
   ],
   "note": "False in general (C01_refuted, C01_refuted_ambiguous): double quotes and backslashes are not escaped when printing. Proved for all identifiers without these two characters; no other one round-trips (C75)."
  },
  {
   "property": "C02",
   "status": "proved",
   "theorems": [
    "C02_parsed_ids_are_valid",
    "C02_every_valid_id_parses"
   ],
   "note": ""
  },
  {
   "property": "C03",
   "status": "proved",
   "theorems": [
    "C03_unquoted",
    "C03_whitespace",
    "C03_limits"
   ],
   "note": ""
  },
  {
   "property": "C04",
   "status": "proved",
   "theorems": [
    "C04_equality_is_set_equality",
    "C04_equivalence",
    "C04_hash"
   ],
   "note": ""
  },
  {
   "property": "C05",
   "status": "proved",
   "theorems": [
    "C05_try_new",
    "C05_parsed_inner_list"
   ],
   "note": ""
  },
  {
   "property": "C06",
   "status": "partial",
   "theorems": [
    "C06_line_round_trip_partial",
    "C06_refuted"
   ],
   "note": "False for identifiers with a colon (C06_refuted) and for those with quotes or backslashes (C01). Proved for all others; the condition is exact (C78)."
  },
  {
   "property": "C07",
   "status": "proved",
   "theorems": [
    "C07_plain",
    "C07_unsupported"
   ],
   "note": ""
  },
  {
   "property": "C08",
   "status": "proved",
   "theorems": [
    "C08_canonical_values",
    "C08_failure",
    "C08_when",
    "C08_same_value",
    "C08_idempotent",
    "C08_twice"
   ],
   "note": ""
  },
  {
   "property": "C09",
   "status": "proved",
   "theorems": [
    "C09_members",
    "C09_failure",
    "C09_success",
    "C09_other_members"
   ],
   "note": ""
  },
  {
   "property": "C10",
   "status": "proved",
   "theorems": [
    "C10_absolute",
    "C10_origin",
    "C10_authority_form",
    "C10_asterisk_form",
    "C10_connect_and_options",
    "C10_status"
   ],
   "note": ""
  },
  {
   "property": "C11",
   "status": "proved",
   "theorems": [
    "C11_values",
    "C11_total",
    "C11_empty_query"
   ],
   "note": ""
  },
  {
   "property": "C12",
   "status": "partial",
   "theorems": [
    "C12_round_trip_partial",
    "C12_built_partial",
    "C12_refuted"
   ],
   "note": "False in general (C12_refuted): texts are not escaped, and times of more than 15 digits do not parse. Proved for printable texts without double quote and backslash and times of at most 15 digits; no other params round-trip (C76)."
  },
  {
   "property": "C13",
   "status": "partial",
   "theorems": [
    "C13_base_partial",
    "C13_text_determines_params_partial",
    "C13_text_determines_id_partial",
    "C13_refuted"
   ],
   "note": "False in general (C13_refuted): escaped double quotes. Proved for parameters without double quotes; for signature bases, the identifiers, values and times are determined in any case (C13_base_partial)."
  },
  {
   "property": "C14",
   "status": "proved",
   "theorems": [
    "C14_reads",
    "C14_member",
    "C14_map",
    "C14_unknown",
    "C14_order"
   ],
   "note": ""
  },
  {
   "property": "C15",
   "status": "partial",
   "theorems": [
    "C15_safe_partial",
    "C15_exactly_partial",
    "C15_refuted"
   ],
   "note": "False (C15_refuted): a negative created or expires and an unknown derived component name make every verification and inspection panic. Proved: no other header content does (C15_safe_partial), and exactly which members do (C15_exactly_partial)."
  },
  {
   "property": "C16",
   "status": "proved",
   "theorems": [
    "C16_expired",
    "C16_no_expiry",
    "C16_monotone"
   ],
   "note": ""
  },
  {
   "property": "C17",
   "status": "proved",
   "theorems": [
    "C17_adds",
    "C17_no_created",
    "C17_overflow"
   ],
   "note": ""
  },
  {
   "property": "C18",
   "status": "proved",
   "theorems": [
    "C18_last_call_wins"
   ],
   "note": ""
  },
  {
   "property": "C19",
   "status": "proved",
   "theorems": [
    "C19_layout",
    "C19_message",
    "C19_component",
    "C19_deterministic",
    "C19_signed_bytes",
    "C19_sent"
   ],
   "note": ""
  },
  {
   "property": "C20",
   "status": "proved",
   "theorems": [
    "C20_unambiguous",
    "C20_unquoted",
    "C20_built"
   ],
   "note": ""
  },
  {
   "property": "C21",
   "status": "proved",
   "theorems": [
    "C21_try_new",
    "C21_error"
   ],
   "note": ""
  },
  {
   "property": "C22",
   "status": "proved",
   "theorems": [
    "C22_bytes_are_utf8",
    "C22_bytes_determine_text"
   ],
   "note": ""
  },
  {
   "property": "C23",
   "status": "proved",
   "theorems": [
    "C23_pairs",
    "C23_names",
    "C23_unparseable",
    "C23_names_differ",
    "C23_kinds"
   ],
   "note": ""
  },
  {
   "property": "C24",
   "status": "proved",
   "theorems": [
    "C24_parse_back"
   ],
   "note": ""
  },
  {
   "property": "C25",
   "status": "proved",
   "theorems": [
    "C25_signature_text",
    "C25_signature_round_trip",
    "C25_shared_key_exact",
    "C25_shared_key_text_unique"
   ],
   "note": ""
  },
  {
   "property": "C26",
   "status": "proved",
   "theorems": [
    "C26_item",
    "C26_list",
    "C26_dict",
    "C26_parsed_item",
    "C26_parsed_list",
    "C26_parsed_dict",
    "C26_append"
   ],
   "note": ""
  },
  {
   "property": "C27",
   "status": "proved",
   "theorems": [
    "C27_names_exact",
    "C27_refusal",
    "C27_to_string",
    "C27_round_trip",
    "C27_distinct"
   ],
   "note": ""
  },
  {
   "property": "C28",
   "status": "proved",
   "theorems": [
    "C28_verify_exact",
    "C28_verify_otherwise",
    "C28_mac"
   ],
   "note": ""
  },
  {
   "property": "C29",
   "status": "proved",
   "theorems": [
    "C29_secret_der",
    "C29_secret_pem",
    "C29_public_pem",
    "C29_reported_algorithm",
    "C29_hmac_refused"
   ],
   "note": ""
  },
  {
   "property": "C30",
   "status": "proved",
   "theorems": [
    "C30_halves_agree",
    "C30_key_id",
    "C30_shared"
   ],
   "note": ""
  },
  {
   "property": "C31",
   "status": "partial",
   "theorems": [
    "C31_refuted",
    "C31_panics_exactly",
    "C31_shared_never_panics"
   ],
   "note": "False (C31_refuted): ECDSA keys panic on other lengths. C31_panics_exactly says for which inputs; all other key types never panic."
  },
  {
   "property": "C32",
   "status": "proved",
   "theorems": [
    "C32_request",
    "C32_keys"
   ],
   "note": ""
  },
  {
   "property": "C33",
   "status": "proved",
   "theorems": [
    "C33_response"
   ],
   "note": ""
  },
  {
   "property": "C34",
   "status": "proved",
   "theorems": [
    "C34_only_appends",
    "C34_other_fields"
   ],
   "note": ""
  },
  {
   "property": "C35",
   "status": "proved",
   "theorems": [
    "C35_outcome",
    "C35_succeeds"
   ],
   "note": ""
  },
  {
   "property": "C36",
   "status": "proved",
   "theorems": [
    "C36_accepts",
    "C36_rejects",
    "C36_complete"
   ],
   "note": ""
  },
  {
   "property": "C37",
   "status": "proved",
   "theorems": [
    "C37_same_bytes_same_values",
    "C37_forgery"
   ],
   "note": ""
  },
  {
   "property": "C38",
   "status": "proved",
   "theorems": [
    "C38_expired_never_accepted",
    "C38_all_expired"
   ],
   "note": ""
  },
  {
   "property": "C39",
   "status": "proved",
   "theorems": [
    "C39_key_id",
    "C39_no_such_key_id"
   ],
   "note": ""
  },
  {
   "property": "C40",
   "status": "proved",
   "theorems": [
    "C40_one_result_per_key",
    "C40_failure"
   ],
   "note": ""
  },
  {
   "property": "C41",
   "status": "proved",
   "theorems": [
    "C41_request",
    "C41_response_without_request",
    "C41_value_of_the_request",
    "C41_no_req_no_request",
    "C41_request_verify",
    "C41_request_sign",
    "C41_response_needs_request"
   ],
   "note": ""
  },
  {
   "property": "C42",
   "status": "proved",
   "theorems": [
    "C42_status_not_on_requests",
    "C42_status_not_from_request",
    "C42_responses",
    "C42_parameters",
    "C42_no_panic"
   ],
   "note": ""
  },
  {
   "property": "C43",
   "status": "proved",
   "theorems": [
    "C43_has_signature",
    "C43_inspection",
    "C43_verify"
   ],
   "note": ""
  },
  {
   "property": "C44",
   "status": "proved",
   "theorems": [
    "C44_params",
    "C44_alg_key_ids",
    "C44_extract",
    "C44_same_messages"
   ],
   "note": ""
  },
  {
   "property": "C45",
   "status": "proved",
   "theorems": [
    "C45_same_outcome",
    "C45_inspection",
    "C45_body",
    "C45_uncovered_field",
    "C45_associated_request",
    "C45_signing"
   ],
   "note": ""
  },
  {
   "property": "C46",
   "status": "proved",
   "theorems": [
    "C46_order",
    "C46_swap",
    "C46_splitting",
    "C46_split_line",
    "C46_same_value"
   ],
   "note": ""
  },
  {
   "property": "C47",
   "status": "proved",
   "theorems": [
    "C47_signatures",
    "C47_listed",
    "C47_verifies",
    "C47_verifies_name",
    "C47_old_signatures"
   ],
   "note": ""
  },
  {
   "property": "C48",
   "status": "partial",
   "theorems": [
    "C48_refuted",
    "C48_last_wins_partial"
   ],
   "note": "False (C48_refuted): the later signature hides the earlier one. Proved: the last signature of every name is the one found, in the place of the first (C48_last_wins_partial)."
  },
  {
   "property": "C49",
   "status": "proved",
   "theorems": [
    "C49_round_trip",
    "C49_fails",
    "C49_line"
   ],
   "note": ""
  },
  {
   "property": "C50",
   "status": "proved",
   "theorems": [
    "C50_accepts",
    "C50_no_panic",
    "C50_same_message",
    "C50_again"
   ],
   "note": ""
  },
  {
   "property": "C51",
   "status": "proved",
   "theorems": [
    "C51_detects",
    "C51_exact"
   ],
   "note": ""
  },
  {
   "property": "C52",
   "status": "proved",
   "theorems": [
    "C52_local",
    "C52_idempotent",
    "C52_history"
   ],
   "note": ""
  },
  {
   "property": "C53",
   "status": "partial",
   "theorems": [
    "C53_refuted",
    "C53_signed_refuted",
    "C53_single_line_partial"
   ],
   "note": "False (C53_refuted): only the first line is read; the lines of a signed message can be joined so that another digest counts (C53_signed_refuted). Proved for messages with a single line (C53_single_line_partial)."
  },
  {
   "property": "C54",
   "status": "proved",
   "theorems": [
    "C54_line",
    "C54_same_hash",
    "C54_end_to_end"
   ],
   "note": ""
  },
  {
   "property": "C55",
   "status": "proved",
   "theorems": [
    "C55_verify",
    "C55_verify_any_order",
    "C55_sign",
    "C55_sign_any_order",
    "C55_completes"
   ],
   "note": ""
  },
  {
   "property": "C56",
   "status": "proved",
   "theorems": [
    "C56_request_sign",
    "C56_request_sign_one",
    "C56_request_verify",
    "C56_request_verify_one",
    "C56_response_sign",
    "C56_response_sign_one",
    "C56_response_verify",
    "C56_response_verify_one",
    "C56_returns",
    "C56_nested"
   ],
   "note": ""
  },
  {
   "property": "C57",
   "status": "partial",
   "theorems": [
    "C57_bound_partial",
    "C57_refuted"
   ],
   "note": "False (C57_refuted): the alg parameter is never compared with the key. Proved: the parameter is part of the signed text (C57_bound_partial)."
  },
  {
   "property": "C58",
   "status": "partial",
   "theorems": [
    "C58_refuted",
    "C58_refuted_key",
    "C58_empty_means_missing_or_empty_partial",
    "C58_sf_partial",
    "C58_key_partial"
   ],
   "note": "False (C58_refuted, C58_refuted_key): a missing field or dictionary key reads as the empty value. Proved, and exact: without parameters only a missing field and a single empty line have the empty value, with sf only a missing field, with key only dictionaries without that key."
  },
  {
   "property": "C59",
   "status": "partial",
   "theorems": [
    "C59_refuted_target",
    "C59_refuted_method",
    "C59_method_partial",
    "C59_target_partial"
   ],
   "note": "False for OPTIONS (always an asterisk) and for methods that differ in case only (C59_refuted_target, C59_refuted_method). Proved for upper-case methods, and for the request targets of other methods."
  },
  {
   "property": "C60",
   "status": "partial",
   "theorems": [
    "C60_refuted",
    "C60_added_partial"
   ],
   "note": "False (C60_refuted): an unparsable or harmful further signature, or a short one for an ECDSA key, makes verification fail or panic. Proved for parseable signatures with new names behind the others, and keys that do not panic (C60_added_partial)."
  },
  {
   "property": "C61",
   "status": "not_applicable",
   "theorems": [],
   "note": "Timing is outside a functional model."
  },
  {
   "property": "C62",
   "status": "proved",
   "theorems": [
    "C62_sign_then_verify",
    "C62_shared"
   ],
   "note": ""
  },
  {
   "property": "C63",
   "status": "proved",
   "theorems": [
    "C63_one_by_one"
   ],
   "note": ""
  },
  {
   "property": "C64",
   "status": "partial",
   "theorems": [
    "C64_refuted",
    "C64_parseable_partial"
   ],
   "note": "False (C64_refuted): names that are not keys and texts with double quotes are written as they are, and then no signature of the message can be verified. Proved for names that are keys and params that can be written (C64_parseable_partial); these are exactly the ones received as made (C77)."
  },
  {
   "property": "C65",
   "status": "proved",
   "theorems": [
    "C65_cancel",
    "C65_one_poll"
   ],
   "note": ""
  },
  {
   "property": "C66",
   "status": "proved",
   "theorems": [
    "C66_set",
    "C66_verify",
    "C66_finishes",
    "C66_chunks"
   ],
   "note": ""
  },
  {
   "property": "C67",
   "status": "proved",
   "theorems": [
    "C67_length",
    "C67_rejected",
    "C67_truncated",
    "C67_message"
   ],
   "note": ""
  },
  {
   "property": "C68",
   "status": "proved",
   "theorems": [
    "C68_length",
    "C68_rejected",
    "C68_line"
   ],
   "note": ""
  },
  {
   "property": "C69",
   "status": "proved",
   "theorems": [
    "C69_key_id",
    "C69_workflow",
    "C69_by_key_id"
   ],
   "note": ""
  },
  {
   "property": "C70",
   "status": "proved",
   "theorems": [
    "C70_clock",
    "C70_no_expiry",
    "C70_earlier"
   ],
   "note": ""
  },
  {
   "property": "C71",
   "status": "proved",
   "theorems": [
    "C71_exactly",
    "C71_public_key",
    "C71_shared_key"
   ],
   "note": ""
  },
  {
   "property": "C72",
   "status": "proved",
   "theorems": [
    "C72_renamed",
    "C72_headers"
   ],
   "note": ""
  },
  {
   "property": "C73",
   "status": "proved",
   "theorems": [
    "C73_signature",
    "C73_input"
   ],
   "note": ""
  },
  {
   "property": "C74",
   "status": "proved",
   "theorems": [
    "C74_taken_out",
    "C74_put_in"
   ],
   "note": ""
  },
  {
   "property": "C75",
   "status": "proved",
   "theorems": [
    "C75_exactly",
    "C75_parsed"
   ],
   "note": ""
  },
  {
   "property": "C76",
   "status": "proved",
   "theorems": [
    "C76_exactly",
    "C76_parsed"
   ],
   "note": ""
  },
  {
   "property": "C77",
   "status": "proved",
   "theorems": [
    "C77_exactly",
    "C77_message",
    "C77_signed",
    "C77_history"
   ],
   "note": ""
  },
  {
   "property": "C78",
   "status": "proved",
   "theorems": [
    "C78_exactly"
   ],
   "note": ""
  },
  {
   "property": "C79",
   "status": "proved",
   "theorems": [
    "C79_item",
    "C79_list",
    "C79_dictionary",
    "C79_one_meaning"
   ],
   "note": ""
  },
  {
   "property": "C80",
   "status": "proved",
   "theorems": [
    "C80_exactly",
    "C80_one_meaning"
   ],
   "note": ""
  },
  {
   "property": "C81",
   "status": "proved",
   "theorems": [
    "C81_params",
    "C81_headers",
    "C81_message",
    "C81_token_name"
   ],
   "note": ""
  },
  {
   "property": "C82",
   "status": "proved",
   "theorems": [
    "C82_item",
    "C82_list",
    "C82_dictionary",
    "C82_unique",
    "C82_unique_dictionary"
   ],
   "note": ""
  },
  {
   "property": "C83",
   "status": "proved",
   "theorems": [
    "C83_identifier",
    "C83_input",
    "C83_signature",
    "C83_headers",
    "C83_digest",
    "C83_needs_no_quotes"
   ],
   "note": ""
  },
  {
   "property": "C84",
   "status": "proved",
   "theorems": [
    "C84_identifier",
    "C84_params",
    "C84_headers",
    "C84_inspection"
   ],
   "note": ""
  },
  {
   "property": "C85",
   "status": "proved",
   "theorems": [
    "C85_verify",
    "C85_set",
    "C85_algorithm"
   ],
   "note": ""
  },
  {
   "property": "C86",
   "status": "proved",
   "theorems": [
    "C86_headers",
    "C86_message",
    "C86_verify_all",
    "C86_verify",
    "C86_unique"
   ],
   "note": ""
  },
  {
   "property": "C87",
   "status": "proved",
   "theorems": [
    "C87_component",
    "C87_text",
    "C87_sign",
    "C87_sign_panics"
   ],
   "note": ""
  },
  {
   "property": "C88",
   "status": "proved",
   "theorems": [
    "C88_identifier",
    "C88_params",
    "C88_line",
    "C88_line_refused"
   ],
   "note": ""
  },
  {
   "property": "C89",
   "status": "proved",
   "theorems": [
    "C89_secret_octets",
    "C89_public_octets",
    "C89_secret",
    "C89_secret_panics",
    "C89_secret_pem_panics",
    "C89_public",
    "C89_shared",
    "C89_verify"
   ],
   "note": ""
  },
  {
   "property": "C90",
   "status": "proved",
   "theorems": [
    "C90_digest",
    "C90_signed",
    "C90_end_to_end",
    "C90_constants",
    "C90_blocks",
    "C90_octets",
    "C90_compression"
   ],
   "note": ""
  },
  {
   "property": "C91",
   "status": "proved",
   "theorems": [
    "C91_definition",
    "C91_mac",
    "C91_message",
    "C91_body"
   ],
   "note": ""
  },
  {
   "property": "C92",
   "status": "partial",
   "theorems": [
    "C92_refuted",
    "C92_same_mac_partial",
    "C92_same_length_partial"
   ],
   "note": "False (C92_refuted): HMAC fills keys up with zero bytes, so a key and the same key with zero bytes behind it accept the same MACs, with different key ids. Proved: keys with the same MAC differ only in that, after the hashing of keys of more than 64 bytes, or show a collision (C92_same_mac_partial); for keys of the same length the claim holds (C92_same_length_partial)."
  },
  {
   "property": "C93",
   "status": "proved",
   "theorems": [
    "C93_public",
    "C93_shared",
    "C93_mixed"
   ],
   "note": ""
  },
  {
   "property": "C94",
   "status": "proved",
   "theorems": [
    "C94_raw",
    "C94_headers",
    "C94_fails",
    "C94_verifies"
   ],
   "note": ""
  },
  {
   "property": "C95",
   "status": "partial",
   "theorems": [
    "C95_refuted",
    "C95_exactly_partial",
    "C95_message_partial"
   ],
   "note": "False (C95_refuted): the expiry is read from the headers, the text from the base, and the two params are never compared; an expired base is accepted with headers without expires. Proved: exactly what is accepted (C95_exactly_partial), and that bases and headers extracted from one message belong together (C95_message_partial)."
  },
  {
   "property": "C96",
   "status": "proved",
   "theorems": [
    "C96_parameters",
    "C96_valid",
    "C96_text",
    "C96_parsed",
    "C96_value"
   ],
   "note": ""
  },
  {
   "property": "C97",
   "status": "proved",
   "theorems": [
    "C97_pair",
    "C97_line",
    "C97_values",
    "C97_signature_params"
   ],
   "note": ""
  },
  {
   "property": "C98",
   "status": "proved",
   "theorems": [
    "C98_built",
    "C98_agree"
   ],
   "note": ""
  },
  {
   "property": "C99",
   "status": "proved",
   "theorems": [
    "C99_digest",
    "C99_line",
    "C99_names"
   ],
   "note": ""
  },
  {
   "property": "C100",
   "status": "partial",
   "theorems": [
    "C100_view",
    "C100_forged",
    "C100_every",
    "C100_nonce",
    "C100_refuted",
    "C100_unquoted_partial"
   ],
   "note": "False (C100_refuted): the nonce of a signature can be replaced without the key. C100_forged and C100_every say for which messages this works: all whose params share their text with other ones (C101), in particular every signature with nonce and alg (C100_nonce). Proved: verification depends on the params through the covered components, the text, expires and the requested key id only (C100_view); params without double quotes on both sides are the signed ones (C100_unquoted_partial)."
  },
  {
   "property": "C101",
   "status": "proved",
   "theorems": [
    "C101_exactly",
    "C101_key_info"
   ],
   "note": ""
  },
  {
   "property": "C102",
   "status": "partial",
   "theorems": [
    "C102_exactly_partial",
    "C102_unnoticed",
    "C102_refuted"
   ],
   "note": "False (C102_refuted): the text is printed again from the known parameters in a fixed order, so a signature over the parameters of RFC 9421 B.2.1 (key id before nonce) is rejected, and added or reordered parameters are not noticed (C102_unnoticed). Proved: exactly which members give the text of the RFC (C102_exactly_partial)."
  },
  {
   "property": "C103",
   "status": "partial",
   "theorems": [
    "C103_request_partial",
    "C103_response_partial",
    "C103_exactly_partial",
    "C103_refuted"
   ],
   "note": "False (C103_refuted): @authority, @scheme and @target-uri are taken from the URI only, never from the Host field, so a signature over @authority is rejected by the server. Proved: signatures that do not cover these three components nor the host field are verified with the same result (C103_request_partial, C103_response_partial), and no other derived component changes (C103_exactly_partial)."
  },
  {
   "property": "C104",
   "status": "partial",
   "theorems": [
    "C104_exactly_partial",
    "C104_refuted"
   ],
   "note": "False (C104_refuted): white space in header values is signed as it is, and a missing field is taken for an empty one. Proved: the value is that of the RFC for exactly the fields that are there and have no white space around their lines (C104_exactly_partial), which holds for fields that came over the network."
  },
  {
   "property": "C105",
   "status": "partial",
   "theorems": [
    "C105_list_partial",
    "C105_dict_exactly_partial",
    "C105_members_partial",
    "C105_member_exactly_partial",
    "C105_refuted"
   ],
   "note": "False (C105_refuted): every line is read for itself, so a key in two lines is signed twice, and a missing member is taken for an empty text. Proved: agreement with the RFC for lines that are lists (C105_list_partial), for dictionaries if and only if no key is signed twice (C105_dict_exactly_partial, where C105_members_partial says which members are signed), and with key if and only if exactly one line has the member (C105_member_exactly_partial)."
  },
  {
   "property": "C106",
   "status": "partial",
   "theorems": [
    "C106_exactly_partial",
    "C106_refuted"
   ],
   "note": "False (C106_refuted, with a query of the RFC): names and values are taken as they are written, several values are joined, and a missing parameter has the empty value. Proved: for a parameter that is there once, the value is that of the RFC if and only if it is empty or name and value are written in the encoding of the RFC (C106_exactly_partial)."
  },
  {
   "property": "C107",
   "status": "partial",
   "theorems": [
    "C107_exactly_partial",
    "C107_refuted"
   ],
   "note": "False (C107_refuted): the default port is kept, the method is put in upper case, and @request-target of OPTIONS is always an asterisk. Proved: these are the only differences (C107_exactly_partial)."
  },
  {
   "property": "C108",
   "status": "partial",
   "theorems": [
    "C108_verifies_partial",
    "C108_name_partial",
    "C108_old_partial",
    "C108_exactly_partial",
    "C108_refuted"
   ],
   "note": "False (C108_refuted): a signature over the whole Signature field is made, but the new line changes the field, so it is rejected at once. Proved: with any parameters, exactly members with other names, taken before anything else but sf, keep their value (C108_exactly_partial); signatures that cover such members are accepted after they were added (C108_verifies_partial, C108_name_partial) and stay valid when others are added (C108_old_partial)."
  },
  {
   "property": "C109",
   "status": "partial",
   "theorems": [
    "C109_refuted",
    "C109_value_partial",
    "C109_fresh_partial"
   ],
   "note": "False (C109_refuted): for a message with Signature-Input, @signature-params is accepted as a covered component; its value is taken from the first line of the field, whoever made that signature, so joining lines makes the new signature invalid. Proved: what the value is (C109_value_partial), and that a message without Signature-Input is left unsigned (C109_fresh_partial)."
  },
  {
   "property": "C110",
   "status": "proved",
   "theorems": [
    "C110_read",
    "C110_panics",
    "C110_unique",
    "C110_pem"
   ],
   "note": "The DER decoding of crates der, pkcs8 and sec1 is modelled from their documentation; decoding of PEM texts stays a parameter."
  },
  {
   "property": "C111",
   "status": "partial",
   "theorems": [
    "C111_standard_partial",
    "C111_exactly_partial",
    "C111_refuted",
    "C111_panics_partial"
   ],
   "note": "False (C111_refuted): the two bytes before the seed are skipped without a look, and parameters are ignored. Proved: documents of RFC 8410 are read with their seed (C111_standard_partial), exactly what else is read (C111_exactly_partial), and that every other length of the key octets panics (C111_panics_partial)."
  },
  {
   "property": "C112",
   "status": "partial",
   "theorems": [
    "C112_refuted",
    "C112_standard_partial",
    "C112_ignored_partial"
   ],
   "note": "False (C112_refuted): a P-256 file may name P-384 inside and carry any public key. Proved: documents of RFC 5915 give their scalar (C112_standard_partial), and only the algorithm identifier and the scalar count (C112_ignored_partial)."
  },
  {
   "property": "C113",
   "status": "proved",
   "theorems": [
    "C113_read",
    "C113_unique",
    "C113_every"
   ],
   "note": "Decoding of PEM texts is a parameter that gives bytes."
  },
  {
   "property": "C114",
   "status": "proved",
   "theorems": [
    "C114_read",
    "C114_unique",
    "C114_key_id"
   ],
   "note": "PKCS#1 (crate pkcs1) is modelled from its documentation; which numbers are accepted and the arithmetic of RSA are parameters."
  },
  {
   "property": "C115",
   "status": "proved",
   "theorems": [
    "C115_read",
    "C115_never_panics",
    "C115_unique",
    "C115_halves",
    "C115_key_id"
   ],
   "note": "As for C114. The private key in the model is the list of its eight numbers."
  }
 ]
}