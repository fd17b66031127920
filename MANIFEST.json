{
 "claims": [
  {
   "property": "C01",
   "status": "proved",
   "theorems": [
    "C01_encode_decode_round_trip"
   ],
   "note": ""
  },
  {
   "property": "C02",
   "status": "proved",
   "theorems": [
    "C02_encoder_fills_buffer_exactly",
    "C02_encoder_output_is_canonical",
    "C02_encoder_output_is_legal",
    "C02_encoder_output_is_validated"
   ],
   "note": ""
  },
  {
   "property": "C03",
   "status": "partial",
   "theorems": [
    "C03_validator_exact_upper_case",
    "C03_validator_sound",
    "C03_validator_complete_refuted"
   ],
   "note": "The RFC statement is refuted: lower case escapes are rejected for every component. The exact accepted language is proved."
  },
  {
   "property": "C04",
   "status": "proved",
   "theorems": [
    "C04_decode_validated_text",
    "C04_decoding_is_unique",
    "C04_decode_unvalidated_text_refuted"
   ],
   "note": ""
  },
  {
   "property": "C05",
   "status": "proved",
   "theorems": [
    "C05_parsing_is_total_and_safe",
    "C05_same_result_in_both_builds"
   ],
   "note": "all inputs, both build modes"
  },
  {
   "property": "C06",
   "status": "partial",
   "theorems": [
    "C06_accepts_exactly_its_grammar",
    "C06_reports_the_decomposition",
    "C06_decomposition_is_unique",
    "C06_rfc_decomposition_is_unique",
    "C06_agrees_with_rfc_partial",
    "C06_accepted_is_rfc_partial",
    "C06_rejects_rfc_text_refuted",
    "C06_accepts_non_rfc_text_refuted",
    "C06_misreports_components_refuted"
   ],
   "note": "refuted with respect to RFC 3986 (lower case hex, digits in schemes, IPvFuture, character after a leading '/', odd IPv6); strongest true version proved: iff for the grammar 'accepted', which differs from the RFC in four named places, with the exact components and unique decomposition"
  },
  {
   "property": "C07",
   "status": "proved",
   "theorems": [
    "C07_parsing_is_lossless"
   ],
   "note": ""
  },
  {
   "property": "C08",
   "status": "partial",
   "theorems": [
    "C08_accessors_of_parsed_url",
    "C08_password_part_refuted",
    "C97_password_part"
   ],
   "note": "refuted: url's password_part() fires an assertion whenever there is a password (C08_password_part_refuted); strongest true version proved: all accessors of url_view and all other accessors of url (record shows), and C97 says exactly what password_part does"
  },
  {
   "property": "C09",
   "status": "proved",
   "theorems": [
    "C09_url_and_view_agree"
   ],
   "note": ""
  },
  {
   "property": "C10",
   "status": "proved",
   "theorems": [
    "C10_host_classification",
    "C10_host_classes_exclude_each_other"
   ],
   "note": ""
  },
  {
   "property": "C100",
   "status": "proved",
   "theorems": [
    "C100_all_or_none",
    "C100_aborts",
    "C100_from_end",
    "C100_never_listed"
   ],
   "note": ""
  },
  {
   "property": "C101",
   "status": "proved",
   "theorems": [
    "C101_all_or_none",
    "C101_aborts"
   ],
   "note": "queries that are not iterable (C25: fragment and last parameter without '=') are excluded"
  },
  {
   "property": "C102",
   "status": "proved",
   "theorems": [
    "C102_error_stays",
    "C102_any_counter",
    "C102_aborts"
   ],
   "note": ""
  },
  {
   "property": "C103",
   "status": "partial",
   "theorems": [
    "C103_copy_refuted",
    "C103_url_modified",
    "C103_static_url_modified"
   ],
   "note": "refuted: the constructor forwards to the implicit copy constructor of url_base, which copies the reference to the storage and the pointer; strongest true version proved: after a modifier on one object the other either points to freed memory (if the call needed more than the capacity) or shows the new text at the old offsets, and its text is unchanged exactly if the new text begins with the old one. Calls on an object after the other has been modified are not covered."
  },
  {
   "property": "C104",
   "status": "partial",
   "theorems": [
    "C104_urls_carry_data",
    "C104_views_carry_data",
    "C104_view_segments_refuted",
    "C104_everything_can_be_written"
   ],
   "note": "refuted: a url_view with both segments and parameters does not list the segments (as in C22); strongest true version proved: a url lists all segments and parameters (unless allocation fails), a url_view all parameters and, without parameters, all segments. With an authority; keys are written without bare '&' and '=', values without bare '&'."
  },
  {
   "property": "C105",
   "status": "partial",
   "theorems": [
    "C105_fragment",
    "C105_query",
    "C105_path",
    "C105_bare_roots",
    "C105_refuted"
   ],
   "note": "refuted: appended to the path '/' without authority (after a scheme or not), '#f' and '?q' become part of the path; strongest true version proved: the equivalence for all other texts, and what happens for these (C105_bare_roots)."
  },
  {
   "property": "C106",
   "status": "partial",
   "theorems": [
    "C106_same_components",
    "C106_one_modifier",
    "C106_modifiers",
    "C106_one_edit_partial",
    "C106_sequences_partial",
    "C106_edits_refuted"
   ],
   "note": "refuted: in debug builds a segment edit also depends on the size kept by the storage, which calls that shorten the URL do not update; strongest true version proved: all sequences in release builds, and in debug builds if this size is the same too. Modifiers alone need no such condition. Calls that damage the URL (C60), edits with wrong counters (C102) and edits of the first segment of a relative path are excluded."
  },
  {
   "property": "C107",
   "status": "proved",
   "theorems": [
    "C107_the_list_decides",
    "C107_insert_then_erase",
    "C107_erase_then_insert",
    "C107_replace"
   ],
   "note": "The first segment of a relative path is excluded (C28_relative_insert_is_wrong, C28_relative_erase_is_wrong), so are urls with wrong counters (C102)."
  },
  {
   "property": "C108",
   "status": "proved",
   "theorems": [
    "C108_insert_loop",
    "C108_erase_loop",
    "C108_erase_if"
   ],
   "note": "The first segment of a relative path is excluded (C28_relative_insert_is_wrong, C28_relative_erase_is_wrong), so are urls with wrong counters (C102)."
  },
  {
   "property": "C109",
   "status": "partial",
   "theorems": [
    "C109_temporary_refuted",
    "C109_assigned_refuted",
    "C109_beyond_refuted",
    "C109_copies_refuted",
    "C109_find_in_copy_refuted",
    "C109_ranges_stay_partial",
    "C109_same_layout_partial",
    "C109_gone_partial",
    "C109_copies_partial",
    "C109_lookups_stay_partial",
    "C109_iterators_stay_partial",
    "C109_gone_params_partial",
    "C109_params_between_partial"
   ],
   "note": "refuted: the ranges and iterators keep the address of the offsets inside the url_view object, so the range of a temporary reads a destroyed object, assignment combines the old text with new offsets (shows the password as a segment, or reads beyond the text), iterators of copies are never equal, and find() compared with end() of a copy never says that a key is absent. Strongest true version proved: ranges, iterators and key lookups keep showing the same as long as a url_view of the same text, or one with the same layout, is at that address; any use after that object is gone is undefined; a loop between two url_views ends exactly if they are the same object."
  },
  {
   "property": "C11",
   "status": "partial",
   "theorems": [
    "C11_ipv6_literals_accepted",
    "C11_rfc_addresses_accepted_partial",
    "C11_ipv6_rfc_refuted"
   ],
   "note": "refuted as stated; strongest true version proved: exact iff for the accepted literals"
  },
  {
   "property": "C110",
   "status": "proved",
   "theorems": [
    "C110_sent_and_received"
   ],
   "note": "A url (not a url_view) is used by the receiver; segments of a url_view with a query cannot be iterated over (C22)."
  },
  {
   "property": "C111",
   "status": "partial",
   "theorems": [
    "C111_lower_case_refuted",
    "C111_cut_refuted",
    "C111_string_exact_partial",
    "C111_missing_partial",
    "C111_whole_partial",
    "C111_upper_case_partial",
    "C111_view_partial",
    "C111_url_partial",
    "C111_cut_segments_partial"
   ],
   "note": "refuted: the segment of \"/%2f\" (accepted) has the string \"\\x1f\", and that of \"/%4\" in a url the string \"?\". Strongest true version proved: the exact result for every segment of every URL, in terms of the segment and the memory behind it, and exactly when it is undefined; it is the RFC 3986 decoding when the escapes are complete and upper-case; only a first segment \"%\" or \"%x\" of a URL without authority reads beyond itself."
  },
  {
   "property": "C112",
   "status": "partial",
   "theorems": [
    "C112_documented_refuted",
    "C112_no_authority_refuted",
    "C112_no_user_refuted",
    "C112_documented_partial",
    "C112_only_these_partial",
    "C112_always_partial"
   ],
   "note": "refuted: fifteen calls with witnesses, among them set_scheme(\"h2\"), set_encoded_query(\"%2f\"), set_encoded_password(\":x\"), set_password_part(\"xy\"), set_userinfo_part(\"@\"), set_host(\"[v1.x]\"), set_encoded_origin(\"//h\") and set_encoded_path(\"/<\"). Strongest true version proved: exactly the calls described by `follows` (both grammars agree on the argument, and a short list of exceptions) behave as documented, on every URL."
  },
  {
   "property": "C113",
   "status": "partial",
   "theorems": [
    "C113_decoded_host_refuted",
    "C113_host_exact_partial",
    "C113_parsed_partial",
    "C113_kept_partial"
   ],
   "note": "refuted: after set_encoded_authority(\"a%20b\") on an empty url, host() returns \"a%20b\". Strongest true version proved: the exact result for every reachable url (decoded exactly if the stored host type is name or the host has no escape); decoded for every parsed URL and for every url whose host was changed only by calls that update the type."
  },
  {
   "property": "C114",
   "status": "partial",
   "theorems": [
    "C114_segments_compared",
    "C114_params_compared",
    "C114_default_compared",
    "C114_foreign_refuted",
    "C114_default_refuted",
    "C114_default_replace_refuted",
    "C114_refused_partial",
    "C114_others_untouched_partial",
    "C114_own_partial",
    "C114_copy_partial"
   ],
   "note": "refuted: without assertions, erasing a segment with an iterator of \"/a/b\" from \"http://h/p?q\" leaves \"tp://h/p?q\"; a default-constructed iterator given to erase or replace is a null pointer that is followed before it is checked, in every build. Strongest true version proved: comparison as stated; with assertions enabled every foreign iterator is refused, with the exact outcome, and no text changes; in every build no other url changes; own iterators work as with a single url; the exact effect of iterators of a copy without assertions."
  },
  {
   "property": "C115",
   "status": "proved",
   "theorems": [
    "C115_programs",
    "C115_continued",
    "C115_determined",
    "C115_portable"
   ],
   "note": ""
  },
  {
   "property": "C116",
   "status": "proved",
   "theorems": [
    "C116_holders",
    "C116_continued",
    "C116_determined",
    "C116_portable",
    "C116_kept_segments",
    "C116_kept_params"
   ],
   "note": ""
  },
  {
   "property": "C117",
   "status": "proved",
   "theorems": [
    "C117_texts",
    "C117_continued",
    "C117_pieces",
    "C117_elements",
    "C117_determined",
    "C117_portable"
   ],
   "note": ""
  },
  {
   "property": "C118",
   "status": "proved",
   "theorems": [
    "C118_wholes",
    "C118_continued",
    "C118_determined",
    "C118_portable"
   ],
   "note": ""
  },
  {
   "property": "C119",
   "status": "proved",
   "theorems": [
    "C119_views",
    "C119_continued",
    "C119_determined",
    "C119_portable",
    "C119_parts",
    "C119_kept"
   ],
   "note": ""
  },
  {
   "property": "C12",
   "status": "proved",
   "theorems": [
    "C12_port_grammar",
    "C12_port_string_is_canonical_decimal",
    "C12_set_port_stores"
   ],
   "note": ""
  },
  {
   "property": "C120",
   "status": "proved",
   "theorems": [
    "C120_accessors",
    "C120_iterating",
    "C120_modified"
   ],
   "note": ""
  },
  {
   "property": "C121",
   "status": "proved",
   "theorems": [
    "C121_views",
    "C121_urls",
    "C121_url_and_view",
    "C121_undelimited_views",
    "C121_undelimited_urls"
   ],
   "note": ""
  },
  {
   "property": "C122",
   "status": "proved",
   "theorems": [
    "C122_written_back",
    "C122_refused"
   ],
   "note": ""
  },
  {
   "property": "C123",
   "status": "proved",
   "theorems": [
    "C123_decoded_back",
    "C123_parameters_refuted",
    "C123_host_type_refuted"
   ],
   "note": "the last sentence of the property is the two theorems with suffix _refuted (witnesses 'x:?a=1%26b=2' and '//%31.2.3.4')"
  },
  {
   "property": "C13",
   "status": "proved",
   "theorems": [
    "C13_composite_accessors",
    "C07_parsing_is_lossless"
   ],
   "note": ""
  },
  {
   "property": "C14",
   "status": "proved",
   "theorems": [
    "C14_plain_setters_round_trip"
   ],
   "note": ""
  },
  {
   "property": "C15",
   "status": "partial",
   "theorems": [
    "C15_encoded_setters_store_their_argument_partial",
    "C15_userinfo_exact",
    "C15_userinfo_refuted"
   ],
   "note": "refuted for set_encoded_userinfo with a password (split position off by two) and for set_encoded_origin with trailing characters; strongest true version proved: all other calls, and the exact effect of set_encoded_userinfo"
  },
  {
   "property": "C16",
   "status": "proved",
   "theorems": [
    "C16_setters_leave_the_rest_alone"
   ],
   "note": "set_encoded_origin with trailing characters is excluded and refuted under C37"
  },
  {
   "property": "C17",
   "status": "proved",
   "theorems": [
    "C17_throwing_modifiers_change_nothing"
   ],
   "note": "all setters; segment editing is covered separately"
  },
  {
   "property": "C18",
   "status": "partial",
   "theorems": [
    "C18_rejects_exactly_the_invalid_partial",
    "C18_origin_refuted"
   ],
   "note": "refuted for set_encoded_origin (accepts trailing characters); proved as iff for every other setter"
  },
  {
   "property": "C19",
   "status": "partial",
   "theorems": [
    "C19_histories_are_sound_partial",
    "C19_next_call_partial",
    "C19_userinfo_refuted",
    "C19_port_part_refuted",
    "C19_set_user_refuted",
    "C08_password_part_refuted"
   ],
   "note": "refuted by three calls and by the accessor password_part(); strongest true version proved: all histories without those calls, all accessors except password_part(), for which see C97"
  },
  {
   "property": "C20",
   "status": "partial",
   "theorems": [
    "C20_terminated_after_construction_partial",
    "C20_termination_is_kept",
    "C20_default_constructed_refuted"
   ],
   "note": "refuted for default-constructed urls; proved for all histories starting from a non-empty string"
  },
  {
   "property": "C21",
   "status": "partial",
   "theorems": [
    "C21_reparses_exactly_if_path_fits_partial",
    "C21_reparse_refuted"
   ],
   "note": "refuted; proved: it re-parses to the same components iff the path fits the rest"
  },
  {
   "property": "C22",
   "status": "partial",
   "theorems": [
    "C22_url_segments",
    "C22_views_are_covered",
    "C22_urls_are_covered",
    "C22_view_segments_partial",
    "C22_view_with_query_never_ends",
    "C22_view_segments_refuted"
   ],
   "note": "refuted for url_view and const url when there is a query and a non-empty path: iterating never reaches end() (C22_view_with_query_never_ends, for all such URLs); strongest true version proved: always right for a (non-const) url, right for views exactly if there is no query or no path"
  },
  {
   "property": "C23",
   "status": "partial",
   "theorems": [
    "C23_url_segments_bidirectional",
    "C23_view_segments_bidirectional_partial",
    "C23_view_refuted"
   ],
   "note": "refuted for url_view and const url with a query; proved for every url (non-const), and for views without query"
  },
  {
   "property": "C24",
   "status": "partial",
   "theorems": [
    "C24_params_partial",
    "C24_usual_params_exactly",
    "C24_params_never_end",
    "C24_fragment_refuted",
    "C24_ampersand_refuted"
   ],
   "note": "refuted: a fragment after a parameter without '=' makes iteration fail, and keys extend across '&'; strongest true version proved: exactly when iteration works and exactly which parameters it yields"
  },
  {
   "property": "C25",
   "status": "partial",
   "theorems": [
    "C25_params_bidirectional_partial",
    "C25_first_parameter_refuted",
    "C25_stale_sizes_refuted",
    "C25_ampersand_refuted"
   ],
   "note": "refuted for the first parameter (stale sizes) and for keys containing '&'; strongest true version proved: exact effect of -- at every position"
  },
  {
   "property": "C26",
   "status": "proved",
   "theorems": [
    "C26_lookup_is_a_multimap",
    "C26_contains_iff_counted"
   ],
   "note": "for all URLs whose parameters can be iterated (C24)"
  },
  {
   "property": "C27",
   "status": "proved",
   "theorems": [
    "C27_key_equal_is_decode_and_compare"
   ],
   "note": ""
  },
  {
   "property": "C28",
   "status": "partial",
   "theorems": [
    "C28_constructed_urls_are_covered",
    "C28_release_urls_are_covered",
    "C28_edits_are_list_operations_partial",
    "C28_edit_sequences_partial",
    "C28_append_refuted",
    "C28_replace_last_refuted",
    "C28_after_shrinking_refuted",
    "C28_default_url_refuted",
    "C28_relative_insert_is_wrong",
    "C28_relative_erase_is_wrong"
   ],
   "note": "refuted as stated: in debug builds an assertion fires at the end of a path without a query and after a shrinking modifier; a default-constructed url reads an unwritten byte. Strongest true version proved: for every editable url every edit in range is the list operation, returns the right position, keeps everything else, and leaves the URL untouched on an exception; the asserting case and the first segment of relative paths are characterised exactly."
  },
  {
   "property": "C29",
   "status": "partial",
   "theorems": [
    "C29_counters_right_partial",
    "C29_counters_never_updated",
    "C29_counters_refuted"
   ],
   "note": "refuted for set_encoded_path and set_query; proved for histories of the other calls; proved that no setter but set_encoded_url ever updates the counters"
  },
  {
   "property": "C30",
   "status": "partial",
   "theorems": [
    "C30_host_type_right_partial",
    "C30_host_type_refuted"
   ],
   "note": "refuted for set_encoded_authority, set_encoded_origin and removal of the host; proved for histories of the other calls"
  },
  {
   "property": "C31",
   "status": "proved",
   "theorems": [
    "C31_storage_is_sound",
    "C31_storage_call",
    "C31_url_uses_this_storage",
    "C31_url_call",
    "C31_url_history"
   ],
   "note": ""
  },
  {
   "property": "C32",
   "status": "partial",
   "theorems": [
    "C32_known_iff_name",
    "C32_unknown_otherwise_partial",
    "C32_to_string_inverse",
    "C32_is_special_partial",
    "C32_schemes_of_urls",
    "C32_negative_characters_refuted"
   ],
   "note": "refuted for strings with negative characters (undefined behaviour of tolower); proved for all ASCII strings, hence all schemes of URLs; recognition of the known names is proved for all strings"
  },
  {
   "property": "C33",
   "status": "proved",
   "theorems": [
    "C33_normalize_lower_cases_the_scheme",
    "C33_normalize_is_idempotent",
    "C33_recognised_as_before"
   ],
   "note": ""
  },
  {
   "property": "C34",
   "status": "partial",
   "theorems": [
    "C34_character_blocks",
    "C34_blocks_partial",
    "C34_given_back_partial",
    "C34_blocks_are_aligned_partial",
    "C34_failure_changes_nothing",
    "C34_exact",
    "C34_alignment_refuted",
    "C34_overflow_refuted"
   ],
   "note": "refuted for alignments that do not divide the end of the buffer, and for overflowing requests; proved for characters and for all other alignments; exact behaviour proved"
  },
  {
   "property": "C35",
   "status": "partial",
   "theorems": [
    "C35_removal_succeeds_partial",
    "C35_removal_twice_partial",
    "C35_removing_user_twice_refuted"
   ],
   "note": "refuted for set_user(\"\") with assertions enabled; proved otherwise"
  },
  {
   "property": "C36",
   "status": "partial",
   "theorems": [
    "C36_replacement_is_fresh_partial",
    "C36_replacement_rejects_like_construction",
    "C36_empty_refuted"
   ],
   "note": "refuted for the empty string; proved for every other string"
  },
  {
   "property": "C37",
   "status": "partial",
   "theorems": [
    "C37_origin_is_replaced_partial",
    "C37_trailing_characters_refuted"
   ],
   "note": "refuted: trailing characters are accepted; proved for every origin"
  },
  {
   "property": "C38",
   "status": "partial",
   "theorems": [
    "C38_last_writer_wins_partial",
    "C38_empty_user_refuted"
   ],
   "note": "refuted when the last value of user or password is empty; proved otherwise"
  },
  {
   "property": "C39",
   "status": "proved",
   "theorems": [
    "C39_setters_commute"
   ],
   "note": "for the orders in which both calls succeed; whether a path is valid can depend on the order"
  },
  {
   "property": "C40",
   "status": "partial",
   "theorems": [
    "C40_copy_assignment_refuted"
   ],
   "note": "refuted: the assignment operator does nothing"
  },
  {
   "property": "C41",
   "status": "partial",
   "theorems": [
    "C41_unsigned_char_exact",
    "C41_platforms_agree_refuted"
   ],
   "note": "refuted; the language accepted where char is unsigned is proved exactly"
  },
  {
   "property": "C42",
   "status": "proved",
   "theorems": [
    "C42_empty_user_exact"
   ],
   "note": ""
  },
  {
   "property": "C43",
   "status": "proved",
   "theorems": [
    "C43_port_colon_exact"
   ],
   "note": ""
  },
  {
   "property": "C44",
   "status": "partial",
   "theorems": [
    "C44_growth_refuted"
   ],
   "note": "refuted: from half of max_size() on the storage asks for one byte more than max_size()"
  },
  {
   "property": "C45",
   "status": "proved",
   "theorems": [
    "C45_mixed_sequences_are_sound",
    "C45_modifiers_in_sequences",
    "C45_edits_in_sequences"
   ],
   "note": "edits at the first segment of a relative path are excluded (C28)"
  },
  {
   "property": "C46",
   "status": "proved",
   "theorems": [
    "C46_size_after_every_call"
   ],
   "note": ""
  },
  {
   "property": "C47",
   "status": "proved",
   "theorems": [
    "C47_edits_abort_when_sizes_disagree",
    "C47_edits_abort_after_shortening",
    "C47_mixing_refuted"
   ],
   "note": "C47_mixing_refuted: a concrete sequence that aborts only with assertions enabled"
  },
  {
   "property": "C48",
   "status": "proved",
   "theorems": [
    "C48_segment_strings",
    "C48_well_encoded_paths",
    "C48_modifiers_keep_it",
    "C48_edits_keep_it",
    "C48_histories",
    "C48_insert_then_read",
    "C48_replace_then_read",
    "C48_lax_path_refuted",
    "C48_lax_path_in_url_refuted",
    "C48_lax_path_reads_on_refuted",
    "C48_string_at_end"
   ],
   "note": "The three _refuted theorems show the last sentence: for paths outside RFC 3986 that the parser accepts, string() reads outside the segment."
  },
  {
   "property": "C49",
   "status": "proved",
   "theorems": [
    "C49_param_strings"
   ],
   "note": "iterable: see C24 for when iteration works."
  },
  {
   "property": "C50",
   "status": "proved",
   "theorems": [
    "C50_default_ranges_are_empty",
    "C50_default_iterators_refuted"
   ],
   "note": "The second theorem records that misuse of such an iterator is caught by an assertion for parameters only."
  },
  {
   "property": "C51",
   "status": "proved",
   "theorems": [
    "C51_edits_keep_earlier_iterators",
    "C51_modifiers_shift_iterators",
    "C51_query_and_fragment_keep_iterators",
    "C51_stale_iterator_refuted"
   ],
   "note": "C51_stale_iterator_refuted: an example of an iterator that does not survive, after set_scheme."
  },
  {
   "property": "C52",
   "status": "partial",
   "theorems": [
    "C52_use_after_free_refuted",
    "C52_shifted_text_refuted"
   ],
   "note": "refuted: use after free when the buffer grows, shifted and unvalidated text when the view lies behind the change; strongest true version proved: C53, C54, C55"
  },
  {
   "property": "C53",
   "status": "proved",
   "theorems": [
    "C53_text_elsewhere",
    "C53_own_text"
   ],
   "note": "views behind the first replaced character, with enough capacity, have no uniform description and are left out (C52 shows they go wrong); set_encoded_url is settled completely by C55"
  },
  {
   "property": "C54",
   "status": "proved",
   "theorems": [
    "C54_own_segment"
   ],
   "note": ""
  },
  {
   "property": "C55",
   "status": "proved",
   "theorems": [
    "C55_replaced_by_piece"
   ],
   "note": ""
  },
  {
   "property": "C56",
   "status": "proved",
   "theorems": [
    "C56_earlier_views",
    "C56_modifiers_have_effects"
   ],
   "note": ""
  },
  {
   "property": "C57",
   "status": "proved",
   "theorems": [
    "C03_validator_exact_upper_case"
   ],
   "note": "exact form of C03"
  },
  {
   "property": "C58",
   "status": "proved",
   "theorems": [
    "C06_accepts_exactly_its_grammar",
    "C06_reports_the_decomposition",
    "C06_decomposition_is_unique"
   ],
   "note": "exact form of C06"
  },
  {
   "property": "C59",
   "status": "proved",
   "theorems": [
    "C11_ipv6_literals_accepted"
   ],
   "note": "exact form of C11"
  },
  {
   "property": "C60",
   "status": "proved",
   "theorems": [
    "C60_exactly_these_calls_damage",
    "C60_other_histories_are_sound"
   ],
   "note": "exact form of C19"
  },
  {
   "property": "C61",
   "status": "proved",
   "theorems": [
    "C61_reparses_iff_the_path_fits"
   ],
   "note": "exact form of C21"
  },
  {
   "property": "C62",
   "status": "proved",
   "theorems": [
    "C62_view_segments_exactly"
   ],
   "note": "exact form of C22"
  },
  {
   "property": "C63",
   "status": "proved",
   "theorems": [
    "C63_params_exactly"
   ],
   "note": "exact form of C24"
  },
  {
   "property": "C64",
   "status": "proved",
   "theorems": [
    "C64_decrement_exactly"
   ],
   "note": "exact form of C25"
  },
  {
   "property": "C65",
   "status": "proved",
   "theorems": [
    "C65_edits_exactly",
    "C65_edit_sequences",
    "C28_relative_insert_is_wrong",
    "C28_relative_erase_is_wrong"
   ],
   "note": "exact form of C28; the last two theorems are the sentence about relative paths"
  },
  {
   "property": "C66",
   "status": "proved",
   "theorems": [
    "C66_counters_describe_the_last_replacement",
    "C66_every_history_has_one"
   ],
   "note": "exact form of C29"
  },
  {
   "property": "C67",
   "status": "proved",
   "theorems": [
    "C67_host_type_describes_the_last_host",
    "C67_every_history_has_one"
   ],
   "note": "exact form of C30"
  },
  {
   "property": "C68",
   "status": "proved",
   "theorems": [
    "C68_accepted_text_starts_with_an_origin",
    "C68_whole_url_as_origin"
   ],
   "note": "exact form of C37"
  },
  {
   "property": "C69",
   "status": "proved",
   "theorems": [
    "C69_removal_exactly",
    "C69_set_then_remove"
   ],
   "note": "exact form of C35 and C38"
  },
  {
   "property": "C70",
   "status": "proved",
   "theorems": [
    "C70_growth_exactly"
   ],
   "note": "exact form of C44"
  },
  {
   "property": "C71",
   "status": "proved",
   "theorems": [
    "C71_scheme_exactly"
   ],
   "note": "exact form of C32"
  },
  {
   "property": "C72",
   "status": "proved",
   "theorems": [
    "C72_empty_url_exactly"
   ],
   "note": "exact form of C36"
  },
  {
   "property": "C73",
   "status": "proved",
   "theorems": [
    "C34_exact"
   ],
   "note": "exact form of C34"
  },
  {
   "property": "C74",
   "status": "proved",
   "theorems": [
    "C41_unsigned_char_exact"
   ],
   "note": "exact form of C41"
  },
  {
   "property": "C75",
   "status": "proved",
   "theorems": [
    "C15_userinfo_exact"
   ],
   "note": "exact form of C15"
  },
  {
   "property": "C76",
   "status": "proved",
   "theorems": [
    "C76_rejects_exactly"
   ],
   "note": "exact form of C18; for set_encoded_origin see C68"
  },
  {
   "property": "C77",
   "status": "proved",
   "theorems": [
    "C77_held_ranges",
    "C56_modifiers_have_effects"
   ],
   "note": ""
  },
  {
   "property": "C78",
   "status": "proved",
   "theorems": [
    "C78_parse_error_condition",
    "C78_values",
    "C78_messages"
   ],
   "note": ""
  },
  {
   "property": "C79",
   "status": "proved",
   "theorems": [
    "C79_few_allocations",
    "C79_capacity"
   ],
   "note": ""
  },
  {
   "property": "C80",
   "status": "proved",
   "theorems": [
    "C80_observers",
    "C80_modifiers"
   ],
   "note": ""
  },
  {
   "property": "C81",
   "status": "proved",
   "theorems": [
    "C81_values_stay"
   ],
   "note": ""
  },
  {
   "property": "C82",
   "status": "proved",
   "theorems": [
    "C82_buffers_are_private",
    "C82_calls",
    "C82_one_allocation"
   ],
   "note": ""
  },
  {
   "property": "C83",
   "status": "proved",
   "theorems": [
    "C83_pool_suffices",
    "C83_text_size_refuted"
   ],
   "note": "the refuted part is the last sentence of the statement"
  },
  {
   "property": "C84",
   "status": "proved",
   "theorems": [
    "C84_regular_expression",
    "C84_library_agrees"
   ],
   "note": ""
  },
  {
   "property": "C85",
   "status": "proved",
   "theorems": [
    "C85_observers",
    "C85_segments",
    "C85_params",
    "C85_construction",
    "C85_modifiers",
    "C85_edits",
    "C85_programs"
   ],
   "note": ""
  },
  {
   "property": "C86",
   "status": "proved",
   "theorems": [
    "C86_when_the_text_tells",
    "C86_plain_setters_cannot_inject",
    "C86_no_call_injects",
    "C86_relative_path_refuted"
   ],
   "note": "The condition on the path is necessary: C86_relative_path_refuted."
  },
  {
   "property": "C87",
   "status": "proved",
   "theorems": [
    "C87_edits_cannot_inject",
    "C87_empty_segment_refuted"
   ],
   "note": "The exception is real: C87_empty_segment_refuted."
  },
  {
   "property": "C88",
   "status": "proved",
   "theorems": [
    "C88_parsing_is_linear",
    "C88_every_character_is_looked_at",
    "C88_origin_is_linear",
    "C88_pieces_are_linear",
    "C88_validation_is_linear"
   ],
   "note": "Steps are pointer comparisons, readings of characters, pointer movements, tests and assignments of the error code, assignments to parts."
  },
  {
   "property": "C89",
   "status": "proved",
   "theorems": [
    "C89_pools_share_nothing",
    "C89_every_block_is_in_a_pool",
    "C89_different_arrays_share_nothing",
    "C89_copy_gives_out_the_same_block",
    "C89_copies_refuted"
   ],
   "note": "Finding: with copies the blocks of pools are not disjoint (C89_copies_refuted). Pools cannot be assigned (const members)."
  },
  {
   "property": "C90",
   "status": "proved",
   "theorems": [
    "C90_calls_do_not_overflow",
    "C90_programs_do_not_overflow",
    "C90_edits_do_not_overflow",
    "C90_usual_machines",
    "C90_huge_texts_refuted"
   ],
   "note": "Finding: without the bound it is false; on a 32 bit machine set_query with a text of 1431655766 characters to encode writes behind its buffer (C90_huge_texts_refuted)."
  },
  {
   "property": "C91",
   "status": "proved",
   "theorems": [
    "C91_buffers_are_private",
    "C91_actions",
    "C91_one_allocation",
    "C91_pool_suffices",
    "C91_modifiers_bound_refuted"
   ],
   "note": "Finding: replace reserves room beyond the size the storage counts, which modifiers that shorten the url leave as it was, so it can ask for about twice what the url needs (C91_modifiers_bound_refuted, release builds)."
  },
  {
   "property": "C92",
   "status": "proved",
   "theorems": [
    "C92_segments",
    "C92_view_segments",
    "C92_params",
    "C92_lookup"
   ],
   "note": "Segments of a url_view with a query and parameters that are not iterable never end (C22, C24); the url_view statement is for urls without query. Backwards iteration over parameters is broken (C25) and not counted."
  },
  {
   "property": "C93",
   "status": "proved",
   "theorems": [
    "C93_counters_fit",
    "C93_int_suffices",
    "C93_small_memory",
    "C93_bits32",
    "C93_int_overflows",
    "C93_bits64_refuted"
   ],
   "note": "C93_bits64_refuted is the witness that the overflow is reachable with 64-bit size_t and 32-bit int."
  },
  {
   "property": "C94",
   "status": "proved",
   "theorems": [
    "C94_modifiers",
    "C94_modifiers_least",
    "C94_edits",
    "C94_edits_least",
    "C94_hidden_size_refuted"
   ],
   "note": "C94_hidden_size_refuted is the witness that the recorded size cannot be left out of the bound for replace."
  },
  {
   "property": "C95",
   "status": "proved",
   "theorems": [
    "C95_append_is_insert",
    "C95_append_linear",
    "C95_prepend_quadratic"
   ],
   "note": ""
  },
  {
   "property": "C96",
   "status": "proved",
   "theorems": [
    "C96_copy",
    "C96_copy_pieces",
    "C96_pieces_complete",
    "C96_copy_path_first"
   ],
   "note": ""
  },
  {
   "property": "C97",
   "status": "proved",
   "theorems": [
    "C97_password_part"
   ],
   "note": ""
  },
  {
   "property": "C98",
   "status": "proved",
   "theorems": [
    "C98_has_authority",
    "C98_has_userinfo",
    "C98_userinfo",
    "C98_host_and_port",
    "C98_query_part",
    "C98_set_host",
    "C98_set_host_ipv6"
   ],
   "note": ""
  },
  {
   "property": "C99",
   "status": "proved",
   "theorems": [
    "C99_place",
    "C99_valid",
    "C99_edit",
    "C99_stale_reads",
    "C99_params_move",
    "C99_params_valid"
   ],
   "note": ""
  }
 ]
}
