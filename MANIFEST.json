{
 "claims": [
  {
   "property": "C01",
   "status": "proved",
   "theorems": [
    "C01_utf8_round_trip"
   ],
   "note": ""
  },
  {
   "property": "C02",
   "status": "proved",
   "theorems": [
    "C02_utf8_decode_standard"
   ],
   "note": ""
  },
  {
   "property": "C03",
   "status": "proved",
   "theorems": [
    "C03_percent_decode_standard"
   ],
   "note": ""
  },
  {
   "property": "C04",
   "status": "proved",
   "theorems": [
    "C04_percent_encode_alphabet"
   ],
   "note": ""
  },
  {
   "property": "C05",
   "status": "proved",
   "theorems": [
    "C05_encode_then_decode"
   ],
   "note": ""
  },
  {
   "property": "C06",
   "status": "proved",
   "theorems": [
    "C06_encode_idempotent"
   ],
   "note": ""
  },
  {
   "property": "C07",
   "status": "proved",
   "theorems": [
    "C07_percent_encode_sets"
   ],
   "note": ""
  },
  {
   "property": "C08",
   "status": "partial",
   "theorems": [
    "C08_urlencode_refuted",
    "C08_urlencode_partial",
    "C08_urlencode_exact"
   ],
   "note": "False of the code: '~' is left unescaped. Proved: conforms for '~'-free pairs, and in general equals the standard's serializer with '~' removed from the set."
  },
  {
   "property": "C09",
   "status": "proved",
   "theorems": [
    "C09_urlencode_round_trip"
   ],
   "note": ""
  },
  {
   "property": "C10",
   "status": "proved",
   "theorems": [
    "C10_parse_qsl_standard"
   ],
   "note": ""
  },
  {
   "property": "C12",
   "status": "proved",
   "theorems": [
    "C12_legacy_encoding"
   ],
   "note": "Stateless ASCII-compatible codecs only, as the property says."
  },
  {
   "property": "C13",
   "status": "proved",
   "theorems": [
    "C13_ipv4_round_trip"
   ],
   "note": ""
  },
  {
   "property": "C14",
   "status": "partial",
   "theorems": [
    "C14_ipv4_range_refuted",
    "C14_ipv4_range_partial"
   ],
   "note": "False of the code: '256.256' parses to 2^32+256. Proved: the result is below 2^32 when every part but the last is at most 255."
  },
  {
   "property": "C15",
   "status": "partial",
   "theorems": [
    "C15_ipv4_conforms_refuted",
    "C15_ipv4_conforms_partial"
   ],
   "note": "False of the code: int() accepts signs, spaces and underscores, and out-of-range leading parts are let through when the last part is also above 255. Proved: the two parsers agree on exactly the inputs outside odd_address (C80 has the grammar)."
  },
  {
   "property": "C16",
   "status": "partial",
   "theorems": [
    "C16_ends_in_number_refuted",
    "C16_ends_in_number_partial"
   ],
   "note": "False of the code for the int() leniencies. Proved: the exact set of strings for which it says yes (the standard's, and those whose last label only int() reads)."
  },
  {
   "property": "C17",
   "status": "proved",
   "theorems": [
    "C17_ipv4_canonical"
   ],
   "note": ""
  },
  {
   "property": "C18",
   "status": "proved",
   "theorems": [
    "C18_ipv6_round_trip"
   ],
   "note": ""
  },
  {
   "property": "C19",
   "status": "partial",
   "theorems": [
    "C19_ipv6_total_refuted",
    "C19_ipv6_total_partial"
   ],
   "note": "False of the code: embedded IPv4 parts longer than the int/str digit limit raise ValueError. Proved: the only other outcome is IPv6AddressParseError."
  },
  {
   "property": "C20",
   "status": "proved",
   "theorems": [
    "C20_ipv6_serialize_standard"
   ],
   "note": ""
  },
  {
   "property": "C21",
   "status": "partial",
   "theorems": [
    "C21_ipv6_conforms_refuted",
    "C21_ipv6_conforms_partial"
   ],
   "note": "False of the code: it accepts a third leading colon and dotted quads before a colon, and refuses :: after seven pieces. Proved: the parsers agree exactly on all other texts (C81 has the grammars)."
  },
  {
   "property": "C22",
   "status": "proved",
   "theorems": [
    "C22_ipv6_injective"
   ],
   "note": ""
  },
  {
   "property": "C23",
   "status": "partial",
   "theorems": [
    "C23_host_round_trip_refuted",
    "C23_host_round_trip_partial"
   ],
   "note": "False of the code for IPv4 values of 2^32 or more. Proved for exactly the others (an iff), assuming UTS46 ToASCII is stable on its own output (idna_ok)."
  },
  {
   "property": "C24",
   "status": "proved",
   "theorems": [
    "C24_no_forbidden_code_points"
   ],
   "note": ""
  },
  {
   "property": "C25",
   "status": "proved",
   "theorems": [
    "C25_host_nonempty"
   ],
   "note": ""
  },
  {
   "property": "C66",
   "status": "partial",
   "theorems": [
    "C66_validity_state_partial",
    "C66_validity_state_raising_refuted",
    "C66_raising"
   ],
   "note": "Proved for operations that return normally; a prepend that raises while formatting its description leaves an inconsistent state. C66_raising has the exact relation then."
  },
  {
   "property": "C67",
   "status": "partial",
   "theorems": [
    "C67_valid_ipv4_refuted",
    "C67_valid_ipv4_partial"
   ],
   "note": "False of the code: int() leniency. Proved: complete for the grammar, and sound for ASCII strings without whitespace, signs and underscores (C80 has the exact set)."
  },
  {
   "property": "C68",
   "status": "proved",
   "theorems": [
    "C68_url_units"
   ],
   "note": ""
  },
  {
   "property": "C69",
   "status": "proved",
   "theorems": [
    "C69_valid_opaque_host"
   ],
   "note": ""
  },
  {
   "property": "C70",
   "status": "proved",
   "theorems": [
    "C70_valid_ipv6"
   ],
   "note": ""
  },
  {
   "property": "C71",
   "status": "proved",
   "theorems": [
    "C71_scheme_validity"
   ],
   "note": ""
  },
  {
   "property": "C11",
   "status": "proved",
   "theorems": [
    "C11_urlencode_embeds"
   ],
   "note": ""
  },
  {
   "property": "C26",
   "status": "proved",
   "theorems": [
    "C26_parser_terminates"
   ],
   "note": ""
  },
  {
   "property": "C27",
   "status": "partial",
   "theorems": [
    "C27_only_url_errors_refuted",
    "C27_only_url_errors_partial"
   ],
   "note": "False of the code: a port (or IPv4/IPv6 part) longer than CPython's int/str digit limit raises ValueError, also out of can_parse. Proved: ValueError is the only other exception and needs that limit; C126 says exactly when it is raised."
  },
  {
   "property": "C28",
   "status": "partial",
   "theorems": [
    "C28_failure_explained_refuted",
    "C28_failure_explained_partial"
   ],
   "note": "False of the code for the ValueError of C27. Proved for every URLParseError. C126_parser says exactly when the ValueError comes."
  },
  {
   "property": "C29",
   "status": "proved",
   "theorems": [
    "C29_record_invariant"
   ],
   "note": ""
  },
  {
   "property": "C30",
   "status": "proved",
   "theorems": [
    "C30_round_trip",
    "C30_round_trip_v4_refuted"
   ],
   "note": "IPv4 values below 2^32 and stable IDNA, as the property says; the second theorem shows the restriction on IPv4 values is needed."
  },
  {
   "property": "C31",
   "status": "proved",
   "theorems": [
    "C31_href_fixed_point"
   ],
   "note": "Assumes idna_ok."
  },
  {
   "property": "C32",
   "status": "proved",
   "theorems": [
    "C32_base_ignored"
   ],
   "note": "Assumes idna_ok."
  },
  {
   "property": "C33",
   "status": "proved",
   "theorems": [
    "C33_href_printable",
    "C33_reached_printable"
   ],
   "note": "Assumes idna_ok (ToASCII output is ASCII)."
  },
  {
   "property": "C34",
   "status": "proved",
   "theorems": [
    "C34_whitespace_ignored"
   ],
   "note": ""
  },
  {
   "property": "C35",
   "status": "proved",
   "theorems": [
    "C35_scheme_case"
   ],
   "note": ""
  },
  {
   "property": "C36",
   "status": "proved",
   "theorems": [
    "C36_clean_segments"
   ],
   "note": ""
  },
  {
   "property": "C37",
   "status": "proved",
   "theorems": [
    "C37_no_default_port"
   ],
   "note": ""
  },
  {
   "property": "C38",
   "status": "partial",
   "theorems": [
    "C38_empty_reference_refuted",
    "C38_empty_reference_partial"
   ],
   "note": "False of the code for file bases: an empty segment is appended to the path. Proved for all other schemes, and the exact result for file."
  },
  {
   "property": "C39",
   "status": "proved",
   "theorems": [
    "C39_hash_reference"
   ],
   "note": ""
  },
  {
   "property": "C40",
   "status": "proved",
   "theorems": [
    "C40_query_reference"
   ],
   "note": ""
  },
  {
   "property": "C44",
   "status": "proved",
   "theorems": [
    "C44_encoding_only_query"
   ],
   "note": ""
  },
  {
   "property": "C45",
   "status": "proved",
   "theorems": [
    "C45_backslash"
   ],
   "note": ""
  },
  {
   "property": "C72",
   "status": "proved",
   "theorems": [
    "C72_urlparse_components"
   ],
   "note": ""
  },
  {
   "property": "C73",
   "status": "proved",
   "theorems": [
    "C73_drive_letter_kept"
   ],
   "note": ""
  },
  {
   "property": "C74",
   "status": "proved",
   "theorems": [
    "C74_no_climbing"
   ],
   "note": ""
  },
  {
   "property": "C59",
   "status": "partial",
   "theorems": [
    "C59_list_operations_refuted",
    "C59_list_operations_partial",
    "C59_list_operations_decoded"
   ],
   "note": "False of the code: names (and values of append/set) are percent-decoded first, and has/delete never match a number. Proved: conforms for arguments without %XY escapes; for all arguments the effect is the standard's operation on the decoded strings."
  },
  {
   "property": "C60",
   "status": "proved",
   "theorems": [
    "C60_set_exactly_one"
   ],
   "note": ""
  },
  {
   "property": "C61",
   "status": "proved",
   "theorems": [
    "C61_sort_stable"
   ],
   "note": "list.sort and icu.UnicodeString order are modelled (stable insertion sort by UTF-16 code units)."
  },
  {
   "property": "C62",
   "status": "proved",
   "theorems": [
    "C62_copies"
   ],
   "note": ""
  },
  {
   "property": "C63",
   "status": "partial",
   "theorems": [
    "C63_has_after_append_refuted",
    "C63_has_after_append_partial"
   ],
   "note": "False of the code for numbers and for values with %XY escapes. Proved for all other values, and the exact result in every case."
  },
  {
   "property": "C64",
   "status": "partial",
   "theorems": [
    "C64_lookup_refuted",
    "C64_lookup_partial"
   ],
   "note": "False of the code for names with %XY escapes. Proved for all other names; the names for which it holds are exactly those unchanged by percent-decoding."
  },
  {
   "property": "C75",
   "status": "proved",
   "theorems": [
    "C75_dict_constructor"
   ],
   "note": ""
  },
  {
   "property": "C46",
   "status": "proved",
   "theorems": [
    "C46_setters_local",
    "C46_protocol_port",
    "C46_list_untouched"
   ],
   "note": ""
  },
  {
   "property": "C47",
   "status": "partial",
   "theorems": [
    "C47_raise_unchanged_refuted",
    "C47_raise_unchanged_partial",
    "C47_exactly",
    "C47_changed"
   ],
   "note": "False of the code: url.host = 'example.com:99999' raises after replacing the host. Proved: the exact set of such assignments and their effect."
  },
  {
   "property": "C48",
   "status": "partial",
   "theorems": [
    "C48_invariant_kept_refuted",
    "C48_invariant_kept_partial",
    "C48_exactly"
   ],
   "note": "False of the code for port 0, which the host and protocol setters treat as no port. Proved for every object whose port is not 0, and for the rest of the record when it is; exactly the objects with a port but no host that may have one break the invariant."
  },
  {
   "property": "C49",
   "status": "partial",
   "theorems": [
    "C49_reparse_refuted",
    "C49_reparse_partial"
   ],
   "note": "False of the code for port 0 without a host, and for file URLs made by the protocol setter that keep 'localhost' or 'C|'. Proved: exactly those objects and IPv4 values of 2^32 or more do not come back; assumes idna_ok."
  },
  {
   "property": "C50",
   "status": "proved",
   "theorems": [
    "C50_params_in_sync"
   ],
   "note": ""
  },
  {
   "property": "C51",
   "status": "proved",
   "theorems": [
    "C51_no_default_port"
   ],
   "note": ""
  },
  {
   "property": "C52",
   "status": "proved",
   "theorems": [
    "C52_guarded_setters"
   ],
   "note": ""
  },
  {
   "property": "C53",
   "status": "proved",
   "theorems": [
    "C53_set_get"
   ],
   "note": "Tabs and newlines are removed from the new hash and search, as the standard says."
  },
  {
   "property": "C54",
   "status": "proved",
   "theorems": [
    "C54_equality"
   ],
   "note": ""
  },
  {
   "property": "C55",
   "status": "partial",
   "theorems": [
    "C55_can_parse_refuted",
    "C55_can_parse_partial",
    "C55_can_parse_no_limit"
   ],
   "note": "False of the code: can_parse raises ValueError for some URLs with huge IPv4 numbers that the constructor accepts. Proved: whenever can_parse returns, it agrees; in full without the int/str digit limit. C126_can_parse says exactly when the ValueError comes."
  },
  {
   "property": "C56",
   "status": "partial",
   "theorems": [
    "C56_origin_refuted",
    "C56_origin_partial"
   ],
   "note": "False of the code for a blob URL whose path makes the parser raise ValueError. Proved for everything else."
  },
  {
   "property": "C57",
   "status": "partial",
   "theorems": [
    "C57_same_origin",
    "C57_reparse_refuted",
    "C57_reparse_partial"
   ],
   "note": "The equivalence-relation part is proved in full. The re-parse part is false of the code for IPv4 values of 2^32 or more and proved for exactly the others (assumes idna_ok)."
  },
  {
   "property": "C58",
   "status": "partial",
   "theorems": [
    "C58_origin_domain_refuted",
    "C58_origin_domain_partial"
   ],
   "note": "False of the code for the domain '' (never set by the library itself). Proved otherwise."
  },
  {
   "property": "C65",
   "status": "proved",
   "theorems": [
    "C65_valid_parsable",
    "C65_valid_exactly"
   ],
   "note": ""
  },
  {
   "property": "C42",
   "status": "proved",
   "theorems": [
    "C42_base_untouched"
   ],
   "note": "On the heap model HeapParser.v, proved to compute the same as Parser.v."
  },
  {
   "property": "C43",
   "status": "partial",
   "theorems": [
    "C43_pairs_refuted",
    "C43_pairs_partial"
   ],
   "note": "False of the code for opaque paths, which are encoded one character at a time. Proved: same errors, and equal records up to the text of an opaque path."
  },
  {
   "property": "C76",
   "status": "proved",
   "theorems": [
    "C76_no_shared_state"
   ],
   "note": "On the heap model HeapParser.v."
  },
  {
   "property": "C41",
   "status": "partial",
   "theorems": [
    "C41_conforms_refuted",
    "C41_limit_refuted",
    "C41_conforms_partial",
    "C41_short",
    "C41_file_only",
    "C41_long_port"
   ],
   "note": "False of the code when the base is a file URL and the input is empty or only 'file:' (an empty segment is added), and when the run reads a port beyond the int/str digit limit (ValueError). Proved for every other scalar value string and base against the standard's machine (SpecParser.v), with the exact outcome in both exceptional cases."
  },
  {
   "property": "C77",
   "status": "partial",
   "theorems": [
    "C77_host_refuted",
    "C77_host_partial"
   ],
   "note": "False of the code, which lets int() read numbers like 1_0. Proved: the two host parsers agree on exactly the hosts outside odd_host, the irregular IPv4 and IPv6 forms of C15, C16 and C21."
  },
  {
   "property": "C78",
   "status": "partial",
   "theorems": [
    "C78_whole_refuted",
    "C78_whole_partial",
    "C78_whole_exact",
    "C78_whole_exact_string"
   ],
   "note": "False of the code for the reasons of C41 and C77. Proved when the host that is parsed is regular and C41's exceptions do not apply. For a base that is a record or absent the condition on the host is exact: the outcomes agree if and only if the host is regular or both fail. For a base string with a regular host the condition on the host of the input is exact in the same sense."
  },
  {
   "property": "C79",
   "status": "partial",
   "theorems": [
    "C79_setters_refuted",
    "C79_setters_partial"
   ],
   "note": "False of the code for port 0, which the host and protocol setters treat as no port. Proved to hold exactly outside the cases of port 0 in SpecWhole.v, for values of any length without surrogates whose port text (if any) int() reads; longer ports raise ValueError (C126_setters). The standard's machine with a state override is SpecSetters.v."
  },
  {
   "property": "C80",
   "status": "proved",
   "theorems": [
    "C80_ipv4_exactly"
   ],
   "note": "The grammar of int() literals is in SpecPyInt.v; limit_ok (digit limit absent or at least 640, as CPython enforces) is assumed for the parser."
  },
  {
   "property": "C81",
   "status": "proved",
   "theorems": [
    "C81_ipv6_exactly"
   ],
   "note": "The grammars are in SpecIPv6.v; limit_ok (digit limit absent or at least 640, as CPython enforces) is assumed for the code."
  },
  {
   "property": "C82",
   "status": "partial",
   "theorems": [
    "C82_get_set_refuted",
    "C82_get_set_partial",
    "C82_get_set_host_partial",
    "C82_get_set_exact",
    "C82_get_set_empty"
   ],
   "note": "False of the code (and of the standard) where the getter does not tell empty from absent, and false for port 0 without a host and for file URLs made by the protocol setter. Proved for every other object, with the exact effect in the empty/absent cases; C82_get_set_exact has equivalences."
  },
  {
   "property": "C83",
   "status": "partial",
   "theorems": [
    "C83_last_wins_refuted",
    "C83_last_wins_partial",
    "C83_last_wins_exact"
   ],
   "note": "False for host (the value may leave out the port), protocol (may drop the port) and for removing hash or search from an opaque path with trailing spaces. Proved for all other attributes and values."
  },
  {
   "property": "C84",
   "status": "proved",
   "theorems": [
    "C84_independent_commute",
    "C84_no_others"
   ],
   "note": "The relation of unrelated calls is in SpecLaws.v; C84_no_others has a counterexample for every pair of components outside it."
  },
  {
   "property": "C85",
   "status": "partial",
   "theorems": [
    "C85_setters_whole_refuted",
    "C85_setters_whole_partial",
    "C85_setters_exact"
   ],
   "note": "False of the code where C77 and C79 are. Proved when the host that the setter parses (if any) is regular in the sense of C77, and C79's exceptions do not apply. The condition on the host is exact: the results agree if and only if it is regular or both fail without changing the record."
  },
  {
   "property": "C86",
   "status": "proved",
   "theorems": [
    "C86_objects_isolated",
    "C86_all_reached",
    "C86_others_unchanged"
   ],
   "note": "On the heap of World.v, for programs that do not call attach() or URLSearchParams(record) themselves (C87 is about those)."
  },
  {
   "property": "C87",
   "status": "partial",
   "theorems": [
    "C87_always_shown_refuted",
    "C87_record_shown_partial",
    "C87_url_shown_partial"
   ],
   "note": "False of the code: attach() disconnects url.search_params from its URL, and of two objects on one record only one follows. Proved for every program, attach included, in which nobody else writes the query of the record, and for the URL objects of every program without attach."
  },
  {
   "property": "C88",
   "status": "partial",
   "theorems": [
    "C88_live_refuted",
    "C88_ended_refuted",
    "C88_entries_partial",
    "C88_ended",
    "C88_names_snapshot"
   ],
   "note": "False of the code: entries() keeps the old list after assignments to search or href and never goes on after its end; keys() and values() are snapshots. Proved: entries() is live until one of these happens, an ended iterator stays ended, and keys()/values() give the names and values of the time of the call."
  },
  {
   "property": "C89",
   "status": "proved",
   "theorems": [
    "C89_fragment_separate",
    "C89_fragment_added"
   ],
   "note": "The exceptions are exact (an equivalence)."
  },
  {
   "property": "C90",
   "status": "proved",
   "theorems": [
    "C90_query_separate",
    "C90_query_added"
   ],
   "note": ""
  },
  {
   "property": "C91",
   "status": "proved",
   "theorems": [
    "C91_scheme_relative"
   ],
   "note": ""
  },
  {
   "property": "C92",
   "status": "proved",
   "theorems": [
    "C92_absolute_path"
   ],
   "note": "Under limit_ok and idna_ok, as for the round trip (C30); hosts that are the out-of-range IPv4 numbers of C14 are excluded."
  },
  {
   "property": "C93",
   "status": "proved",
   "theorems": [
    "C93_relative_path"
   ],
   "note": "Under limit_ok and idna_ok, as for the round trip (C30); hosts that are the out-of-range IPv4 numbers of C14 are excluded."
  },
  {
   "property": "C94",
   "status": "proved",
   "theorems": [
    "C94_relative_form"
   ],
   "note": "Under limit_ok and idna_ok, as for the round trip (C30); hosts that are the out-of-range IPv4 numbers of C14 are excluded."
  },
  {
   "property": "C95",
   "status": "partial",
   "theorems": [
    "C95_reports_refuted",
    "C95_reports_partial",
    "C95_reports_exception",
    "C95_url_reports_partial",
    "C95_any_codec"
   ],
   "note": "False of the code for a file URL whose host is a letter and '|': it reports one invalid-URL-unit more. Proved equal, error for error, in all other cases (C95_any_codec: for any encoding; when no port text is longer than the int limit), and the exact difference in this case."
  },
  {
   "property": "C96",
   "status": "partial",
   "theorems": [
    "C96_host_reports_refuted",
    "C96_domain_reports_partial",
    "C96_opaque_reports_partial",
    "C96_ipv6_reports_partial",
    "C96_ipv6_names_partial",
    "C96_unclosed_partial",
    "C96_silent_partial"
   ],
   "note": "False of the code for IPv6 addresses, where the name of the error can differ, and where int() reads numbers that the standard does not. Proved: the same list for domains and IPv4 addresses without such numbers; for opaque hosts the first report; for IPv6 one report, exactly on failure (none where ValueError escapes), with the standard's name if the text has no dot, does not begin with ':::' and has no colon at the end after which a ninth piece would begin, or if the bracket is not closed; and for all hosts outside C77's exceptions on which no ValueError escapes, reports by both or by neither."
  },
  {
   "property": "C97",
   "status": "partial",
   "theorems": [
    "C97_valid_refuted",
    "C97_valid_partial",
    "C97_encoding"
   ],
   "note": "False of the code for hosts that only int() reads as an IPv4 address. Proved for UTF-8 (C97_encoding: and all other encodings) and hosts outside C77's exceptions, strings of any length: is_valid holds if and only if the standard's condition does and no port text is longer than the int limit."
  },
  {
   "property": "C98",
   "status": "partial",
   "theorems": [
    "C98_valid_silent_refuted",
    "C98_valid_silent_partial",
    "C98_any_codec"
   ],
   "note": "False of the code for IPv6 addresses with '::' after seven pieces and for domains whose last label only int() reads as a number. Proved for the rest of the grammar (SpecWriting.v), under limit_ok, idna_ok: never a report with any encoding, and with UTF-8 accepted unless more digits follow a colon than int() reads (then ValueError escapes)."
  },
  {
   "property": "C99",
   "status": "partial",
   "theorems": [
    "C99_silent_valid_refuted",
    "C99_silent_valid_partial",
    "C99_silence",
    "C99_any_codec",
    "C99_is_valid",
    "C99_is_valid_record",
    "C99_is_valid_string"
   ],
   "note": "False of the code, and of the standard's parser: data:a:b, http://h//a, file:// and file://h/C:/ are parsed silently. Proved as an equivalence with the grammar less the four restrictions that these break and the strings on which ValueError escapes (C126), if ICU does not map forbidden code points away. C99_is_valid, C99_is_valid_record, C99_is_valid_string: URLValidator.is_valid without a base, with a base record and with a base string recognizes that grammar with the registered schemes."
  },
  {
   "property": "C100",
   "status": "proved",
   "theorems": [
    "C100_rfc_reference",
    "C100_file"
   ],
   "note": "C100_file: the same for file bases, if no drive letter is involved. The algorithms of the RFC are in SpecRfc.v. For special schemes references without backslashes; for encodings other than UTF-8, references without a query."
  },
  {
   "property": "C101",
   "status": "proved",
   "theorems": [
    "C101_authority_and_rest",
    "C101_file_host_and_rest",
    "C101_file_host",
    "C101_file_drive"
   ],
   "note": "C101_authority_and_rest is for schemes other than file, the others for file."
  },
  {
   "property": "C102",
   "status": "proved",
   "theorems": [
    "C102_user_and_password",
    "C102_port"
   ],
   "note": ""
  },
  {
   "property": "C103",
   "status": "proved",
   "theorems": [
    "C103_escaped_host"
   ],
   "note": ""
  },
  {
   "property": "C104",
   "status": "proved",
   "theorems": [
    "C104_record_repr",
    "C104_params_repr",
    "C104_params_repr_distinct",
    "C104_url_repr"
   ],
   "note": "The reader of Python literals is in SpecRepr.v; which characters above 127 are printable is a parameter."
  },
  {
   "property": "C105",
   "status": "partial",
   "theorems": [
    "C105_repr_total_refuted",
    "C105_repr_total_partial"
   ],
   "note": "False of the code: an IPv4 host with a part above 255 can be an integer longer than the int/str digit limit. Proved with the exact condition."
  },
  {
   "property": "C106",
   "status": "proved",
   "theorems": [
    "C106_error_names"
   ],
   "note": ""
  },
  {
   "property": "C107",
   "status": "proved",
   "theorems": [
    "C107_cache"
   ],
   "note": "ICU is a parameter that may also fail to make an instance."
  },
  {
   "property": "C108",
   "status": "proved",
   "theorems": [
    "C108_parse_url_short",
    "C108_only_url_errors_short",
    "C108_can_parse_short",
    "C108_long_inputs_refuted",
    "C108_same_length_refuted"
   ],
   "note": "The two refutations show that a bound is needed and that the length of the input alone is not enough."
  },
  {
   "property": "C109",
   "status": "proved",
   "theorems": [
    "C109_same_result"
   ],
   "note": "Links the model with texts (MsgParser.v) to the one without (Parser.v); under limit_ok and idna_ok."
  },
  {
   "property": "C110",
   "status": "proved",
   "theorems": [
    "C110_messages_true"
   ],
   "note": "The sentences and their conditions are in SpecMessages.v. Same assumptions as C109."
  },
  {
   "property": "C111",
   "status": "proved",
   "theorems": [
    "C111_exception_text"
   ],
   "note": ""
  },
  {
   "property": "C112",
   "status": "partial",
   "theorems": [
    "C112_described_refuted",
    "C112_described_partial",
    "C112_described_exactly"
   ],
   "note": "False of the code: the message that quotes an IPv4 part longer than the int/str digit limit cannot be formatted, after its type was recorded. Proved when there is no such part; without that assumption (C112_described_exactly): either all have texts, or ValueError is raised and only the last one has none."
  },
  {
   "property": "C113",
   "status": "partial",
   "theorems": [
    "C113_position_refuted",
    "C113_position_partial"
   ],
   "note": "False of the code: positions count in the stripped string without tabs and newlines, which is also the one quoted. Proved for inputs that this leaves unchanged."
  },
  {
   "property": "C114",
   "status": "partial",
   "theorems": [
    "C114_credentials_refuted",
    "C114_credentials_partial",
    "C114_always",
    "C114_always_relative"
   ],
   "note": "False of the code: http://user:pw@/ gets this message. Proved: it comes only where the authority ends right after an '@', and (C114_always, C114_always_relative) whenever the authority of an absolute URL or of a reference starting with // does."
  },
  {
   "property": "C115",
   "status": "proved",
   "theorems": [
    "C115_same_host_verdict",
    "C115_same_ipv4_verdict",
    "C115_same_url_verdict",
    "C115_same_scheme_verdict"
   ],
   "note": "Links MsgValidators.v to Validators.v."
  },
  {
   "property": "C116",
   "status": "proved",
   "theorems": [
    "C116_host_validity",
    "C116_scheme_validity"
   ],
   "note": "The sentences are in SpecValidity.v; under limit_ok. is_valid_ipv6_address can raise ValueError (C19)."
  },
  {
   "property": "C117",
   "status": "partial",
   "theorems": [
    "C117_url_validity_refuted",
    "C117_url_validity_partial",
    "C117_url_validity_exactly"
   ],
   "note": "False of the code: a number that cannot be quoted leaves a type without description and a count that is too low. Proved when there is no such number; without that assumption (C117_url_validity_exactly): in order, or ValueError is raised and exactly one type is added to a state in order."
  },
  {
   "property": "C118",
   "status": "partial",
   "theorems": [
    "C118_trailing_dot_refuted",
    "C118_trailing_dot_partial"
   ],
   "note": "False of the code: it is also said of the empty string. Proved for all others."
  },
  {
   "property": "C119",
   "status": "proved",
   "theorems": [
    "C119_same_setters",
    "C119_same_constructor"
   ],
   "note": "Links MsgApi.v to UrlApi.v; same assumptions as C109."
  },
  {
   "property": "C120",
   "status": "proved",
   "theorems": [
    "C120_setter_messages"
   ],
   "note": "Which errors each attribute can have is may_log in SpecSetText.v. A message that would quote a number above the int/str digit limit is dropped by the logging package."
  },
  {
   "property": "C121",
   "status": "partial",
   "theorems": [
    "C121_setter_exception_refuted",
    "C121_setter_exception_partial"
   ],
   "note": "False of the code: the protocol setter raises without logging. Proved with its two texts as the exception."
  },
  {
   "property": "C122",
   "status": "partial",
   "theorems": [
    "C122_can_parse_validity_refuted",
    "C122_can_parse_validity_partial",
    "C122_can_parse_exactly",
    "C122_answered"
   ],
   "note": "False of the code for the reason of C117. Proved when there is no such number; the answer is that of the model without texts in any case, and whenever there is an answer the state is in order (C122_answered)."
  },
  {
   "property": "C123",
   "status": "proved",
   "theorems": [
    "C123_levels"
   ],
   "note": "parse_url, URL(), Host.parse, IDNA.domain_to_unicode and the setters in all environments; only the protocol setter raises URLParseError without an ERROR, as the code does without logging"
  },
  {
   "property": "C124",
   "status": "proved",
   "theorems": [
    "C124_canonical"
   ],
   "note": "Assumes that IDNA results are ASCII and stable and that dotted-decimal addresses are left alone (idna_ok) and a digit limit of at least 640 or none (limit_ok); canonical records are defined in SpecCanon.v. IPv4 values of 2^32 and more are the disagreement of C14."
  },
  {
   "property": "C125",
   "status": "proved",
   "theorems": [
    "C125_length"
   ],
   "note": "The host is counted by itself, since nothing bounds what IDNA returns. Codecs other than UTF-8 are assumed ASCII-compatible and to use at most 5 bytes for a character."
  },
  {
   "property": "C126",
   "status": "proved",
   "theorems": [
    "C126_hosts",
    "C126_parser",
    "C126_can_parse",
    "C126_setters"
   ],
   "note": "The texts are in SpecRaise.v; under limit_ok. Hosts and ports are those that the standard's machine reaches with the code's host parser."
  },
  {
   "property": "C127",
   "status": "partial",
   "theorems": [
    "C127_host_writing_refuted",
    "C127_exactly",
    "C127_standard_partial"
   ],
   "note": "False as stated: [:::1], 1.2.3.+4 and 1.2.3.999. C127_exactly has the exact sets; C127_standard_partial says where they are the standard's: IPv6 texts outside odd_v6, dotted decimals without int() extras, names under unicode_agrees (ToUnicode accepts a domain iff it accepts its ASCII form, which the code relies on), all opaque hosts outside odd_v6."
  },
  {
   "property": "C128",
   "status": "proved",
   "theorems": [
    "C128_trace",
    "C128_every_edge",
    "C128_text",
    "C128_states"
   ],
   "note": "Overrides are those of the setters. C128_text assumes that the integers of the records can be converted to decimal (C104)."
  },
  {
   "property": "C129",
   "status": "proved",
   "theorems": [
    "C129_constructor",
    "C129_total",
    "C129_texts"
   ],
   "note": "Arguments are of the type arg of Args.v; str() and repr() of objects other than those of the package and of None, str, numbers, list, tuple and dict are part of the argument. A collection yields as many members as its length."
  },
  {
   "property": "C130",
   "status": "proved",
   "theorems": [
    "C130_add",
    "C130_in",
    "C130_eq",
    "C130_item",
    "C130_slice"
   ],
   "note": "Slices as in the Python Language Reference (SpecSlices.v); the numbers of a slice are not cut off at the limits of Py_ssize_t."
  },
  {
   "property": "C131",
   "status": "proved",
   "theorems": [
    "C131_objects",
    "C131_reparse",
    "C131_canonical"
   ],
   "note": "Assumes idna_ok and limit_ok as C124; IPv4 values of 2^32 and more are the disagreement of C14. Histories are those of SpecApi.v (reached): constructor with and without base, setters, mutations of searchParams."
  },
  {
   "property": "C132",
   "status": "proved",
   "theorems": [
    "C132_any_codec",
    "C132_lookup",
    "C132_log",
    "C132_stateless"
   ],
   "note": "The codec is any pair of functions (str.encode and codecs.iterencode) that make bytes or raise."
  },
  {
   "property": "C133",
   "status": "proved",
   "theorems": [
    "C133_origin_text",
    "C133_same_text",
    "C133_prefix"
   ],
   "note": "Assumes idna_ok and limit_ok; IPv4 values of 2^32 and more are the disagreement of C14."
  },
  {
   "property": "C134",
   "status": "proved",
   "theorems": [
    "C134_file_absolute_path",
    "C134_file_relative_path"
   ],
   "note": "Assumes idna_ok and limit_ok; IPv4 values of 2^32 and more are the disagreement of C14. References that are empty or start with '?' or '#' are C38, C39 and C40."
  },
  {
   "property": "C135",
   "status": "proved",
   "theorems": [
    "C135_exact",
    "C135_form",
    "C135_raises",
    "C135_read_back",
    "C135_utf8"
   ],
   "note": "The codec is a pair of functions (str.encode, codecs.iterencode) that give bytes or raise; nothing else is assumed of it."
  },
  {
   "property": "C136",
   "status": "proved",
   "theorems": [
    "C136_frame",
    "C136_misuse",
    "C136_use"
   ],
   "note": "For any record as URLRecord can hold it (types as annotated); url and base are taken to be different objects."
  },
  {
   "property": "C137",
   "status": "partial",
   "theorems": [
    "C137_userinfo",
    "C137_plain",
    "C137_replaces_partial",
    "C137_replaces_refuted"
   ],
   "note": "False of the code: credentials are added to those of the record. Proved: the exact effect for all records, hence replacement for records without credentials."
  },
  {
   "property": "C138",
   "status": "partial",
   "theorems": [
    "C138_replaced_partial",
    "C138_replaced_refuted"
   ],
   "note": "False of the code: path segments, credentials, port, query and fragment of the record stay. Proved for a blank record and an input that needs no stripping."
  },
  {
   "property": "C139",
   "status": "partial",
   "theorems": [
    "C139_copy_refuted",
    "C139_copy_partial",
    "C139_others",
    "C139_override",
    "C139_base_unused",
    "C139_base_used",
    "C139_resolves_partial",
    "C139_resolves_refuted"
   ],
   "note": "False of the code: the scheme of the input, and the empty host of file URLs, are written to u before the base is read. Proved exactly: it is the call with a copy in which these two fields are changed. C139_override: the same for every state override; C139_base_unused/used: which overrides look at the base at all."
  },
  {
   "property": "C140",
   "status": "proved",
   "theorems": [
    "C140_origin_repr",
    "C140_origin_repr_total",
    "C140_origin_equal",
    "C140_validity_repr",
    "C140_validity_repr_total"
   ],
   "note": "Texts of named tuples and dataclasses are as CPython generates them; the reader is in SpecRepr.v and SpecReprTuple.v."
  },
  {
   "property": "C141",
   "status": "partial",
   "theorems": [
    "C141_scheme_refuted",
    "C141_scheme_partial",
    "C141_scheme_exactly",
    "C141_table",
    "C141_usable"
   ],
   "note": "False of the code: str.lower() maps U+212A KELVIN SIGN to k, so s, U+212A, ype is accepted. Proved for ASCII strings and for case mappings without such characters; C141_scheme_exactly has all strings. C141_usable assumes limit_ok and idna_ok."
  },
  {
   "property": "C142",
   "status": "partial",
   "theorems": [
    "C142_read_refuted",
    "C142_read_partial",
    "C142_read_exactly",
    "C142_no_column",
    "C142_load",
    "C142_utf8",
    "C142_locale_refuted",
    "C142_locale_exactly"
   ],
   "note": "False of the code in two ways: line breaks inside quoted fields are lost, and the locale's encoding is used, so the import fails where one of five bytes has no character. The exact behaviour is proved for all RFC 4180 tables and all 8-bit encodings. Bytes of the file generated by tools/gen_scheme_file.py."
  },
  {
   "property": "C143",
   "status": "proved",
   "theorems": [
    "C143_fragment",
    "C143_query"
   ],
   "note": "For every environment, encoding, base record and input."
  }
 ]
}