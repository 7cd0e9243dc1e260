"""Write MANIFEST.json from the table below."""
import json, os
T = []
def c(prop, status, theorems, note=""):
    T.append({"property": prop, "status": status, "theorems": theorems, "note": note})

c("C01", "proved", ["C01_utf8_round_trip"], "")
c("C02", "proved", ["C02_utf8_decode_standard"], "")
c("C03", "proved", ["C03_percent_decode_standard"], "")
c("C04", "proved", ["C04_percent_encode_alphabet"], "")
c("C05", "proved", ["C05_encode_then_decode"], "")
c("C06", "proved", ["C06_encode_idempotent"], "")
c("C07", "proved", ["C07_percent_encode_sets"], "")
c("C08", "partial", ["C08_urlencode_refuted", "C08_urlencode_partial", "C08_urlencode_exact"],
  "False of the code: '~' is left unescaped. Proved: conforms for '~'-free pairs, and in general equals the standard's serializer with '~' removed from the set.")
c("C09", "proved", ["C09_urlencode_round_trip"], "")
c("C10", "proved", ["C10_parse_qsl_standard"], "")
c("C12", "proved", ["C12_legacy_encoding"], "Stateless ASCII-compatible codecs only, as the property says.")
c("C13", "proved", ["C13_ipv4_round_trip"], "")
c("C14", "partial", ["C14_ipv4_range_refuted", "C14_ipv4_range_partial"],
  "False of the code: '256.256' parses to 2^32+256. Proved: the result is below 2^32 when every part but the last is at most 255.")
c("C15", "partial", ["C15_ipv4_conforms_refuted", "C15_ipv4_conforms_partial"],
  "False of the code: int() accepts signs, spaces and underscores, and out-of-range leading parts are let through when the last part is also above 255. Proved: the two parsers agree on exactly the inputs outside odd_address (C80 has the grammar).")
c("C16", "partial", ["C16_ends_in_number_refuted", "C16_ends_in_number_partial"],
  "False of the code for the int() leniencies. Proved: the exact set of strings for which it says yes (the standard's, and those whose last label only int() reads).")
c("C17", "proved", ["C17_ipv4_canonical"], "")
c("C18", "proved", ["C18_ipv6_round_trip"], "")
c("C19", "partial", ["C19_ipv6_total_refuted", "C19_ipv6_total_partial"],
  "False of the code: embedded IPv4 parts longer than the int/str digit limit raise ValueError. Proved: the only other outcome is IPv6AddressParseError.")
c("C20", "proved", ["C20_ipv6_serialize_standard"], "")
c("C21", "partial", ["C21_ipv6_conforms_refuted", "C21_ipv6_conforms_partial"],
  "False of the code: it accepts a third leading colon and dotted quads before a colon, and refuses :: after seven pieces. Proved: the parsers agree exactly on all other texts (C81 has the grammars).")
c("C22", "proved", ["C22_ipv6_injective"], "")
c("C23", "partial", ["C23_host_round_trip_refuted", "C23_host_round_trip_partial"],
  "False of the code for IPv4 values of 2^32 or more. Proved for exactly the others (an iff), assuming UTS46 ToASCII is stable on its own output (idna_ok).")
c("C24", "proved", ["C24_no_forbidden_code_points"], "")
c("C25", "proved", ["C25_host_nonempty"], "")
c("C66", "partial", ["C66_validity_state_partial", "C66_validity_state_raising_refuted", "C66_raising"],
  "Proved for operations that return normally; a prepend that raises while formatting its description leaves an inconsistent state. C66_raising has the exact relation then.")
c("C67", "partial", ["C67_valid_ipv4_refuted", "C67_valid_ipv4_partial"],
  "False of the code: int() leniency. Proved: complete for the grammar, and sound for ASCII strings without whitespace, signs and underscores (C80 has the exact set).")
c("C68", "proved", ["C68_url_units"], "")
c("C69", "proved", ["C69_valid_opaque_host"], "")
c("C70", "proved", ["C70_valid_ipv6"], "")
c("C71", "proved", ["C71_scheme_validity"], "")

c("C11", "proved", ["C11_urlencode_embeds"], "")
c("C26", "proved", ["C26_parser_terminates"], "")
c("C27", "partial", ["C27_only_url_errors_refuted", "C27_only_url_errors_partial"],
  "False of the code: a port (or IPv4/IPv6 part) longer than CPython's int/str digit limit raises ValueError, also out of can_parse. Proved: ValueError is the only other exception and needs that limit; C126 says exactly when it is raised.")
c("C28", "partial", ["C28_failure_explained_refuted", "C28_failure_explained_partial"],
  "False of the code for the ValueError of C27. Proved for every URLParseError. C126_parser says exactly when the ValueError comes.")
c("C29", "proved", ["C29_record_invariant"], "")
c("C30", "proved", ["C30_round_trip", "C30_round_trip_v4_refuted"], "IPv4 values below 2^32 and stable IDNA, as the property says; the second theorem shows the restriction on IPv4 values is needed.")
c("C31", "proved", ["C31_href_fixed_point"], "Assumes idna_ok.")
c("C32", "proved", ["C32_base_ignored"], "Assumes idna_ok.")
c("C33", "proved", ["C33_href_printable", "C33_reached_printable"], "Assumes idna_ok (ToASCII output is ASCII).")
c("C34", "proved", ["C34_whitespace_ignored"], "")
c("C35", "proved", ["C35_scheme_case"], "")
c("C36", "proved", ["C36_clean_segments"], "")
c("C37", "proved", ["C37_no_default_port"], "")
c("C38", "partial", ["C38_empty_reference_refuted", "C38_empty_reference_partial"],
  "False of the code for file bases: an empty segment is appended to the path. Proved for all other schemes, and the exact result for file.")
c("C39", "proved", ["C39_hash_reference"], "")
c("C40", "proved", ["C40_query_reference"], "")
c("C44", "proved", ["C44_encoding_only_query"], "")
c("C45", "proved", ["C45_backslash"], "")
c("C72", "proved", ["C72_urlparse_components"], "")
c("C73", "proved", ["C73_drive_letter_kept"], "")
c("C74", "proved", ["C74_no_climbing"], "")
c("C59", "partial", ["C59_list_operations_refuted", "C59_list_operations_partial", "C59_list_operations_decoded"],
  "False of the code: names (and values of append/set) are percent-decoded first, and has/delete never match a number. Proved: conforms for arguments without %XY escapes; for all arguments the effect is the standard's operation on the decoded strings.")
c("C60", "proved", ["C60_set_exactly_one"], "")
c("C61", "proved", ["C61_sort_stable"], "list.sort and icu.UnicodeString order are modelled (stable insertion sort by UTF-16 code units).")
c("C62", "proved", ["C62_copies"], "")
c("C63", "partial", ["C63_has_after_append_refuted", "C63_has_after_append_partial"],
  "False of the code for numbers and for values with %XY escapes. Proved for all other values, and the exact result in every case.")
c("C64", "partial", ["C64_lookup_refuted", "C64_lookup_partial"],
  "False of the code for names with %XY escapes. Proved for all other names; the names for which it holds are exactly those unchanged by percent-decoding.")
c("C75", "proved", ["C75_dict_constructor"], "")
c("C46", "proved", ["C46_setters_local", "C46_protocol_port", "C46_list_untouched"], "")
c("C47", "partial", ["C47_raise_unchanged_refuted", "C47_raise_unchanged_partial", "C47_exactly", "C47_changed"],
  "False of the code: url.host = 'example.com:99999' raises after replacing the host. Proved: the exact set of such assignments and their effect.")
c("C48", "partial", ["C48_invariant_kept_refuted", "C48_invariant_kept_partial", "C48_exactly"],
  "False of the code for port 0, which the host and protocol setters treat as no port. Proved for every object whose port is not 0, and for the rest of the record when it is; exactly the objects with a port but no host that may have one break the invariant.")
c("C49", "partial", ["C49_reparse_refuted", "C49_reparse_partial"],
  "False of the code for port 0 without a host, and for file URLs made by the protocol setter that keep 'localhost' or 'C|'. Proved: exactly those objects and IPv4 values of 2^32 or more do not come back; assumes idna_ok.")
c("C50", "proved", ["C50_params_in_sync"], "")
c("C51", "proved", ["C51_no_default_port"], "")
c("C52", "proved", ["C52_guarded_setters"], "")
c("C53", "proved", ["C53_set_get"], "Tabs and newlines are removed from the new hash and search, as the standard says.")
c("C54", "proved", ["C54_equality"], "")
c("C55", "partial", ["C55_can_parse_refuted", "C55_can_parse_partial", "C55_can_parse_no_limit"],
  "False of the code: can_parse raises ValueError for some URLs with huge IPv4 numbers that the constructor accepts. Proved: whenever can_parse returns, it agrees; in full without the int/str digit limit. C126_can_parse says exactly when the ValueError comes.")
c("C56", "partial", ["C56_origin_refuted", "C56_origin_partial"],
  "False of the code for a blob URL whose path makes the parser raise ValueError. Proved for everything else.")
c("C57", "partial", ["C57_same_origin", "C57_reparse_refuted", "C57_reparse_partial"],
  "The equivalence-relation part is proved in full. The re-parse part is false of the code for IPv4 values of 2^32 or more and proved for exactly the others (assumes idna_ok).")
c("C58", "partial", ["C58_origin_domain_refuted", "C58_origin_domain_partial"],
  "False of the code for the domain '' (never set by the library itself). Proved otherwise.")
c("C65", "proved", ["C65_valid_parsable", "C65_valid_exactly"], "")
c("C42", "proved", ["C42_base_untouched"], "On the heap model HeapParser.v, proved to compute the same as Parser.v.")
c("C43", "partial", ["C43_pairs_refuted", "C43_pairs_partial"],
  "False of the code for opaque paths, which are encoded one character at a time. Proved: same errors, and equal records up to the text of an opaque path.")
c("C76", "proved", ["C76_no_shared_state"], "On the heap model HeapParser.v.")

c("C41", "partial", ["C41_conforms_refuted", "C41_limit_refuted", "C41_conforms_partial", "C41_short", "C41_file_only", "C41_long_port"],
  "False of the code when the base is a file URL and the input is empty or only 'file:' (an empty segment is added), and when the run reads a port beyond the int/str digit limit (ValueError). Proved for every other scalar value string and base against the standard's machine (SpecParser.v), with the exact outcome in both exceptional cases.")
c("C77", "partial", ["C77_host_refuted", "C77_host_partial"],
  "False of the code, which lets int() read numbers like 1_0. Proved: the two host parsers agree on exactly the hosts outside odd_host, the irregular IPv4 and IPv6 forms of C15, C16 and C21.")
c("C78", "partial", ["C78_whole_refuted", "C78_whole_partial", "C78_whole_exact", "C78_whole_exact_string"],
  "False of the code for the reasons of C41 and C77. Proved when the host that is parsed is regular and C41's exceptions do not apply. For a base that is a record or absent the condition on the host is exact: the outcomes agree if and only if the host is regular or both fail. For a base string with a regular host the condition on the host of the input is exact in the same sense.")
c("C79", "partial", ["C79_setters_refuted", "C79_setters_partial"],
  "False of the code for port 0, which the host and protocol setters treat as no port. Proved to hold exactly outside the cases of port 0 in SpecWhole.v, for values of any length without surrogates whose port text (if any) int() reads; longer ports raise ValueError (C126_setters). The standard's machine with a state override is SpecSetters.v.")
c("C80", "proved", ["C80_ipv4_exactly"],
  "The grammar of int() literals is in SpecPyInt.v; limit_ok (digit limit absent or at least 640, as CPython enforces) is assumed for the parser.")
c("C81", "proved", ["C81_ipv6_exactly"],
  "The grammars are in SpecIPv6.v; limit_ok (digit limit absent or at least 640, as CPython enforces) is assumed for the code.")
c("C82", "partial", ["C82_get_set_refuted", "C82_get_set_partial", "C82_get_set_host_partial", "C82_get_set_exact", "C82_get_set_empty"],
  "False of the code (and of the standard) where the getter does not tell empty from absent, and false for port 0 without a host and for file URLs made by the protocol setter. Proved for every other object, with the exact effect in the empty/absent cases; C82_get_set_exact has equivalences.")
c("C83", "partial", ["C83_last_wins_refuted", "C83_last_wins_partial", "C83_last_wins_exact"],
  "False for host (the value may leave out the port), protocol (may drop the port) and for removing hash or search from an opaque path with trailing spaces. Proved for all other attributes and values.")
c("C84", "proved", ["C84_independent_commute", "C84_no_others"],
  "The relation of unrelated calls is in SpecLaws.v; C84_no_others has a counterexample for every pair of components outside it.")
c("C85", "partial", ["C85_setters_whole_refuted", "C85_setters_whole_partial", "C85_setters_exact"],
  "False of the code where C77 and C79 are. Proved when the host that the setter parses (if any) is regular in the sense of C77, and C79's exceptions do not apply. The condition on the host is exact: the results agree if and only if it is regular or both fail without changing the record.")
c("C86", "proved", ["C86_objects_isolated", "C86_all_reached", "C86_others_unchanged"],
  "On the heap of World.v, for programs that do not call attach() or URLSearchParams(record) themselves (C87 is about those).")
c("C87", "partial", ["C87_always_shown_refuted", "C87_record_shown_partial", "C87_url_shown_partial"],
  "False of the code: attach() disconnects url.search_params from its URL, and of two objects on one record only one follows. Proved for every program, attach included, in which nobody else writes the query of the record, and for the URL objects of every program without attach.")
c("C88", "partial", ["C88_live_refuted", "C88_ended_refuted", "C88_entries_partial", "C88_ended", "C88_names_snapshot"],
  "False of the code: entries() keeps the old list after assignments to search or href and never goes on after its end; keys() and values() are snapshots. Proved: entries() is live until one of these happens, an ended iterator stays ended, and keys()/values() give the names and values of the time of the call.")
c("C89", "proved", ["C89_fragment_separate", "C89_fragment_added"], "The exceptions are exact (an equivalence).")
c("C90", "proved", ["C90_query_separate", "C90_query_added"])
c("C91", "proved", ["C91_scheme_relative"])
c("C92", "proved", ["C92_absolute_path"], "Under limit_ok and idna_ok, as for the round trip (C30); hosts that are the out-of-range IPv4 numbers of C14 are excluded.")
c("C93", "proved", ["C93_relative_path"], "Under limit_ok and idna_ok, as for the round trip (C30); hosts that are the out-of-range IPv4 numbers of C14 are excluded.")
c("C94", "proved", ["C94_relative_form"], "Under limit_ok and idna_ok, as for the round trip (C30); hosts that are the out-of-range IPv4 numbers of C14 are excluded.")
c("C95", "partial", ["C95_reports_refuted", "C95_reports_partial", "C95_reports_exception", "C95_url_reports_partial", "C95_any_codec"],
  "False of the code for a file URL whose host is a letter and '|': it reports one invalid-URL-unit more. Proved equal, error for error, in all other cases (C95_any_codec: for any encoding; when no port text is longer than the int limit), and the exact difference in this case.")
c("C96", "partial", ["C96_host_reports_refuted", "C96_domain_reports_partial", "C96_opaque_reports_partial", "C96_ipv6_reports_partial", "C96_ipv6_names_partial", "C96_unclosed_partial", "C96_silent_partial"],
  "False of the code for IPv6 addresses, where the name of the error can differ, and where int() reads numbers that the standard does not. Proved: the same list for domains and IPv4 addresses without such numbers; for opaque hosts the first report; for IPv6 one report, exactly on failure (none where ValueError escapes), with the standard's name if the text has no dot, does not begin with ':::' and has no colon at the end after which a ninth piece would begin, or if the bracket is not closed; and for all hosts outside C77's exceptions on which no ValueError escapes, reports by both or by neither.")
c("C97", "partial", ["C97_valid_refuted", "C97_valid_partial", "C97_encoding"],
  "False of the code for hosts that only int() reads as an IPv4 address. Proved for UTF-8 (C97_encoding: and all other encodings) and hosts outside C77's exceptions, strings of any length: is_valid holds if and only if the standard's condition does and no port text is longer than the int limit.")
c("C98", "partial", ["C98_valid_silent_refuted", "C98_valid_silent_partial", "C98_any_codec"],
  "False of the code for IPv6 addresses with '::' after seven pieces and for domains whose last label only int() reads as a number. Proved for the rest of the grammar (SpecWriting.v), under limit_ok, idna_ok: never a report with any encoding, and with UTF-8 accepted unless more digits follow a colon than int() reads (then ValueError escapes).")
c("C99", "partial", ["C99_silent_valid_refuted", "C99_silent_valid_partial", "C99_silence", "C99_any_codec", "C99_is_valid", "C99_is_valid_record", "C99_is_valid_string"],
  "False of the code, and of the standard's parser: data:a:b, http://h//a, file:// and file://h/C:/ are parsed silently. Proved as an equivalence with the grammar less the four restrictions that these break and the strings on which ValueError escapes (C126), if ICU does not map forbidden code points away. C99_is_valid, C99_is_valid_record, C99_is_valid_string: URLValidator.is_valid without a base, with a base record and with a base string recognizes that grammar with the registered schemes.")
c("C100", "proved", ["C100_rfc_reference", "C100_file"], "C100_file: the same for file bases, if no drive letter is involved. The algorithms of the RFC are in SpecRfc.v. For special schemes references without backslashes; for encodings other than UTF-8, references without a query.")
c("C101", "proved", ["C101_authority_and_rest", "C101_file_host_and_rest", "C101_file_host", "C101_file_drive"], "C101_authority_and_rest is for schemes other than file, the others for file.")
c("C102", "proved", ["C102_user_and_password", "C102_port"])
c("C103", "proved", ["C103_escaped_host"])
c("C104", "proved", ["C104_record_repr", "C104_params_repr", "C104_params_repr_distinct", "C104_url_repr"], "The reader of Python literals is in SpecRepr.v; which characters above 127 are printable is a parameter.")
c("C105", "partial", ["C105_repr_total_refuted", "C105_repr_total_partial"],
  "False of the code: an IPv4 host with a part above 255 can be an integer longer than the int/str digit limit. Proved with the exact condition.")
c("C106", "proved", ["C106_error_names"])
c("C107", "proved", ["C107_cache"], "ICU is a parameter that may also fail to make an instance.")
c("C108", "proved", ["C108_parse_url_short", "C108_only_url_errors_short", "C108_can_parse_short", "C108_long_inputs_refuted", "C108_same_length_refuted"],
  "The two refutations show that a bound is needed and that the length of the input alone is not enough.")
c("C109", "proved", ["C109_same_result"], "Links the model with texts (MsgParser.v) to the one without (Parser.v); under limit_ok and idna_ok.")
c("C110", "proved", ["C110_messages_true"], "The sentences and their conditions are in SpecMessages.v. Same assumptions as C109.")
c("C111", "proved", ["C111_exception_text"], "")
c("C112", "partial", ["C112_described_refuted", "C112_described_partial", "C112_described_exactly"],
  "False of the code: the message that quotes an IPv4 part longer than the int/str digit limit cannot be formatted, after its type was recorded. Proved when there is no such part; without that assumption (C112_described_exactly): either all have texts, or ValueError is raised and only the last one has none.")
c("C113", "partial", ["C113_position_refuted", "C113_position_partial"],
  "False of the code: positions count in the stripped string without tabs and newlines, which is also the one quoted. Proved for inputs that this leaves unchanged.")
c("C114", "partial", ["C114_credentials_refuted", "C114_credentials_partial", "C114_always", "C114_always_relative"],
  "False of the code: http://user:pw@/ gets this message. Proved: it comes only where the authority ends right after an '@', and (C114_always, C114_always_relative) whenever the authority of an absolute URL or of a reference starting with // does.")
c("C115", "proved", ["C115_same_host_verdict", "C115_same_ipv4_verdict", "C115_same_url_verdict", "C115_same_scheme_verdict"], "Links MsgValidators.v to Validators.v.")
c("C116", "proved", ["C116_host_validity", "C116_scheme_validity"], "The sentences are in SpecValidity.v; under limit_ok. is_valid_ipv6_address can raise ValueError (C19).")
c("C117", "partial", ["C117_url_validity_refuted", "C117_url_validity_partial", "C117_url_validity_exactly"],
  "False of the code: a number that cannot be quoted leaves a type without description and a count that is too low. Proved when there is no such number; without that assumption (C117_url_validity_exactly): in order, or ValueError is raised and exactly one type is added to a state in order.")
c("C118", "partial", ["C118_trailing_dot_refuted", "C118_trailing_dot_partial"],
  "False of the code: it is also said of the empty string. Proved for all others.")
c("C119", "proved", ["C119_same_setters", "C119_same_constructor"], "Links MsgApi.v to UrlApi.v; same assumptions as C109.")
c("C120", "proved", ["C120_setter_messages"], "Which errors each attribute can have is may_log in SpecSetText.v. A message that would quote a number above the int/str digit limit is dropped by the logging package.")
c("C121", "partial", ["C121_setter_exception_refuted", "C121_setter_exception_partial"],
  "False of the code: the protocol setter raises without logging. Proved with its two texts as the exception.")
c("C122", "partial", ["C122_can_parse_validity_refuted", "C122_can_parse_validity_partial", "C122_can_parse_exactly", "C122_answered"],
  "False of the code for the reason of C117. Proved when there is no such number; the answer is that of the model without texts in any case, and whenever there is an answer the state is in order (C122_answered).")

c("C123", "proved", ["C123_levels"],
  "parse_url, URL(), Host.parse, IDNA.domain_to_unicode and the setters in all environments; only the protocol setter raises URLParseError without an ERROR, as the code does without logging")
c("C124", "proved", ["C124_canonical"],
  "Assumes that IDNA results are ASCII and stable and that dotted-decimal addresses are left alone (idna_ok) and a digit limit of at least 640 or none (limit_ok); canonical records are defined in SpecCanon.v. IPv4 values of 2^32 and more are the disagreement of C14.")
c("C125", "proved", ["C125_length"],
  "The host is counted by itself, since nothing bounds what IDNA returns. Codecs other than UTF-8 are assumed ASCII-compatible and to use at most 5 bytes for a character.")
c("C126", "proved", ["C126_hosts", "C126_parser", "C126_can_parse", "C126_setters"],
  "The texts are in SpecRaise.v; under limit_ok. Hosts and ports are those that the standard's machine reaches with the code's host parser.")
c("C127", "partial", ["C127_host_writing_refuted", "C127_exactly", "C127_standard_partial"],
  "False as stated: [:::1], 1.2.3.+4 and 1.2.3.999. C127_exactly has the exact sets; C127_standard_partial says where they are the standard's: IPv6 texts outside odd_v6, dotted decimals without int() extras, names under unicode_agrees (ToUnicode accepts a domain iff it accepts its ASCII form, which the code relies on), all opaque hosts outside odd_v6.")
c("C128", "proved", ["C128_trace", "C128_every_edge", "C128_text", "C128_states"],
  "Overrides are those of the setters. C128_text assumes that the integers of the records can be converted to decimal (C104).")
c("C129", "proved", ["C129_constructor", "C129_total", "C129_texts"],
  "Arguments are of the type arg of Args.v; str() and repr() of objects other than those of the package and of None, str, numbers, list, tuple and dict are part of the argument. A collection yields as many members as its length.")
c("C130", "proved", ["C130_add", "C130_in", "C130_eq", "C130_item", "C130_slice"],
  "Slices as in the Python Language Reference (SpecSlices.v); the numbers of a slice are not cut off at the limits of Py_ssize_t.")
c("C131", "proved", ["C131_objects", "C131_reparse", "C131_canonical"],
  "Assumes idna_ok and limit_ok as C124; IPv4 values of 2^32 and more are the disagreement of C14. Histories are those of SpecApi.v (reached): constructor with and without base, setters, mutations of searchParams.")
c("C132", "proved", ["C132_any_codec", "C132_lookup", "C132_log", "C132_stateless"],
  "The codec is any pair of functions (str.encode and codecs.iterencode) that make bytes or raise.")
c("C133", "proved", ["C133_origin_text", "C133_same_text", "C133_prefix"],
  "Assumes idna_ok and limit_ok; IPv4 values of 2^32 and more are the disagreement of C14.")
c("C134", "proved", ["C134_file_absolute_path", "C134_file_relative_path"],
  "Assumes idna_ok and limit_ok; IPv4 values of 2^32 and more are the disagreement of C14. References that are empty or start with '?' or '#' are C38, C39 and C40.")
c("C135", "proved", ["C135_exact", "C135_form", "C135_raises", "C135_read_back", "C135_utf8"],
  "The codec is a pair of functions (str.encode, codecs.iterencode) that give bytes or raise; nothing else is assumed of it.")
c("C136", "proved", ["C136_frame", "C136_misuse", "C136_use"],
  "For any record as URLRecord can hold it (types as annotated); url and base are taken to be different objects.")
c("C137", "partial", ["C137_userinfo", "C137_plain", "C137_replaces_partial", "C137_replaces_refuted"],
  "False of the code: credentials are added to those of the record. Proved: the exact effect for all records, hence replacement for records without credentials.")
c("C138", "partial", ["C138_replaced_partial", "C138_replaced_refuted"],
  "False of the code: path segments, credentials, port, query and fragment of the record stay. Proved for a blank record and an input that needs no stripping.")
c("C139", "partial", ["C139_copy_refuted", "C139_copy_partial", "C139_others", "C139_override", "C139_base_unused", "C139_base_used", "C139_resolves_partial", "C139_resolves_refuted"],
  "False of the code: the scheme of the input, and the empty host of file URLs, are written to u before the base is read. Proved exactly: it is the call with a copy in which these two fields are changed. C139_override: the same for every state override; C139_base_unused/used: which overrides look at the base at all.")
c("C140", "proved", ["C140_origin_repr", "C140_origin_repr_total", "C140_origin_equal", "C140_validity_repr", "C140_validity_repr_total"],
  "Texts of named tuples and dataclasses are as CPython generates them; the reader is in SpecRepr.v and SpecReprTuple.v.")
c("C141", "partial", ["C141_scheme_refuted", "C141_scheme_partial", "C141_scheme_exactly", "C141_table", "C141_usable"],
  "False of the code: str.lower() maps U+212A KELVIN SIGN to k, so s, U+212A, ype is accepted. Proved for ASCII strings and for case mappings without such characters; C141_scheme_exactly has all strings. C141_usable assumes limit_ok and idna_ok.")
c("C142", "partial", ["C142_read_refuted", "C142_read_partial", "C142_read_exactly", "C142_no_column", "C142_load", "C142_utf8", "C142_locale_refuted", "C142_locale_exactly"],
  "False of the code in two ways: line breaks inside quoted fields are lost, and the locale's encoding is used, so the import fails where one of five bytes has no character. The exact behaviour is proved for all RFC 4180 tables and all 8-bit encodings. Bytes of the file generated by tools/gen_scheme_file.py.")
c("C143", "proved", ["C143_fragment", "C143_query"], "For every environment, encoding, base record and input.")
json.dump({"claims": T}, open(os.path.join(os.path.dirname(__file__), "..", "MANIFEST.json"), "w"), indent=1)
