{"id": "C01", "title": "UTF-8 encode/decode round trip", "statement": "utf8_decode(utf8_encode(s)) returns s whenever s contains no surrogate code point, and in general returns s with every well-formed surrogate pair merged into one code point and every lone surrogate replaced by U+FFFD.", "quantifier": "every Python str, of any length, including ones containing lone or paired surrogates", "why_tests_cant": "The input space is all sequences over 1.1M code points; pairing bugs only show up on particular adjacent combinations.", "anchors": ["src/urlstd/parse.py:utf8_encode", "src/urlstd/parse.py:utf8_decode"]}
{"id": "C02", "title": "utf8_decode is the standard UTF-8 decoder with replacement", "statement": "For every byte sequence utf8_decode returns exactly what the Encoding Standard's UTF-8 decoder (lower/upper boundary state machine, one U+FFFD per maximal ill-formed subsequence) returns; the result never contains a surrogate.", "quantifier": "every byte sequence", "why_tests_cant": "Ill-formed sequences are combinatorial (truncated, overlong, surrogate, out of range, interleaved) and cannot be enumerated.", "anchors": ["src/urlstd/parse.py:utf8_decode", "src/urlstd/parse.py:parse_qsl"]}
{"id": "C03", "title": "Percent-decoding is the standard's percent-decode", "statement": "string_percent_decode(s) equals the URL Standard's percent-decode applied to the UTF-8 encoding of s: only a '%' followed by two ASCII hex digits is replaced, all other bytes are kept in order.", "quantifier": "every str", "why_tests_cant": "Malformed escapes may be nested and adjacent in arbitrary ways ('%%41', '%4', '%zz%41').", "anchors": ["src/urlstd/parse.py:string_percent_decode"]}
{"id": "C04", "title": "Percent-encoded output alphabet", "statement": "Every character of utf8_percent_encode(s, safe) is an ASCII unreserved/safe character or belongs to a '%XY' triple with upper-case hex digits; encoding never fails.", "quantifier": "every str s and every ASCII safe set", "why_tests_cant": "Tests sample characters and strings.", "anchors": ["src/urlstd/parse.py:utf8_percent_encode", "src/urlstd/parse.py:string_percent_encode"]}
{"id": "C05", "title": "Percent-encode then decode is the identity on bytes", "statement": "If '%' is not in the safe set, string_percent_decode(utf8_percent_encode(s, safe)) == utf8_encode(s).", "quantifier": "every str s and every safe set without '%'", "why_tests_cant": "A round trip over all strings.", "anchors": ["src/urlstd/parse.py:utf8_percent_encode", "src/urlstd/parse.py:string_percent_decode"]}
{"id": "C06", "title": "Percent-encoding is idempotent for the URL component sets", "statement": "For a safe set that contains '%', encoding an already encoded string changes nothing.", "quantifier": "every str and every safe set containing '%' and the hex digits are always safe", "why_tests_cant": "Universally quantified over strings and sets.", "anchors": ["src/urlstd/parse.py:utf8_percent_encode"]}
{"id": "C07", "title": "Percent-encode sets agree with the URL Standard", "statement": "For each of the C0-control, fragment, query, special-query, path, userinfo and component sets, string_percent_encode escapes exactly the code points the URL Standard lists for that set and emits the standard's bytes.", "quantifier": "every str and each named set", "why_tests_cant": "The set is a decision over all code points, and concatenation over all strings.", "anchors": ["src/urlstd/parse.py:SAFE_C0_CONTROL_PERCENT_ENCODE_SET", "src/urlstd/parse.py:SAFE_FRAGMENT_PERCENT_ENCODE_SET", "src/urlstd/parse.py:SAFE_QUERY_PERCENT_ENCODE_SET", "src/urlstd/parse.py:SAFE_PATH_PERCENT_ENCODE_SET", "src/urlstd/parse.py:SAFE_USERINFO_PERCENT_ENCODE_SET", "src/urlstd/parse.py:string_percent_encode"]}
{"id": "C08", "title": "application/x-www-form-urlencoded serializer conforms to the URL Standard", "statement": "urlencode(pairs) is the standard's urlencoded serialization (space to '+', everything except ASCII alphanumerics and * - . _ percent-encoded).", "quantifier": "every list of (name, value) strings", "why_tests_cant": "The encode set ranges over all code points.", "anchors": ["src/urlstd/parse.py:urlencode", "src/urlstd/parse.py:SAFE_URLENCODED_PERCENT_ENCODE_SET"]}
{"id": "C09", "title": "urlencode / parse_qsl round trip", "statement": "parse_qsl(urlencode(pairs).encode()) == pairs for surrogate-free pairs, including empty names, empty values, duplicates and the empty list.", "quantifier": "every list of pairs of surrogate-free strings", "why_tests_cant": "Unbounded lists of unbounded strings; delimiters may occur inside names and values.", "anchors": ["src/urlstd/parse.py:urlencode", "src/urlstd/parse.py:parse_qsl"]}
{"id": "C10", "title": "parse_qsl conforms to the urlencoded parser", "statement": "parse_qsl(b) equals the URL Standard's application/x-www-form-urlencoded parser on every byte sequence: empty sequences between '&' are dropped, the first '=' separates, '+' becomes a space before percent-decoding.", "quantifier": "every byte sequence", "why_tests_cant": "All byte sequences.", "anchors": ["src/urlstd/parse.py:parse_qsl"]}
{"id": "C11", "title": "urlencode output can be embedded in a URL query", "statement": "urlencode only emits ASCII alphanumerics and * - . _ ~ + % = &, and parsing 'scheme:...?'+urlencode(pairs) stores it unchanged.", "quantifier": "every list of pairs", "why_tests_cant": "All lists.", "anchors": ["src/urlstd/parse.py:urlencode", "src/urlstd/parse.py:URLSearchParams._update"]}
{"id": "C12", "title": "Legacy-encoding percent-encoding never fails and stays ASCII", "statement": "For every stateless ASCII-compatible codec string_percent_encode returns ASCII output; code points the codec cannot encode appear as the percent-encoded form of '&#N;'.", "quantifier": "every str, every safe set, every such codec", "why_tests_cant": "Quantifies over codecs.", "anchors": ["src/urlstd/parse.py:string_percent_encode"]}
{"id": "C13", "title": "IPv4 serialize/parse round trip", "statement": "Parsing the dotted-decimal serialization of any 32-bit address returns the same address.", "quantifier": "all 2^32 addresses", "why_tests_cant": "Too many to enumerate in a unit test; edge cases at octet boundaries.", "anchors": ["src/urlstd/parse.py:IPv4Address.parse", "src/urlstd/parse.py:IPv4Address.serialize"]}
{"id": "C14", "title": "IPv4 parser only returns 32-bit addresses", "statement": "If IPv4Address.parse returns n then 0 <= n < 2**32.", "quantifier": "every input string", "why_tests_cant": "Overflow needs unusual part combinations.", "anchors": ["src/urlstd/parse.py:IPv4Address.parse"]}
{"id": "C15", "title": "IPv4 parser conforms to the URL Standard's IPv4 parser", "statement": "IPv4Address.parse(s) accepts exactly the strings the standard's IPv4 parser accepts and returns the same number.", "quantifier": "every ASCII string", "why_tests_cant": "The accepted language is infinite (decimal, octal, hex, 1-4 parts, trailing dot).", "anchors": ["src/urlstd/parse.py:IPv4Address.parse", "src/urlstd/parse.py:IPv4Address._parse_ipv4_number"]}
{"id": "C16", "title": "'Ends in a number' checker conforms to the URL Standard", "statement": "IPv4Address.is_ends_in_a_number(s) is True exactly when the standard's ends-in-a-number checker is.", "quantifier": "every string", "why_tests_cant": "All strings.", "anchors": ["src/urlstd/parse.py:IPv4Address.is_ends_in_a_number"]}
{"id": "C17", "title": "IPv4 serialization is canonical", "statement": "The serialization is always four decimal numbers 0-255 without leading zeros joined by '.', and two 32-bit addresses have the same serialization only if they are equal.", "quantifier": "all integers", "why_tests_cant": "2^32 values.", "anchors": ["src/urlstd/parse.py:IPv4Address.serialize"]}
{"id": "C18", "title": "IPv6 serialize/parse round trip", "statement": "Parsing the serialization of any 128-bit address given as eight 16-bit pieces returns the same eight pieces.", "quantifier": "all 2^128 addresses", "why_tests_cant": "Too many to enumerate; compression placement interacts with position.", "anchors": ["src/urlstd/parse.py:IPv6Address.parse", "src/urlstd/parse.py:IPv6Address.serialize"]}
{"id": "C19", "title": "IPv6 parser returns eight 16-bit pieces or a parse error", "statement": "Every call of IPv6Address.parse either raises IPv6AddressParseError or returns exactly eight integers in 0..65535; it never raises IndexError or another exception.", "quantifier": "every input string", "why_tests_cant": "All strings; index arithmetic is interleaved with error checks.", "anchors": ["src/urlstd/parse.py:IPv6Address.parse"]}
{"id": "C20", "title": "IPv6 serializer conforms to the URL Standard", "statement": "The serialization compresses exactly the first longest run of two or more zero pieces, prints every other piece as lower-case hex without leading zeros and separates with ':'.", "quantifier": "every sequence of eight pieces", "why_tests_cant": "65536^8 inputs.", "anchors": ["src/urlstd/parse.py:IPv6Address.serialize"]}
{"id": "C21", "title": "IPv6 parser conforms to the URL Standard's IPv6 parser", "statement": "IPv6Address.parse(s) accepts exactly the strings the standard's IPv6 parser accepts and returns the same pieces.", "quantifier": "every input string", "why_tests_cant": "All strings.", "anchors": ["src/urlstd/parse.py:IPv6Address.parse"]}
{"id": "C22", "title": "IPv6 serialization is injective", "statement": "Distinct 128-bit addresses have distinct serializations.", "quantifier": "all pairs of addresses", "why_tests_cant": "2^256 pairs.", "anchors": ["src/urlstd/parse.py:IPv6Address.serialize"]}
{"id": "C23", "title": "Host round trip", "statement": "If Host.parse(h, not_special) returns a host then parsing Host.serialize of that host with the same flag returns an equal host.", "quantifier": "every host string, both flags, every IDNA implementation that is idempotent on its own output", "why_tests_cant": "All strings and all three host kinds.", "anchors": ["src/urlstd/parse.py:Host.parse", "src/urlstd/parse.py:Host.serialize"]}
{"id": "C24", "title": "Parsed hosts contain no forbidden code points", "statement": "The serialization of a host returned by Host.parse never contains a forbidden host code point except the brackets and colons of an IPv6 literal; a domain additionally has no '%', C0 control or U+007F.", "quantifier": "every host string and flag", "why_tests_cant": "All strings.", "anchors": ["src/urlstd/parse.py:Host.parse", "src/urlstd/parse.py:Host._parse_opaque_host", "src/urlstd/parse.py:FORBIDDEN_DOMAIN_CODE_POINT"]}
{"id": "C25", "title": "Host parser never returns an empty domain", "statement": "For a non-empty input Host.parse never returns the empty host.", "quantifier": "every non-empty host string", "why_tests_cant": "All strings.", "anchors": ["src/urlstd/parse.py:Host.parse", "src/urlstd/parse.py:IDNA.domain_to_ascii"]}
{"id": "C26", "title": "The parser terminates after a bounded number of state transitions", "statement": "For every input and base, BasicURLParser.parse leaves its while loop after at most 12 state-function calls.", "quantifier": "every input string, base record, encoding", "why_tests_cant": "A non-terminating path would need one specific unlucky input.", "anchors": ["src/urlstd/parse.py:BasicURLParser.parse"]}
{"id": "C27", "title": "URL parsing raises nothing but URLParseError", "statement": "parse_url(s, base) either returns a record or raises a URLParseError; URL.can_parse always returns a bool.", "quantifier": "every input string and base", "why_tests_cant": "Any unusual exception needs a specific input.", "anchors": ["src/urlstd/parse.py:parse_url", "src/urlstd/parse.py:URL.can_parse"]}
{"id": "C28", "title": "Every rejected URL is explained", "statement": "Whenever parsing fails, at least one validation error has been recorded in the validity object.", "quantifier": "every input string and base string that does not parse", "why_tests_cant": "All rejected inputs.", "anchors": ["src/urlstd/parse.py:BasicURLParser", "src/urlstd/parse.py:ValidityState.prepend"]}
{"id": "C29", "title": "Structural invariant of parsed records", "statement": "Every record returned by parse_url satisfies: lower-case syntactically valid scheme; special scheme implies non-None host, list path that is non-empty, and non-empty host unless file; opaque path implies host None; credentials or port imply a non-empty host and scheme other than file; port in 0..65535.", "quantifier": "every input and base obtained by parsing", "why_tests_cant": "All inputs; involves all states of the parser.", "anchors": ["src/urlstd/parse.py:BasicURLParser.parse", "src/urlstd/parse.py:URLRecord"]}
{"id": "C30", "title": "Parse / serialize round trip", "statement": "If parse_url(s, base) returns u then parse_url(u.href) returns a record equal to u field by field.", "quantifier": "every input string and every base string that parses (IPv4 host values below 2^32; IDNA idempotent on its own output)", "why_tests_cant": "All inputs; the classical URL-parser bug class.", "anchors": ["src/urlstd/parse.py:BasicURLParser.parse", "src/urlstd/parse.py:URLRecord.serialize_url"]}
{"id": "C31", "title": "href is a fixed point", "statement": "If URL(s, base) succeeds then URL(URL(s, base).href).href == URL(s, base).href, even where records differ.", "quantifier": "every input and base", "why_tests_cant": "All inputs.", "anchors": ["src/urlstd/parse.py:URL.href", "src/urlstd/parse.py:URLRecord.serialize_url"]}
{"id": "C32", "title": "An absolute serialization ignores the base", "statement": "Parsing u.href against any base gives the same record as parsing it without base.", "quantifier": "every parsed record u and every base record", "why_tests_cant": "Pairs of arbitrary URLs.", "anchors": ["src/urlstd/parse.py:BasicURLParser._parse_scheme", "src/urlstd/parse.py:BasicURLParser._parse_special_relative_or_authority", "src/urlstd/parse.py:BasicURLParser._parse_file"]}
{"id": "C33", "title": "Serialized URLs are printable ASCII", "statement": "Every character of u.href is in U+0021..U+007E, except that an opaque path may contain U+0020.", "quantifier": "every input and base", "why_tests_cant": "All inputs.", "anchors": ["src/urlstd/parse.py:URLRecord.serialize_url"]}
{"id": "C34", "title": "Tabs, newlines and surrounding whitespace are ignored", "statement": "Parsing s gives the same outcome as parsing s with all ASCII tabs/newlines removed, and the same outcome after stripping leading and trailing C0 controls and spaces.", "quantifier": "every input and base", "why_tests_cant": "All inputs and all placements.", "anchors": ["src/urlstd/parse.py:BasicURLParser.parse", "src/urlstd/parse.py:ASCII_TAB_OR_NEWLINE_RE", "src/urlstd/parse.py:LEADING_AND_TRAILING_C0_CONTROL_OR_SPACE_RE"]}
{"id": "C35", "title": "Scheme parsing is case-insensitive and normalizing", "statement": "Changing the ASCII case of letters in the scheme of an absolute URL does not change the parsed record, and the stored scheme is lower case.", "quantifier": "every input with a scheme", "why_tests_cant": "All inputs and casings.", "anchors": ["src/urlstd/parse.py:BasicURLParser._parse_scheme"]}
{"id": "C36", "title": "No dot segments or separators survive in a path", "statement": "No segment of a parsed non-opaque path is '.', '..' or a percent-encoded variant, contains '/', '?' or '#', or (for special schemes) contains a backslash.", "quantifier": "every input and base", "why_tests_cant": "All inputs; dot segments can be formed after encoding.", "anchors": ["src/urlstd/parse.py:BasicURLParser._parse_path", "src/urlstd/parse.py:URLRecord.shorten_path"]}
{"id": "C37", "title": "Default ports are never stored", "statement": "In a parsed record the port is never the default port of the scheme.", "quantifier": "every input and base", "why_tests_cant": "All inputs.", "anchors": ["src/urlstd/parse.py:BasicURLParser._parse_port", "src/urlstd/parse.py:SPECIAL_SCHEMES"]}
{"id": "C38", "title": "Resolving the empty reference returns the base without its fragment", "statement": "For every base with a non-opaque path, parse_url('', base) equals base with fragment None.", "quantifier": "every parsed base record with a list path", "why_tests_cant": "All bases.", "anchors": ["src/urlstd/parse.py:BasicURLParser._parse_relative", "src/urlstd/parse.py:BasicURLParser._parse_file"]}
{"id": "C39", "title": "Resolving '#f' replaces only the fragment", "statement": "For every base, parse_url('#'+f, base) is base with fragment the percent-encoded f (tabs and newlines removed).", "quantifier": "every parsed base and every f", "why_tests_cant": "All pairs.", "anchors": ["src/urlstd/parse.py:BasicURLParser._parse_no_scheme", "src/urlstd/parse.py:BasicURLParser._parse_fragment"]}
{"id": "C40", "title": "Resolving '?q' replaces only query and fragment", "statement": "For every base with a non-opaque path, parse_url('?'+q, base) with q free of '#' keeps scheme, credentials, host, port and path, sets the query to the percent-encoded q and drops the fragment.", "quantifier": "every parsed base and every q", "why_tests_cant": "All pairs.", "anchors": ["src/urlstd/parse.py:BasicURLParser._parse_relative", "src/urlstd/parse.py:BasicURLParser._parse_file", "src/urlstd/parse.py:BasicURLParser._parse_query"]}
{"id": "C41", "title": "The state machine conforms to the URL Standard's basic URL parser", "statement": "With the same host parser plugged in, parse_url(s, base) returns what the standard's code-point-by-code-point basic URL parser returns, in success and failure.", "quantifier": "every input string and base record", "why_tests_cant": "All inputs and all states.", "anchors": ["src/urlstd/parse.py:BasicURLParser"]}
{"id": "C42", "title": "Parsing never modifies the base", "statement": "parse_url(s, base) leaves the base record and its path list unchanged, and the returned record shares no mutable list with it.", "quantifier": "every input and base record", "why_tests_cant": "Aliasing shows up only for inputs that mutate the copied path.", "anchors": ["src/urlstd/parse.py:BasicURLParser._parse_relative", "src/urlstd/parse.py:BasicURLParser._parse_file", "src/urlstd/parse.py:BasicURLParser._parse_file_slash", "src/urlstd/parse.py:BasicURLParser._parse_no_scheme"]}
{"id": "C43", "title": "Surrogate pairs are treated as the code point they encode", "statement": "Parsing a string in which an astral code point is written as a surrogate pair gives the same record as parsing it with the code point itself.", "quantifier": "every input string", "why_tests_cant": "All strings.", "anchors": ["src/urlstd/parse.py:BasicURLParser._parse_opaque_path", "src/urlstd/parse.py:string_percent_encode"]}
{"id": "C44", "title": "The encoding argument affects only the query", "statement": "For any two encodings, the results of parse_url differ at most in the query; for ws, wss and non-special schemes they do not differ at all.", "quantifier": "every input, base record and encoding", "why_tests_cant": "All inputs and encodings.", "anchors": ["src/urlstd/parse.py:BasicURLParser._parse_query", "src/urlstd/parse.py:parse_url"]}
{"id": "C45", "title": "Backslash is a path separator exactly for special schemes", "statement": "For an absolute URL with special scheme, replacing backslashes before the first '?' or '#' by '/' does not change the outcome; for a non-special scheme a backslash never ends the authority or a path segment.", "quantifier": "every input", "why_tests_cant": "All inputs and placements.", "anchors": ["src/urlstd/parse.py:BasicURLParser._parse_path", "src/urlstd/parse.py:BasicURLParser._parse_authority", "src/urlstd/parse.py:BasicURLParser._parse_host"]}
{"id": "C46", "title": "Setters change only their own component", "statement": "Assigning username, password, host, hostname, port, pathname, search or hash leaves every record field outside that component (host may also set port) unchanged; protocol only changes scheme and may clear the port. A trailing-space strip of an opaque path is the only exception, for search and hash.", "quantifier": "every URL object and every assigned string, whether or not the setter raises", "why_tests_cant": "All states and values.", "anchors": ["src/urlstd/parse.py:URL.hash", "src/urlstd/parse.py:URL.host", "src/urlstd/parse.py:URL.hostname", "src/urlstd/parse.py:URL.password", "src/urlstd/parse.py:URL.pathname", "src/urlstd/parse.py:URL.port", "src/urlstd/parse.py:URL.protocol", "src/urlstd/parse.py:URL.search", "src/urlstd/parse.py:URL.username"]}
{"id": "C47", "title": "A setter that raises leaves the URL unchanged", "statement": "If assigning a component raises, href is the same as before.", "quantifier": "every URL object, component and string", "why_tests_cant": "All states and values.", "anchors": ["src/urlstd/parse.py:URL.host", "src/urlstd/parse.py:URL.port", "src/urlstd/parse.py:URL.protocol", "src/urlstd/parse.py:BasicURLParser._parse_host", "src/urlstd/parse.py:BasicURLParser._parse_port"]}
{"id": "C48", "title": "Setters preserve the record invariant", "statement": "After any sequence of setter calls and search-params mutations the record still satisfies the structural invariant of parsed records.", "quantifier": "every history of operations on a URL object", "why_tests_cant": "Unbounded histories.", "anchors": ["src/urlstd/parse.py:URL", "src/urlstd/parse.py:BasicURLParser._parse_scheme", "src/urlstd/parse.py:BasicURLParser._parse_host"]}
{"id": "C49", "title": "href stays re-parsable after any history", "statement": "After any sequence of setter calls href parses again and yields an equal record.", "quantifier": "every history of operations on a URL object", "why_tests_cant": "Unbounded histories.", "anchors": ["src/urlstd/parse.py:URL.href", "src/urlstd/parse.py:URL.protocol", "src/urlstd/parse.py:URL.host"]}
{"id": "C50", "title": "search_params and search stay in sync", "statement": "At every point, list(url.search_params) is the form-urlencoded parse of the URL's query.", "quantifier": "every history of URL setters and search_params mutations", "why_tests_cant": "Unbounded histories interleaving two objects.", "anchors": ["src/urlstd/parse.py:URL.search", "src/urlstd/parse.py:URL.href", "src/urlstd/parse.py:URLSearchParams._update", "src/urlstd/parse.py:URLSearchParams.attach"]}
{"id": "C51", "title": "Setters never store a default port", "statement": "After any history of operations the port is not the scheme's default port.", "quantifier": "every history", "why_tests_cant": "Unbounded histories; protocol and port interact.", "anchors": ["src/urlstd/parse.py:BasicURLParser._parse_scheme", "src/urlstd/parse.py:BasicURLParser._parse_port"]}
{"id": "C52", "title": "Guarded setters have no effect", "statement": "host, hostname and pathname assignments on a URL with an opaque path, and username, password and port assignments on a URL that cannot have them, change nothing and do not raise.", "quantifier": "every such URL and string", "why_tests_cant": "All states and values.", "anchors": ["src/urlstd/parse.py:URL.host", "src/urlstd/parse.py:URL.hostname", "src/urlstd/parse.py:URL.pathname", "src/urlstd/parse.py:URL.username", "src/urlstd/parse.py:URL.password", "src/urlstd/parse.py:URL.port"]}
{"id": "C53", "title": "Set-get laws for components", "statement": "After url.username = v (when allowed) url.username is the userinfo-encoding of v; likewise password; after url.hash = v url.hash is '#' plus the fragment encoding of v without its leading '#', or '' if that is empty; after url.port = str(n) with n <= 65535 url.port is str(n) or '' for the default port.", "quantifier": "every URL object and string", "why_tests_cant": "All states and values.", "anchors": ["src/urlstd/parse.py:URL.username", "src/urlstd/parse.py:URL.password", "src/urlstd/parse.py:URL.hash", "src/urlstd/parse.py:URL.port", "src/urlstd/parse.py:URL.search"]}
{"id": "C54", "title": "URL equality is equality of serialization and an equivalence relation", "statement": "u == v iff href strings agree; equals(exclude_fragments=True) ignores exactly the fragment; both are reflexive, symmetric and transitive.", "quantifier": "all pairs and triples of records", "why_tests_cant": "All records.", "anchors": ["src/urlstd/parse.py:URLRecord.equals", "src/urlstd/parse.py:URL.equals"]}
{"id": "C55", "title": "can_parse agrees with the constructor", "statement": "URL.can_parse(s, base) is True iff URL(s, base) succeeds.", "quantifier": "every s and base", "why_tests_cant": "All inputs.", "anchors": ["src/urlstd/parse.py:URL.can_parse", "src/urlstd/parse.py:URL.__init__"]}
{"id": "C56", "title": "Origin is None except for the special network schemes and blobs of them", "statement": "URLRecord.origin is (scheme, host, port) for ftp/http/https/ws/wss, is None for other schemes, and for blob is the origin of its path parsed as a URL if that has scheme http or https, else None.", "quantifier": "every record", "why_tests_cant": "All records.", "anchors": ["src/urlstd/parse.py:URLRecord.origin"]}
{"id": "C57", "title": "Same-origin is an equivalence relation; a URL and its re-parsed href have the same origin", "statement": "is_same_origin is reflexive, symmetric, transitive; URL(u.href) is same-origin with u whenever u has an origin.", "quantifier": "all origins and all parsed URLs", "why_tests_cant": "All pairs.", "anchors": ["src/urlstd/parse.py:Origin.is_same_origin", "src/urlstd/parse.py:URLRecord.origin"]}
{"id": "C58", "title": "Same origin-domain follows the HTML Standard", "statement": "is_same_origin_domain(a, b) is True iff schemes and non-null domains agree, or both domains are null and a, b are same origin; it is symmetric.", "quantifier": "all pairs of origins", "why_tests_cant": "All pairs.", "anchors": ["src/urlstd/parse.py:Origin.is_same_origin_domain"]}
{"id": "C59", "title": "URLSearchParams operations follow the URL Standard's list semantics", "statement": "append/delete/get/get_all/has/set on (name, value) act on the list exactly as the standard specifies for those very strings.", "quantifier": "every list and arguments", "why_tests_cant": "All lists and strings.", "anchors": ["src/urlstd/parse.py:URLSearchParams.append", "src/urlstd/parse.py:URLSearchParams.delete", "src/urlstd/parse.py:URLSearchParams.get", "src/urlstd/parse.py:URLSearchParams.get_all", "src/urlstd/parse.py:URLSearchParams.has", "src/urlstd/parse.py:URLSearchParams.set"]}
{"id": "C60", "title": "set leaves exactly one pair with the name", "statement": "After params.set(n, v), exactly one pair has the (decoded) name n, it is at the position of the first former occurrence (or last if new), and all pairs with other names are kept in order.", "quantifier": "every list and arguments", "why_tests_cant": "All lists.", "anchors": ["src/urlstd/parse.py:URLSearchParams.set"]}
{"id": "C61", "title": "sort is a stable sort by UTF-16 code units", "statement": "After sort(), names are non-decreasing in UTF-16 code-unit order, the list is a permutation of the former one, and pairs with equal names keep their order; sorting twice is sorting once.", "quantifier": "every list", "why_tests_cant": "All lists.", "anchors": ["src/urlstd/parse.py:URLSearchParams.sort"]}
{"id": "C62", "title": "Copy construction preserves the pairs", "statement": "URLSearchParams(str(p)) and URLSearchParams(p) contain exactly the pairs of p, for every p reachable by the API.", "quantifier": "every reachable URLSearchParams", "why_tests_cant": "All histories.", "anchors": ["src/urlstd/parse.py:URLSearchParams.__init__", "src/urlstd/parse.py:URLSearchParams.__str__"]}
{"id": "C63", "title": "has/delete accept the same values append accepts", "statement": "After append(n, v), has(n, v) is True, also when v is an int.", "quantifier": "every list, name and value", "why_tests_cant": "Type-dependent path over all values.", "anchors": ["src/urlstd/parse.py:URLSearchParams.has", "src/urlstd/parse.py:URLSearchParams.delete", "src/urlstd/parse.py:URLSearchParams.append"]}
{"id": "C64", "title": "Every listed name can be looked up", "statement": "For every pair (n, v) in a URLSearchParams, n in params and get(n) is the value of the first pair named n.", "quantifier": "every URLSearchParams", "why_tests_cant": "All contents.", "anchors": ["src/urlstd/parse.py:URLSearchParams.get", "src/urlstd/parse.py:URLSearchParams.has", "src/urlstd/parse.py:URLSearchParams.__contains__", "src/urlstd/parse.py:URLSearchParams.keys"]}
{"id": "C65", "title": "A valid URL is parsable", "statement": "If URLValidator.is_valid(s, base) returns True then parsing s against base succeeds, without any recorded validation error, and the scheme is registered.", "quantifier": "every s and base", "why_tests_cant": "All inputs.", "anchors": ["src/urlstd/parse.py:URLValidator.is_valid"]}
{"id": "C66", "title": "ValidityState is consistent", "statement": "After any sequence of prepend, reset and merge operations: valid is True iff validation_errors == 0 iff error_types is empty, and len(error_types) == len(descriptions) == validation_errors.", "quantifier": "every history of ValidityState operations", "why_tests_cant": "Unbounded histories.", "anchors": ["src/urlstd/parse.py:ValidityState.prepend", "src/urlstd/parse.py:ValidityState.reset", "src/urlstd/parse.py:ValidityState.__iadd__", "src/urlstd/parse.py:ValidityState.__add__"]}
{"id": "C67", "title": "IPv4 validity means valid IPv4-address string", "statement": "HostValidator.is_valid_ipv4_address(s) is True iff s is four shortest-form decimal numbers 0..255 separated by '.'.", "quantifier": "every string", "why_tests_cant": "All strings.", "anchors": ["src/urlstd/parse.py:HostValidator.is_valid_ipv4_address"]}
{"id": "C68", "title": "is_url_units decides URL-unit strings", "statement": "The internal check behind opaque-host validation accepts exactly strings made of URL code points and '%XY' triples.", "quantifier": "every string", "why_tests_cant": "All strings.", "anchors": ["src/urlstd/parse.py:is_url_units", "src/urlstd/parse.py:is_url_code_points"]}
{"id": "C69", "title": "A valid opaque host parses cleanly", "statement": "If HostValidator.is_valid_opaque_host(h) is True then Host.parse(h, True) succeeds without recording a validation error.", "quantifier": "every string", "why_tests_cant": "All strings.", "anchors": ["src/urlstd/parse.py:HostValidator.is_valid_opaque_host", "src/urlstd/parse.py:Host._parse_opaque_host"]}
{"id": "C70", "title": "IPv6 validity agrees with the IPv6 parser", "statement": "HostValidator.is_valid_ipv6_address(s) is True iff IPv6Address.parse(s) succeeds.", "quantifier": "every string", "why_tests_cant": "All strings.", "anchors": ["src/urlstd/parse.py:HostValidator.is_valid_ipv6_address"]}
{"id": "C71", "title": "Scheme validity", "statement": "URLValidator.is_valid_url_scheme(s) for ASCII s is True iff the lower-cased s is a registered scheme; it is case-insensitive, and every registered scheme is accepted.", "quantifier": "every ASCII string", "why_tests_cant": "All strings.", "anchors": ["src/urlstd/parse.py:URLValidator.is_valid_url_scheme"]}
{"id": "C72", "title": "urlparse components recombine", "statement": "For every input that parses, the urllib-style six components give back the URL: scheme ':' ['//' netloc] path text [?query] [#fragment] is href (with '/.' before a path starting '//' when there is no host); the path text is path, or path ';' params cut at the first ';'; with allow_fragments=False the fragment is empty and urlunparse of path, params, query and fragment is the same text.", "quantifier": "every input and base", "why_tests_cant": "All inputs.", "anchors": ["src/urlstd/parse.py:urlparse"]}
{"id": "C73", "title": "Windows drive letters are preserved in file URLs", "statement": "Resolving a relative path of '..' segments against a file URL whose first path segment is a normalized drive letter never removes that drive letter.", "quantifier": "every base file URL and every number of '..' segments", "why_tests_cant": "Unbounded depth.", "anchors": ["src/urlstd/parse.py:URLRecord.shorten_path", "src/urlstd/parse.py:BasicURLParser._parse_path"]}
{"id": "C74", "title": "'..' never climbs above the root", "statement": "However many '..' segments an absolute input contains, the path is a list whose segments are among those of the input after the last excess '..'; the authority is unaffected.", "quantifier": "every input path", "why_tests_cant": "Unbounded depth.", "anchors": ["src/urlstd/parse.py:BasicURLParser._parse_path", "src/urlstd/parse.py:URLRecord.shorten_path"]}
{"id": "C75", "title": "URLSearchParams(dict) keeps one pair per name, the last value at the first position", "statement": "The list built from a dict has pairwise distinct names in order of first occurrence after conversion to scalar values, each with the value of the last item whose converted name it is.", "quantifier": "every dict with str, int or float keys and values", "why_tests_cant": "Distinct keys collide only after surrogate replacement; unbounded dicts.", "anchors": ["src/urlstd/parse.py:URLSearchParams.__init__"]}
{"id": "C76", "title": "URL records never share mutable state", "statement": "After any sequence of parse_url calls, parser runs on a given record and setter assignments, no two URL records refer to the same path list, and an operation on one record leaves the value of every other record unchanged.", "quantifier": "every history of operations, every record", "why_tests_cant": "Aliasing needs the right pair of operations on two objects; tests look at one object at a time.", "anchors": ["src/urlstd/parse.py:BasicURLParser.parse", "src/urlstd/parse.py:URLRecord", "src/urlstd/parse.py:URL.pathname"]}
{"id": "C77", "title": "Host.parse conforms to the URL Standard's host parser", "statement": "Host.parse(h, is_not_special) returns the host that the standard's host parser returns and fails exactly when it fails, with the same domain-to-ASCII operation on both sides.", "quantifier": "every scalar value string h and both values of is_not_special", "why_tests_cant": "All strings; percent-decoding, IDNA, the ends-in-a-number check, IPv4 and IPv6 interact.", "anchors": ["src/urlstd/parse.py:Host.parse", "src/urlstd/parse.py:Host._parse_opaque_host", "src/urlstd/parse.py:Host._domain_to_ascii"]}
{"id": "C78", "title": "The whole parser conforms to the URL Standard", "statement": "parse_url(s, base) has the outcome of the standard's basic URL parser running the standard's own host parser, in success and failure.", "quantifier": "every input string and every base", "why_tests_cant": "All inputs; the host is cut out of the input by the state machine before it is parsed.", "anchors": ["src/urlstd/parse.py:BasicURLParser", "src/urlstd/parse.py:Host.parse"]}
{"id": "C79", "title": "Property setters conform to the URL Standard's setters", "statement": "Assigning href, protocol, username, password, host, hostname, port, pathname, search or hash changes the record exactly as the standard's setter does (the basic URL parser with a state override), and raises exactly when that parser returns failure.", "quantifier": "every URL object reachable by construction and any history of calls, every setter and every value", "why_tests_cant": "Unboundedly many objects and values; the state override changes most states of the machine.", "anchors": ["src/urlstd/parse.py:URL", "src/urlstd/parse.py:BasicURLParser"]}
{"id": "C80", "title": "The IPv4 parser and validator accept exactly the addresses written with int() literals", "statement": "IPv4Address.parse accepts exactly the addresses of the URL Standard's IPv4 parser with each part read by Python's int() (signs, whitespace, underscores, base prefixes), except that leading parts above 255 are let through when the last part is above 255; HostValidator's IPv4 check accepts exactly four dot-separated int() literals between 0 and 255 without superfluous leading zero.", "quantifier": "every string, every int/str digit limit allowed by CPython and every Unicode digit/space table", "why_tests_cant": "The accepted set is infinite and its complement too; a test can only sample spellings.", "anchors": ["src/urlstd/parse.py:IPv4Address.parse", "src/urlstd/parse.py:IPv4Address._parse_ipv4_number", "src/urlstd/parse.py:HostValidator"]}
{"id": "C81", "title": "The IPv6 parser accepts exactly a grammar of addresses", "statement": "IPv6Address.parse accepts exactly the colon-separated sequences of hexadecimal pieces and dotted quads described by the grammar in SpecIPv6.v, with the address that the text denotes; the URL Standard's IPv6 parser accepts exactly its own grammar (RFC 4291 with the quad last); and whenever both accept a text they give the same address.", "quantifier": "every string, every int/str digit limit allowed by CPython", "why_tests_cant": "The accepted set is infinite (any letter case, leading zeros and quads in any place) and so is its complement.", "anchors": ["src/urlstd/parse.py:IPv6Address.parse"]}
{"id": "C82", "title": "Assigning a component its own value changes nothing", "statement": "For every URL object that a program can reach, assigning to protocol, username, password, host, hostname, port, pathname, search or hash the value that the getter of the same name returns leaves the object unchanged and does not raise.", "quantifier": "every URL object reachable by constructor calls, setter calls and search-params mutations; every attribute", "why_tests_cant": "The state space of histories is infinite, and the failing states need particular histories (port 0, file URLs made by the protocol setter) or the distinction between empty and absent components.", "anchors": ["src/urlstd/parse.py:URL.hash", "src/urlstd/parse.py:URL.host", "src/urlstd/parse.py:URL.hostname", "src/urlstd/parse.py:URL.pathname", "src/urlstd/parse.py:URL.port", "src/urlstd/parse.py:URL.protocol", "src/urlstd/parse.py:URL.search", "src/urlstd/parse.py:URL.username", "src/urlstd/parse.py:URL.password"]}
{"id": "C83", "title": "The last assignment to a component wins", "statement": "After two assignments to the same attribute, the object and the outcome are those of the second assignment alone, unless the second value is ignored or refused in both cases.", "quantifier": "every URL object, every attribute, every pair of values", "why_tests_cant": "Pairs of arbitrary values on arbitrary objects; leftovers of the first value (ports, stripped spaces) show up only in rare combinations.", "anchors": ["src/urlstd/parse.py:URL.hash", "src/urlstd/parse.py:URL.host", "src/urlstd/parse.py:URL.hostname", "src/urlstd/parse.py:URL.href", "src/urlstd/parse.py:URL.pathname", "src/urlstd/parse.py:URL.port", "src/urlstd/parse.py:URL.search"]}
{"id": "C84", "title": "Calls on unrelated components commute", "statement": "Two calls on a URL object (setters or search-params mutations) that concern unrelated components may be swapped: the final object is the same and each call raises in one order iff it raises in the other. Unrelated are: user name, password and port with each other; these three with pathname, query and fragment; pathname with query and fragment; protocol, host and hostname with query and fragment; query with fragment unless the path is opaque. Every other pair of components has a counterexample.", "quantifier": "every URL object, every pair of unrelated calls with any arguments", "why_tests_cant": "Quantifies over all pairs of calls and all object states; a single hidden dependency (a shared field, a cached list) breaks it only for particular values.", "anchors": ["src/urlstd/parse.py:URL", "src/urlstd/parse.py:URLSearchParams._update"]}
{"id": "C85", "title": "Setters agree with the URL Standard including its host parser", "statement": "Each setter turns the record into the one that the URL Standard's setter produces, with the standard's own host parser (over the same domain-to-ASCII operation) in place of the code's, and raises exactly when the standard's parser returns failure.", "quantifier": "every reachable URL object, every setter, every scalar value string", "why_tests_cant": "Relates two infinite-state machines on all inputs; the deviations hide in number spellings inside hosts.", "anchors": ["src/urlstd/parse.py:URL", "src/urlstd/parse.py:Host.parse", "src/urlstd/parse.py:BasicURLParser"]}
{"id": "C86", "title": "Objects of a program do not interfere", "statement": "In a program that creates any number of URL, URLSearchParams and URL record objects (with other URL objects or records as bases) and calls their methods in any order, every URL object behaves exactly as if it were alone: only its own setters and the calls on its own search_params change it, and copies and records are never affected.", "quantifier": "every program over the public API without attach()/URLSearchParams(record), every object", "why_tests_cant": "Interference needs a particular interleaving of calls on several objects that share a list or record by mistake.", "anchors": ["src/urlstd/parse.py:URL.__init__", "src/urlstd/parse.py:URL.href", "src/urlstd/parse.py:URL.search", "src/urlstd/parse.py:URLSearchParams.__init__", "src/urlstd/parse.py:URLSearchParams.attach"]}
{"id": "C87", "title": "A URLSearchParams object shows the query it is connected to", "statement": "In every program, including those that call attach() or URLSearchParams(record), a URLSearchParams object connected to a record shows the form-urlencoded parse of that record's query, and url.search_params that of url's query.", "quantifier": "every program over the public API, every URLSearchParams object and URL object", "why_tests_cant": "Unbounded interleavings of calls on objects connected to the same record.", "anchors": ["src/urlstd/parse.py:URLSearchParams.attach", "src/urlstd/parse.py:URLSearchParams._update", "src/urlstd/parse.py:URL.search"]}
{"id": "C88", "title": "Iterators over URLSearchParams are live", "statement": "The iterators of entries(), iter(), keys() and values() are WebIDL's pair iterators: each next() looks at the current pairs of the object, at the position given by the number of items returned so far.", "quantifier": "every program that changes the object between calls of next()", "why_tests_cant": "Needs mutations interleaved with iteration; tests iterate over an unchanging object.", "anchors": ["src/urlstd/parse.py:URLSearchParams.entries", "src/urlstd/parse.py:URLSearchParams.__iter__", "src/urlstd/parse.py:URLSearchParams.keys", "src/urlstd/parse.py:URLSearchParams.values"]}
{"id": "C89", "title": "The fragment does not influence anything else", "statement": "Parsing s#f (s without '#') gives the result of parsing s# with the fragment replaced by f percent-encoded (without its trailing spaces and controls, tabs and newlines), errors included; and, if s has no trailing space or control, the result of parsing s with that fragment added, except when s is nothing but 'file:' or empty against a file base, or empty against a base with an opaque path.", "quantifier": "every input s without '#', every fragment text, every base and encoding", "why_tests_cant": "All pairs of inputs and bases; interactions with each of the 21 states.", "anchors": ["src/urlstd/parse.py:BasicURLParser._parse_fragment", "src/urlstd/parse.py:BasicURLParser.parse"]}
{"id": "C90", "title": "The query does not influence anything else", "statement": "Parsing s?q (s without '?' and '#', q without '#') gives the result of parsing s? with the query replaced by q percent-encoded for the scheme in the given encoding, errors included; and, if s has no trailing space or control, the result of parsing s with that query, except when s is nothing but 'file:' or empty against a file base.", "quantifier": "every input s without '?' and '#', every query text, every base and encoding", "why_tests_cant": "All pairs of inputs and bases; interactions with each of the states.", "anchors": ["src/urlstd/parse.py:BasicURLParser._parse_query", "src/urlstd/parse.py:BasicURLParser.parse"]}
{"id": "C91", "title": "Scheme-relative references", "statement": "Against a base with a list path, a reference that starts with two slashes (or backslashes for special schemes) means the same as the base's scheme, '://' and the rest of the reference, whatever base that is parsed against.", "quantifier": "every base record with a list path, every text after the two slashes, every second base", "why_tests_cant": "Different states handle the two sides (RELATIVE_SLASH/FILE_SLASH versus SCHEME/AUTHORITY).", "anchors": ["src/urlstd/parse.py:BasicURLParser._parse_relative", "src/urlstd/parse.py:BasicURLParser._parse_relative_slash", "src/urlstd/parse.py:BasicURLParser._parse_file_slash"]}
{"id": "C92", "title": "Absolute-path references", "statement": "Against a base with a list path and a scheme other than file, a reference that starts with exactly one slash means the same as the base's text up to its authority, '/' and the rest of the reference.", "quantifier": "every parsed non-file base record with a list path, every text after the slash", "why_tests_cant": "Needs that the serialized authority is read back as exactly the base's authority whatever follows.", "anchors": ["src/urlstd/parse.py:BasicURLParser._parse_relative_slash", "src/urlstd/parse.py:URLRecord.serialize_url"]}
{"id": "C93", "title": "Relative-path references", "statement": "Against a base with a list path and a scheme other than file, a reference without scheme that does not start with a slash, '?' or '#' means the same as the base's text up to its authority, '/./', the base's path without its last segment, and the reference.", "quantifier": "every parsed non-file base record with a list path, every such reference", "why_tests_cant": "Unbounded paths with dot segments in the reference; the base's segments must be read back unchanged.", "anchors": ["src/urlstd/parse.py:BasicURLParser._parse_relative", "src/urlstd/parse.py:BasicURLParser._parse_path", "src/urlstd/parse.py:URLRecord.shorten_path"]}
{"id": "C94", "title": "A URL can be written relative to any URL of the same site", "statement": "For non-file URLs u and b with list paths and equal scheme, credentials, host and port, where u's path is not empty, the part of u's text after its authority is a reference that gives u against b when it does not start with '//', and always does with '/.' in front.", "quantifier": "every pair of parsed records of one site", "why_tests_cant": "All pairs of URLs.", "anchors": ["src/urlstd/parse.py:URLRecord.serialize_url", "src/urlstd/parse.py:BasicURLParser._parse_relative_slash"]}
{"id": "C95", "title": "The parser reports the validation errors the URL Standard names, in order", "statement": "For every input and base, the sequence of validation errors that BasicURLParser.parse reports (through the ValidityState or the logger) is the sequence that the URL Standard's basic URL parser reports on the same input, the host parser's own reports being given.", "quantifier": "every string, every record as base", "why_tests_cant": "All inputs; reports on inputs that parse without failure are not visible in the result, so conformance suites do not see them.", "anchors": ["src/urlstd/parse.py:BasicURLParser.parse", "src/urlstd/parse.py:BasicURLParser._parse_file_host", "src/urlstd/parse.py:ValidityState"]}
{"id": "C96", "title": "The host parser reports the validation errors the URL Standard names", "statement": "For every host string, special or not, the named validation errors that Host.parse reports (domain-to-ASCII, forbidden code points, IPv4 and IPv6 errors, invalid URL units of opaque hosts) are those that the URL Standard's host parser reports, in the same order.", "quantifier": "every scalar value string, special or opaque", "why_tests_cant": "All strings; what is reported for accepted hosts does not show in the result.", "anchors": ["src/urlstd/parse.py:Host.parse", "src/urlstd/parse.py:IPv4Address.parse", "src/urlstd/parse.py:IPv6Address.parse", "src/urlstd/parse.py:Host._parse_opaque_host"]}
{"id": "C97", "title": "URLValidator.is_valid is the URL Standard's notion of validity", "statement": "URLValidator.is_valid returns True for a string and base if and only if the URL Standard's parser, with its host parser, reports no validation error on them, succeeds, and the scheme of the result is a registered one.", "quantifier": "every string and every base", "why_tests_cant": "An equivalence over all strings and bases.", "anchors": ["src/urlstd/parse.py:URLValidator.is_valid", "src/urlstd/parse.py:ValidityState"]}
{"id": "C98", "title": "Valid URL strings are accepted without a report", "statement": "Every string that section 4.3 of the URL Standard (URL writing) calls a valid URL string, absolute or relative to the given base, with or without a fragment, is accepted by BasicURLParser.parse, and no validation error is reported on the way.", "quantifier": "every string of the grammar, every base record", "why_tests_cant": "The grammar has infinitely many strings and the claim includes the absence of reports, which results do not show.", "anchors": ["src/urlstd/parse.py:BasicURLParser.parse", "src/urlstd/parse.py:Host.parse"]}
{"id": "C99", "title": "Only valid URL strings are accepted without a report", "statement": "A string that BasicURLParser.parse accepts without reporting a validation error is a valid URL string in the sense of section 4.3 of the URL Standard.", "quantifier": "every scalar value string, every base record", "why_tests_cant": "A claim about all strings outside a grammar.", "anchors": ["src/urlstd/parse.py:BasicURLParser.parse", "src/urlstd/parse.py:is_url_units"]}
{"id": "C100", "title": "Relative references are resolved as in RFC 3986", "statement": "For a base whose path is a list and whose scheme is not 'file', parsing a reference without scheme and authority (path, optional query, optional fragment) gives the base with the path and query that section 5.2 of RFC 3986 (transform references, merge paths, remove dot segments) computes from the percent-encoded reference, a whole segment '%2e' being read as '.', and with the fragment of the reference.", "quantifier": "every base record, every reference path, query and fragment", "why_tests_cant": "The RFC's algorithm works on text buffers and the code on segment lists; agreement is over all paths.", "anchors": ["src/urlstd/parse.py:BasicURLParser._parse_path", "src/urlstd/parse.py:BasicURLParser._parse_relative"]}
{"id": "C101", "title": "Authority and rest of a URL do not influence each other", "statement": "For a scheme other than 'file', the result of parsing scheme://authority rest consists of scheme, credentials, host and port of parsing scheme://authority alone, and of path, query and fragment of parsing any scheme://other rest; it fails exactly when scheme://authority does.", "quantifier": "every authority, every rest, every base and encoding", "why_tests_cant": "Compares three parses over all combinations of texts.", "anchors": ["src/urlstd/parse.py:BasicURLParser._parse_authority", "src/urlstd/parse.py:BasicURLParser._parse_host", "src/urlstd/parse.py:BasicURLParser._parse_path_start"]}
{"id": "C102", "title": "Meaning of credentials and port in an authority", "statement": "Writing 'userinfo@' before an authority without '@' changes nothing in the result except user name and password, which are the percent-encoded texts before and after the first ':' of the userinfo; writing ':port' after a host changes nothing except the port, which is the decimal value of the digits, absent if it is the default port, and makes the parser fail exactly if the text is not a number up to 65535 (or too long for int()).", "quantifier": "every userinfo, host, port text and rest", "why_tests_cant": "Holds for userinfos that contain any number of '@' and ':' and for all port texts.", "anchors": ["src/urlstd/parse.py:BasicURLParser._parse_authority", "src/urlstd/parse.py:BasicURLParser._parse_port"]}
{"id": "C103", "title": "Percent-encoding in the host of a special URL has no meaning", "statement": "Two host texts of a special URL with the same percent-decoded text give the same result of the parser (same URL or same exception).", "quantifier": "every pair of host texts without '@', ':' and brackets, every rest", "why_tests_cant": "Quantifies over all ways to escape a host.", "anchors": ["src/urlstd/parse.py:Host.parse", "src/urlstd/parse.py:BasicURLParser._parse_host"]}
{"id": "C104", "title": "repr() shows the whole value", "statement": "repr() of a URLRecord is a call URLRecord(scheme=..., ...) with Python literals whose values are the record's attributes, so two records with the same repr are equal; repr() of a URLSearchParams is URLSearchParams(literal) where the literal is the list of pairs and evaluating the call gives an equal object; repr() of a URL is '<URL(...)>' with the eleven attributes as string literals.", "quantifier": "every record, query list and URL object, every set of printable characters", "why_tests_cant": "Quotes, backslashes, control characters, lone surrogates and None against 'None' combine in unboundedly many ways.", "anchors": ["src/urlstd/parse.py:URLRecord.__repr__", "src/urlstd/parse.py:URLSearchParams.__repr__", "src/urlstd/parse.py:URL.__repr__"]}
{"id": "C105", "title": "repr() does not raise", "statement": "repr() of a record that the parser returned, and of a URL object whose origin can be computed, returns a text.", "quantifier": "every record and URL object", "why_tests_cant": "The only failures need an integer with more digits than the int/str digit limit.", "anchors": ["src/urlstd/parse.py:URLRecord.__repr__", "src/urlstd/parse.py:URL.__repr__"]}
{"id": "C106", "title": "IDNA error texts list exactly the recorded errors", "statement": "The text that IDNA._errors_to_string makes from an error set consists of the names of the set flags, lowest bit first, and of the remaining bits in hexadecimal, separated by '|'; the error set can be recovered from it.", "quantifier": "every error set, including bits without a name", "why_tests_cant": "2^15 combinations of named flags and unboundedly many others.", "anchors": ["src/urlstd/parse.py:IDNA._errors_to_string"]}
{"id": "C107", "title": "The cache of IDNA instances never changes a result", "statement": "In any sequence of IDNA.domain_to_ascii and domain_to_unicode calls, strict or not, every call returns what it would return with a new ICU instance for its own options on the whole text in UTF-16; each instance is made at most once and the cache never holds more than four.", "quantifier": "every sequence of calls, every ICU", "why_tests_cant": "The cache is process-wide state; a wrong key shows only after particular histories.", "anchors": ["src/urlstd/parse.py:IDNA._create_instance", "src/urlstd/parse.py:IDNA.domain_to_ascii", "src/urlstd/parse.py:IDNA.domain_to_unicode", "src/urlstd/parse.py:u16len"]}
{"id": "C108", "title": "The int/str digit limit concerns long inputs only", "statement": "When the input, and a base given as text, have no more characters than the interpreter's int/str digit limit and the ASCII domains ICU makes of texts of that length have at most 4/5 as many, parse_url gives the record or the error it gives without the limit, raises only URLParseError, and URL.can_parse agrees with URL().", "quantifier": "every input, base and limit", "why_tests_cant": "Needs a comparison of two interpreters over all short inputs.", "anchors": ["src/urlstd/parse.py:IPv4Address.parse", "src/urlstd/parse.py:IPv6Address.parse", "src/urlstd/parse.py:parse_url", "src/urlstd/parse.py:URL.can_parse"]}
{"id": "C109", "title": "Messages do not influence the result of parsing", "statement": "Parsing with all message texts, positions and lazily or eagerly formatted log calls gives the same record or exception class as parsing without them, and records the same validation errors in the same order under their standard names.", "quantifier": "every input, base, encoding and ICU; with or without a ValidityState", "why_tests_cant": "Positions are computed from parser indices in every state; an index or format error shows only on inputs that reach that message.", "anchors": ["src/urlstd/parse.py:BasicURLParser.parse", "src/urlstd/parse.py:parse_url", "src/urlstd/parse.py:ValidityState.prepend"]}
{"id": "C110", "title": "Validation messages tell the truth", "statement": "Each description recorded while parsing starts with the name of its validation error; every value it quotes is a readable Python literal of a part of the input (or host, or ICU result) to which the sentence applies, and each position is the index of the offending code point in the quoted string.", "quantifier": "every input, base, encoding and ICU", "why_tests_cant": "Some thirty messages, each with several quoted values, over all inputs.", "anchors": ["src/urlstd/parse.py:BasicURLParser.parse", "src/urlstd/parse.py:Host.parse", "src/urlstd/parse.py:IPv4Address.parse", "src/urlstd/parse.py:IPv6Address.parse", "src/urlstd/parse.py:IDNA.domain_to_ascii"]}
{"id": "C111", "title": "The text of an exception is the last validation message", "statement": "When parse_url raises a URLParseError, its text is the description of the last recorded validation error without the name.", "quantifier": "every input, base, encoding and ICU", "why_tests_cant": "The texts are written twice in the code, once as a log format and once as an f-string.", "anchors": ["src/urlstd/parse.py:BasicURLParser.parse", "src/urlstd/parse.py:Host.parse", "src/urlstd/parse.py:parse_url"]}
{"id": "C112", "title": "Every recorded validation error has a description", "statement": "After parse_url with a ValidityState, error_types and descriptions have the same length.", "quantifier": "every input, base, encoding and ICU", "why_tests_cant": "Needs numbers beyond the int/str digit limit.", "anchors": ["src/urlstd/parse.py:ValidityState.prepend", "src/urlstd/parse.py:IPv4Address.parse"]}
{"id": "C113", "title": "Positions in messages are indices into the caller's string", "statement": "The number after 'at position' is the index of the offending code point in the urlstring argument.", "quantifier": "every input", "why_tests_cant": "Depends on stripping and tabs together with every message.", "anchors": ["src/urlstd/parse.py:BasicURLParser.parse"]}
{"id": "C114", "title": "'credentials are empty' is said only of empty credentials", "statement": "The message 'credentials are empty' is recorded only for URLs without user name and password.", "quantifier": "every input", "why_tests_cant": "Needs the converse over all inputs.", "anchors": ["src/urlstd/parse.py:BasicURLParser.parse"]}
{"id": "C115", "title": "Validation messages do not influence validators", "statement": "The verdict, error types, number of descriptions and error count of HostValidator and URLValidator are the same in the model with texts as in the one without.", "quantifier": "every host or URL, every ValidityState passed in", "why_tests_cant": "Two independent models of the same code have to agree on every input.", "anchors": ["src/urlstd/parse.py:HostValidator", "src/urlstd/parse.py:URLValidator", "src/urlstd/parse.py:ValidityState"]}
{"id": "C116", "title": "HostValidator leaves a ValidityState that is in order and true", "statement": "After each method of HostValidator, error_types and descriptions correspond one to one, every description is a sentence that is true of the host, validation_errors is their number, valid is true iff there are none, and the method answers True iff there are none. The same for is_valid_url_scheme on ASCII strings.", "quantifier": "every host, every ValidityState passed in", "why_tests_cant": "Tests look at a few descriptions; truth of each description over all hosts needs a specification of the sentences.", "anchors": ["src/urlstd/parse.py:HostValidator", "src/urlstd/parse.py:URLValidator.is_valid_url_scheme", "src/urlstd/parse.py:ValidityState.prepend"]}
{"id": "C117", "title": "URLValidator.is_valid leaves a ValidityState that is in order and true", "statement": "After URLValidator.is_valid, error_types and descriptions correspond one to one, every description is a sentence that is true of the input or the base, validation_errors is their number, valid is true iff there are none, and the answer is True iff there are none.", "quantifier": "every input and base", "why_tests_cant": "The descriptions are formatted in about forty places of the parser.", "anchors": ["src/urlstd/parse.py:URLValidator.is_valid", "src/urlstd/parse.py:ValidityState"]}
{"id": "C118", "title": "'ends with a U+002E (.)' is said only of addresses that end with one", "statement": "HostValidator.is_valid_ipv4_address records IPv4-empty-part, with the description 'IPv4 address ends with a U+002E (.)', only for strings that end with a U+002E.", "quantifier": "every string", "why_tests_cant": "The exception is a single input.", "anchors": ["src/urlstd/parse.py:HostValidator.is_valid_ipv4_address"]}
{"id": "C119", "title": "Message texts do not influence setters and the constructor", "statement": "Formatting the texts of log messages and exceptions changes neither the object that an attribute assignment leaves behind, nor which exception is raised, nor the object that URL() makes.", "quantifier": "every attribute, value, object, and every input and base of URL()", "why_tests_cant": "Formatting happens at about fifty places and can itself raise.", "anchors": ["src/urlstd/parse.py:URL", "src/urlstd/parse.py:BasicURLParser.parse"]}
{"id": "C120", "title": "What attribute assignments log", "statement": "An assignment to an attribute of a URL object logs only validation errors that this part of a URL can have (for example, assigning to port only invalid-URL-unit and port-out-of-range, assigning to username none), and each message is a sentence that is true of the assigned value.", "quantifier": "every attribute, value and URL object", "why_tests_cant": "Needs all combinations of parser states that a state override can reach.", "anchors": ["src/urlstd/parse.py:URL", "src/urlstd/parse.py:BasicURLParser.parse"]}
{"id": "C121", "title": "The exception of an attribute assignment says what was logged last", "statement": "When an attribute assignment raises URLParseError (or a subclass), its text is that of the last logged validation error without the error's name.", "quantifier": "every attribute, value and URL object", "why_tests_cant": "Exceptions are raised separately from logging, with their own format strings.", "anchors": ["src/urlstd/parse.py:URL", "src/urlstd/parse.py:BasicURLParser.parse"]}
{"id": "C122", "title": "URL.can_parse leaves a ValidityState that is in order and true", "statement": "After URL.can_parse, error_types and descriptions of the ValidityState correspond one to one, every description is a sentence that is true of the input or the base, validation_errors is their number, valid is true iff there are none, and False is answered only if there is one.", "quantifier": "every input, base and previous ValidityState", "why_tests_cant": "The descriptions are formatted in about forty places of the parser.", "anchors": ["src/urlstd/parse.py:URL.can_parse", "src/urlstd/parse.py:ValidityState"]}
{"id": "C123", "title": "What stops a call is logged as ERROR, everything else as INFO", "statement": "A call of parse_url, URL(), Host.parse, IDNA.domain_to_unicode or a setter of URL that returns has logged at INFO only; one that raises URLParseError or a subclass has logged exactly one ERROR, as its last message, except that the protocol setter raises without one.", "quantifier": "all strings, bases, encodings, environments and URL objects", "why_tests_cant": "The level is chosen at more than fifty places; a test looks at the texts of a few of them.", "anchors": ["src/urlstd/parse.py:551-579", "src/urlstd/parse.py:589-680", "src/urlstd/parse.py:1063-1500", "src/urlstd/parse.py:3086-4050"]}
{"id": "C124", "title": "The parser returns exactly the canonical records", "statement": "A URL record is made by some call of the parser (with a host other than an IPv4 value of 2^32 or more) exactly if it is canonical: lower-case ASCII scheme, every component over its percent-encoded alphabet, a host that host parsing returns unchanged, no credentials or port without a host or for file, a port that is not the default, and a path without dot segments or an unnormalised drive letter. The strings that URL(s).href returns unchanged are exactly the serializations of canonical records, and different canonical records have different serializations.", "quantifier": "all records, strings, environments and encodings", "why_tests_cant": "The set of reachable records is infinite, and that nothing outside it is reachable cannot be seen by running the parser.", "anchors": ["src/urlstd/parse.py:3086-4050", "src/urlstd/parse.py:2480-2560"]}
{"id": "C125", "title": "The serialization is at most linear in the input", "statement": "If parsing s succeeds, the serialization has at most 12 characters per code point of s (UTF-8; 16 with another ASCII-compatible encoding of up to 5 bytes per character), plus the length of the base, of the host and 16 characters.", "quantifier": "all strings, bases, encodings and environments", "why_tests_cant": "A bound on all inputs: a test measures some lengths.", "anchors": ["src/urlstd/parse.py:317-364", "src/urlstd/parse.py:3086-4050", "src/urlstd/parse.py:1837-1862"]}
{"id": "C126", "title": "Exactly when ValueError escapes", "statement": "Parsing raises a plain ValueError exactly when the parser reads a port with more digits than CPython's int/str limit, or parses a host with an over-long part in a dotted IPv4 piece of an IPv6 address, or an IPv4 address with a number too large to be written out that the code writes out (in an error message, or in the record of a part above 255 when a ValidityState is used, as URL.can_parse does). The same holds for the setters of URL objects.", "quantifier": "all scalar value strings, bases, opaque or special hosts, environments and limits of at least 640", "why_tests_cant": "The inputs are longer than 640 characters and the condition depends on the whole parse; a test sees single inputs.", "anchors": ["src/urlstd/parse.py:1213-1298", "src/urlstd/parse.py:1385-1483", "src/urlstd/parse.py:2435-2467", "src/urlstd/parse.py:3630-3700"]}
{"id": "C127", "title": "HostValidator decides section 3.4 (host writing)", "statement": "HostValidator.is_valid(h), is_valid_domain(d) and is_valid_opaque_host(h) return True exactly for valid host strings, valid domains and valid opaque-host strings of section 3.4 of the URL Standard (False as stated; the exact sets are: bracketed code-accepted IPv6 texts, four int() literals 0-255, and domains for which strict ToASCII gives a non-empty text with no errors but hyphen ones and strict ToUnicode of the domain gives no errors but hyphen and length ones). is_valid never raises, except ValueError exactly for IPv6 texts with an over-long decimal part; is_valid_domain never raises.", "quantifier": "all hosts, ValidityStates (given or not), ICU behaviours, int limits of at least 640", "why_tests_cant": "The sets are infinite and depend on what ICU answers; tests check single hosts with one ICU.", "anchors": ["src/urlstd/parse.py:747-802", "src/urlstd/parse.py:905-955", "src/urlstd/parse.py:1018-1165"]}
{"id": "C128", "title": "The debug records trace the standard's state machine", "statement": "Every call of BasicURLParser.parse writes debug records whose states form a path in the standard's state machine from the start state (or the setter's override): at most 12 records (3 for a setter), indices that never go back and stay inside the input, EOF as last state exactly when the call returns, with the result in the last record. Every edge of the graph occurs. The text is the sentence of the source with these values.", "quantifier": "all inputs, bases, encodings, overrides used by setters, environments, also calls that raise", "why_tests_cant": "Tests look at results; the path of states and the bound on it hold for all inputs only.", "anchors": ["src/urlstd/parse.py:555-579", "src/urlstd/parse.py:2839-2863", "src/urlstd/parse.py:4198-4322"]}
{"id": "C129", "title": "URLSearchParams of any object", "statement": "URLSearchParams(init) is, for every Python object init: empty for None; for a list or tuple the texts of its two-membered members (any sized collection, also a two-character string or the keys of a dict), TypeError or ValueError with its message for the first member without a length or with another one; for a dict one pair per name in order of first occurrence with the last value; live on a URLRecord; a copy of a URLSearchParams; the parsed text of a str without one leading '?'; TypeError for anything else.", "quantifier": "all arguments of any type, all environments, with and without int/str digit limit", "why_tests_cant": "The cases depend on types of nested members and on which member comes first; tests have two bad arguments.", "anchors": ["src/urlstd/parse.py:1937-1983"]}
{"id": "C130", "title": "Operators of URLSearchParams", "statement": "params + text is the query text followed by text, so that '&' and further pairs in text are parsed to the list followed by these pairs, and is not implemented for other operands; x in params is has(x) for a str and TypeError otherwise; params == x holds exactly for a URLSearchParams with the same list, that is with the same text; params[key] is the pair with key pairs before it or -key-1 after it, and IndexError exactly outside -len..len-1; params[start:stop:step] is the list of the pairs at the positions between start and stop on the grid of step, and ValueError exactly for step 0.", "quantifier": "all lists, operands of any type, all integers", "why_tests_cant": "Tests use one or two lists and small indices.", "anchors": ["src/urlstd/parse.py:1985-2048"]}
{"id": "C131", "title": "Exactly which URL objects a program can hold", "statement": "A URL object (record and attached parameter list) is the result of some history of constructions, setter calls and search-parameter mutations exactly if its record meets the listed component-wise conditions and its list is the parsed query: the conditions are those of canonical records (C124) except that port 0 may meet an empty host or the scheme \"file\", a \"file\" URL may have the host \"localhost\", and its path may start with a drive letter written with \"|\". Parsing an object's own href gives the same object exactly if none of these exceptions occurs.", "quantifier": "all objects, all histories of constructions and calls, all environments with an ASCII-stable IDNA operation and a digit limit of at least 640 or none; IPv4 values below 2^32", "why_tests_cant": "Both directions quantify over unbounded histories: that nothing else is ever reached, and that every record of the set is reached by some history", "anchors": ["src/urlstd/parse.py:2323-2836"]}
{"id": "C132", "title": "The encoding argument with any codec", "statement": "With any codec the parser returns the record that UTF-8 gives, except for the query of a special URL other than ws and wss with a query that is not empty: this query is the percent-encoded bytes that the codec makes of the query's scalar values; if the codec cannot encode them, the percent-encoded chunks of its incremental encoder, character references percent-encoded entirely; if the codec raises another exception, this exception escapes. In particular an encoding unknown to Python raises LookupError exactly in that case, and URLs that fail with UTF-8 fail with the same exception. The encoding does not change which validation errors are reported; an exception of the codec cuts the reports off.", "quantifier": "all strings, bases, encoding names and codecs (stateful or not) that produce bytes", "why_tests_cant": "Tests use a few encodings and few queries; codecs with a state, a byte order mark or errors are not tried in combination with each scheme and query.", "anchors": ["src/urlstd/parse.py:317-364", "src/urlstd/parse.py:3713-3783", "src/urlstd/parse.py:4193-4195"]}
{"id": "C133", "title": "The text of an origin", "statement": "URL.origin is 'null' exactly if the record's origin is None. Otherwise the text t is itself a URL with this origin: URL(t).href == t + '/', and URL(t) has the same origin object and text. Two URL objects with origins have equal origin texts exactly if the origins are same origin. The href of an ftp, http, https, ws or wss URL without credentials is its origin, a slash and more.", "quantifier": "all URL objects of all histories, all environments with an ASCII-stable IDNA operation and a digit limit of at least 640 or none; IPv4 values below 2^32", "why_tests_cant": "Security checks compare origin texts and test href prefixes; tests try a few origins.", "anchors": ["src/urlstd/parse.py:1552-1626", "src/urlstd/parse.py:1777-1806", "src/urlstd/parse.py:2605-2624"]}
{"id": "C134", "title": "References against file URLs", "statement": "Against a file base, a reference that starts with exactly one slash means the same as 'file://', the base's host, '/', the base's drive letter and '/' if its path starts with one and the reference does not, and the rest of the reference. A reference without scheme that does not start with a slash, '?' or '#' means the same as 'file://', the base's host, '/', the directory of the base's path unless the reference starts with a Windows drive letter, and the reference; the directory of a path that is only a drive letter is this drive letter.", "quantifier": "every parsed file base record, every such reference, every other base of the second parse", "why_tests_cant": "Drive letters interact with hosts, dot segments and directories for unbounded paths; tests try a few combinations.", "anchors": ["src/urlstd/parse.py:BasicURLParser._parse_file", "src/urlstd/parse.py:BasicURLParser._parse_file_slash", "src/urlstd/parse.py:BasicURLParser._parse_file_host", "src/urlstd/parse.py:URLRecord.shorten_path"]}
{"id": "C135", "title": "urlencode with any encoding", "statement": "With any encoding, urlencode returns the fields joined with '&', each the text of the name, '=' and the text of the value. A text is the bytes of the codec, or of its character references if the codec cannot encode the string; letters, digits, '*', '-', '.', '_' and '~' stand for themselves, '+' for a space if the string has one, everything else is %XY. An empty string never asks the codec. The exception of the first name or value that the codec refuses escapes. parse_qsl reads as many pairs in the same order, whose parts are the codec's bytes decoded as UTF-8.", "quantifier": "every codec that makes bytes, every list of pairs of strings", "why_tests_cant": "Codecs are arbitrary functions and lists are unbounded; the tests try three legacy encodings on single pairs.", "anchors": ["src/urlstd/parse.py:urlencode", "src/urlstd/parse.py:string_percent_encode"]}
{"id": "C136", "title": "State overrides", "statement": "BasicURLParser.parse called with a state override writes only the components of that state (e.g. only the host for HOSTNAME, only host and port for HOST, nothing for SCHEME), also when it raises and whatever the record holds. It raises a Python error other than URLParseError exactly for misuse: text for a query or fragment that is None (TypeError), segments for an opaque path (AssertionError or AttributeError), a relative state without a base or with a file base (AssertionError), the scheme state (NotImplementedError); apart from ValueError for a port above the int/str limit.", "quantifier": "every record, override, input, base and encoding", "why_tests_cant": "Tests call setters, which use seven of the 22 states on records made by the parser.", "anchors": ["src/urlstd/parse.py:BasicURLParser.parse"]}
{"id": "C137", "title": "The authority override", "statement": "The docstring of BasicURLParser.parse: with AUTHORITY_STATE the username, password and host of a URL are replaced with a string. The text before the last '@' of the authority gives the credentials, the text after it is read as with HOST_STATE.", "quantifier": "every record, input, base and encoding", "why_tests_cant": "The docstring has one example, on a record without credentials.", "anchors": ["src/urlstd/parse.py:BasicURLParser.parse", "src/urlstd/parse.py:BasicURLParser._parse_authority"]}
{"id": "C138", "title": "The url argument", "statement": "The docstring of BasicURLParser.parse: the record given as url is replaced with the parsing result, i.e. it ends up as the record that the call without url returns.", "quantifier": "every record, input, base and encoding", "why_tests_cant": "No test passes url without state_override.", "anchors": ["src/urlstd/parse.py:BasicURLParser.parse"]}
{"id": "C139", "title": "One object as url and base", "statement": "BasicURLParser.parse(s, base=u, url=u) does to u what the call with a copy of u as the base does; for a reference without scheme and leading slash this is resolution in place: u becomes the record that parse(s, base=u) returns, with its old fragment if that has none.", "quantifier": "every record, every state of a program, every input and encoding", "why_tests_cant": "No test passes the same object twice; the outcome depends on the order of writes and reads inside the state functions.", "anchors": ["src/urlstd/parse.py:BasicURLParser.parse", "src/urlstd/parse.py:BasicURLParser._parse_scheme", "src/urlstd/parse.py:BasicURLParser._parse_file", "src/urlstd/parse.py:BasicURLParser._parse_relative"]}
{"id": "C140", "title": "Texts of Origin and ValidityState objects", "statement": "repr() of an Origin and of a ValidityState is a call with literals as arguments that gives the attributes back, so different objects have different texts; it fails only with ValueError for a number above the digit limit. Origins are == iff all attributes agree, which for origins of URLs is the same origin relation of the HTML standard.", "quantifier": "every origin, every state of a ValidityState, every digit limit", "why_tests_cant": "Tests compare a few origins and never their texts; distinct texts for all pairs of objects cannot be tested.", "anchors": ["src/urlstd/parse.py:Origin", "src/urlstd/parse.py:Origin.is_same_origin_domain", "src/urlstd/parse.py:ValidityState"]}
{"id": "C141", "title": "is_valid_url_scheme accepts exactly the registered URL-scheme strings", "statement": "URLValidator.is_valid_url_scheme(s) is True if and only if s is a URL-scheme string of the URL Standard whose ASCII lower case is in the IANA registry; the table REGISTERED_SCHEMES has only such strings, in lower case and without duplicates, and every one that is not special makes a valid URL.", "quantifier": "every string, previous ValidityState and Unicode case mapping; every scheme of the table", "why_tests_cant": "Needs a character outside ASCII whose lower case is an ASCII letter.", "anchors": ["src/urlstd/parse.py:URLValidator.is_valid_url_scheme", "src/urlstd/parse.py:REGISTERED_SCHEMES"]}
{"id": "C142", "title": "The registered schemes are the column of the shipped table", "statement": "Loading the module sets REGISTERED_SCHEMES to the values of the column 'URI Scheme' of the shipped table in order, without the entry 'shttp (OBSOLETE)', in every locale; for any table in the format of RFC 4180 the values of the column come back as they were written, and a table without the column raises KeyError.", "quantifier": "every RFC 4180 table (any quoting, line ends, column order), every 8-bit encoding that extends ASCII, UTF-8", "why_tests_cant": "The table and the locale of one machine are a single case; other tables, quotings and encodings are unbounded.", "anchors": ["src/urlstd/parse.py:146-153", "src/urlstd/data/uri-schemes-1.csv.gz"]}
{"id": "C143", "title": "Query and fragment of the base are only copied", "statement": "The fragment of the base has no influence on the result of parse_url or on the validation errors. The query of the base has no influence on errors and exceptions, and on the record only as its query: parsing with another query in the base gives the same record, or the record with that query in place of the base's.", "quantifier": "every base record, every query and fragment, every input and encoding", "why_tests_cant": "Needs pairs of runs over all inputs and bases; a test compares single pairs.", "anchors": ["src/urlstd/parse.py:3403-3442", "src/urlstd/parse.py:3786-3830", "src/urlstd/parse.py:3134-3189"]}
