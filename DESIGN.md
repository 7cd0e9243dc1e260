# Formal model of miute/urlstd in Rocq (Coq 8.16.1)

Code under study: `/repo/src/urlstd/parse.py` (4364 lines) and `/repo/src/urlstd/error.py`, read as
text. Nothing of the project was built or run; every statement about the Python code below is a
statement about the model of it in `rocq/theories`.

## 1. Shape of the model

* Python `str` is `list N` (code points 0..0x10FFFF, surrogates allowed), `bytes` is `list N` (values
  below 256). Strings of the theorems are arbitrary such lists unless a hypothesis says otherwise.
* Exceptions are values: `res A := Ok a | Err e`, where `e` distinguishes the `URLParseError`
  family from every other Python exception (`ValueError`, `IndexError`, `AssertionError`, ...).
* Code that only logs is in the writer monad `W A := log * res A`. The basic URL parser mutates a
  `URLRecord` and logs; its state functions are in `M A := urlrec -> log * (urlrec * res A)`, so that
  the partially mutated record after an exception is visible (setters depend on this). A log entry
  is the type of a validation error, which is what `ValidityState` keeps.
* The state functions read the input through slices from the current index on, so the model passes the
  rest of the input instead of the index. The `while state != EOF` loop is recursion on fuel that
  returns a distinguished error when exhausted; C26 proves that it never is (12 calls suffice).
* Aliasing is invisible in that model, so `HeapParser.v` has a second version of the parser in which
  records are objects and list paths are shared mutable cells. HeapProofs.v proves that both
  versions compute the same; C42 and C76 are about the heap version. `World.v` puts URL,
  URLSearchParams and iterator objects on top of it; C86 says that the URL objects of a program behave as
  the separate values of UrlApi.v.
* Everything outside this repository is a field of a record `env`, passed explicitly: ICU's
  `name_to_ascii`/`name_to_unicode`, legacy codecs by name, the Unicode tables used by `int()` and
  `str.lower()`, CPython's int/str digit limit, and whether the caller passes a `ValidityState`
  (messages are then formatted eagerly, which can raise).

## 2. Files (rocq/theories/)

| file | contents | parse.py |
|---|---|---|
| PyStr, PyInt | Python string and integer primitives, character-set constants | 155-228 |
| Codec | UTF-16 sanitising, UTF-8, percent coding, urlencode, parse_qsl | 231-421, 497-552 |
| Env | environment record, exceptions, validation errors, monads | error.py, 555-579 |
| HostModel | Host, IDNA, IPv4Address, IPv6Address | 582-706, 958-1549 |
| UrlRecord | URLRecord and its serialization | 1628-1877 |
| Parser | BasicURLParser, parse_url, Origin | 1552-1625, 3061-4361 |
| SearchParams | URLSearchParams on its list of pairs | 1880-2320 |
| UrlApi | URL, the attached URLSearchParams, urlparse | 2323-2863, 424-494 |
| Args | URLSearchParams with arguments of any type: constructor, `+`, `in`, `==`, index | 1937-2048 |
| Slices | `params[start:stop:step]` (CPython's PySlice_AdjustIndices) | 2036-2048 |
| AnyCodec | `string_percent_encode` and the parser with any codec | 317-364, 3713-3783, 4058-4361 |
| BasicParse | `BasicURLParser.parse` with all its arguments | 4058-4322 |
| AnyForm | `urlencode` with any codec | 371-421 |
| Repr | `__repr__` of URLRecord, URLSearchParams and URL; repr() of None, int, str, list, tuple | 1674-1687, 2069-2071, 2405-2421 |
| ReprTuple | repr() and == of Origin, repr() of ValidityState (generated by NamedTuple and dataclass) | 1552-1565, 2978-3020 |
| Idna | IDNA with its cache, UTF-16 lengths and error names | 958-1165, 367-368 |
| Message, MsgHost, MsgParser | the parser once more, with the texts of log messages and exceptions and the positions in them | 63, 555-579, 582-1549, 3061-4361 |
| Trace | the debug records of the parser, and their text | 555-579, 2839-2863, 4198-4361 |
| Schemes | REGISTERED_SCHEMES, generated by tools/ | 146-153 |
| SchemeFile | the bytes of the shipped table, generated by tools/ | 146-153 |
| Csv | reading the table at import: text layer, `csv.DictReader`, `list.remove` | 146-153 |
| Validators | ValidityState, HostValidator, URLValidator | 709-955, 2866-3058 |
| MsgValidators | the validators once more, with the texts they record | 709-955, 2866-3058 |
| MsgApi | setters, constructor and can_parse of URL with the texts they log and raise | 2323-2836 |
| HeapParser | the parser once more, on a heap | 3061-4361 |
| World | programs that hold any number of URL, URLSearchParams, record and iterator objects | 1880-2863, 4325-4361 |
| FlatParser | the parser in direct style; a proof device, equated with Parser.v in FlatProofs.v | |

Specifications, written from the standards and not from the code:

| file | contents |
|---|---|
| SpecText | UTF-8 decoder of the Encoding Standard as a byte machine, percent-encode sets, urlencoded parser/serializer |
| SpecHost | IPv4, IPv6 and number parsers, serializers, forbidden code points, URL units |
| SpecPyInt | grammar of the texts Python's `int()` reads; the IPv4 parser with that grammar plugged in |
| SpecIPv6 | grammars of the IPv6 texts that the standard and the code accept, with the addresses they denote |
| SpecUrl | special schemes, default ports, dot segments, the record invariant |
| SpecParser | the basic URL parser, one code point at a time, with pointer, buffer and flags; host parser |
| SpecSetters | the same machine with state override, and the setters of the URL class |
| SpecWhole | the hosts that the standard's setters hand to the host parser, the port texts they read, and where port 0 matters to them |
| SpecWriting | section 4.3 of the standard: the grammar of valid URL strings |
| SpecNamedScheme | the scheme that a URL string names, given a base |
| SpecRfc | RFC 3986, section 5.2: transform references, merge paths, remove dot segments |
| SpecAuthority | the parts of an authority and the meaning of a port text |
| SpecIdna | the flags that a text of error names stands for; ICU without a cache |
| SpecMessages | for every validation error its sentence, the values quoted in it and when they are right |
| SpecValidity | the same for the validators; what a ValidityState in order is |
| SpecSetText | what assignments to attributes log, and the texts of their exceptions |
| SpecLimit | the interpreter without int/str digit limit; inputs too short for the limit to matter |
| SpecRaise | the hosts on which the limit makes the code raise ValueError |
| SpecHostWriting | valid hosts of section 3.4 of the standard, and the hosts that HostValidator accepts |
| SpecRepr | a reader of Python literals and of calls with keyword arguments |
| SpecCsv | tables in the format of RFC 4180; 8-bit encodings that extend ASCII |
| SpecReprTuple | what the texts of Origin and ValidityState objects stand for |
| SpecRaised | what is left of a ValidityState when a description cannot be formatted |
| SpecArgs | what URLSearchParams makes of an argument of any type |
| SpecSlices | the positions that a slice selects |
| SpecCodec | the text that a codec is asked to encode for a query, and what its answer becomes |
| SpecIPv6Names | IPv6 texts whose last colon would begin a ninth piece |
| SpecOverride | what each state override may write, and what is misuse |
| SpecForm | form-urlencoded text of bytes; what a codec makes of a string |
| SpecPartway | the texts that make the host setter raise after replacing the host; a port without a host (C47, C48 exactly; proofs in PartwayProofs, theorems in PropPartway) |
| SpecParams | list operations of URLSearchParams, UTF-16 code unit order |
| SpecApi | objects a program can hold, components, what a setter owns, origins |
| SpecLaws | which calls on a URL object concern unrelated components |
| SpecPairs | surrogate pairs |
| SpecReference | the text the parser reads, the site and directory of a URL, the exceptions of C89 |
| SpecFileReference | the drive and the directory of the path of a file URL, the text of its host |
| SpecReports | the validation errors that each step of the standard's parser reports |
| SpecHostReports | the validation errors of the standard's host parser, and of its URL parser with a base |
| SpecLevels | which log calls are ERROR and which INFO |
| SpecTrace | the edges of the standard's state machine, and runs through it |
| SpecLength | how long a serialization may be |
| SpecCanon | what a canonical record is, component by component |
| SpecObjects | the records of URL objects after any history of calls |
| SpecWorld | programs on separate values; WebIDL's live iterators; who writes the query of a record |

`SpecParser` and `SpecSetters` follow the standard as it was when the code was written (2023): an opaque
path keeps its trailing spaces until a setter strips them, and three places where later versions of
the setters' machine return failure still return without effect. In the same way an authority with
credentials and an empty host reports invalid-credentials, where later versions say host-missing.

`*Proofs`, `*Conf`, `*Standard`, `*Exact`, `*Props`, `RoundTrip`, `*Grammar`, `GetSet`, `SetterLaws`, `RefLaws`, `WholeReports` and `Lemmas` hold
lemmas. `Prop*` hold
the property theorems only: each is closed by `exact`, followed by `Print Assumptions` and by an
`Example` with a concrete case that meets the hypotheses. A theorem `Cnn_..._refuted` is a witness
against the property as stated in properties.jsonl; `Cnn_..._partial` is the strongest version proved.

## 3. Per-property plan

Encoding layer (C01-C12): induction on the string; facts about character sets by a finite sweep over
0..127 lifted by a lemma. C08 is refuted at `~` (urllib's always-safe set).

IPv4/IPv6 (C13-C22, C80, C81): executable models of the loops against the standard's pointer-based parsers.
Round trips by case analysis on the position of the compressed run (C18) and div/mod arithmetic (C13).
`int()` is the source of the IPv4 deviations, so it gets its own grammar (SpecPyInt.v), against which
the model of `PyLong_FromString` is proved exact; C80 then gives the accepted addresses exactly, and
C15/C16/C67 are stated relative to it. For IPv6 there are two grammars (SpecIPv6.v), one for the code and
one for the standard's parser, each proved exact by induction over the colon-separated items (C81); the
difference of the grammars is the set on which the parsers disagree (C21).

Host (C23-C25, C77): composition of the above with the ICU oracle. C15, C21 and C77 are equivalences: the
two parsers agree on exactly the complement of `odd_address`, `odd_v6` and `odd_host`.

Parser (C26-C45, C73, C74): closed form of each state function's loop (LoopProofs), composition to a
direct-style parser (FlatProofs), a transition rank for termination (TermProofs), the record invariant
(WfProofs), and a forward computation on serialized records for the round trip (RoundTrip).

References (C89-C94): how the direct-style parser treats an input with a query or fragment added
(SuffixProofs); what the three kinds of relative reference mean, using the round trip for the base's
authority (RefLaws).

Conformance (C41, C77-C79): the standard's machine is a relation (`std_url_parse`); it is proved
deterministic, and every step sequence of it is matched with the direct-style parser
(StandardProofs). C78 plugs the standard's host parser in, using that the machine asks the host parser
only about pieces of the input (HostStandard). C79 and C85 do the same with state overrides
(SetterStandard, SetterWhole). That the conditions on the host are exact follows because later steps keep the
host, so a different host shows in the record (HostExact, HostExactBase, SetterExact).

Validation errors (C95-C97): the log of each state function in closed form (ReportProofs), and the reports of
the standard's machine computed along its runs (ReportStandard). C96 does the same for hosts
(HostReportProofs; IPv6Names compares the two IPv6 loops piece by piece for the names); C97 exchanges the host parsers in a run, keeping whether anything is reported
(WholeReports).

URL writing (C98, C99): the closed-form logs are empty exactly on the strings of the grammar
(WritingProofs, state by state; WritingStandard, the whole parser; WritingValid and WritingValidBase, is_valid without and with a base). `idna_ok` (C98) and `keeps_forbidden` (C99)
are assumptions about ICU.

RFC 3986 (C100): the RFC's buffer loop is shown to compute the same as the list of segments, for texts, by
induction on the input buffer (RfcProofs); for file bases while no segment is a
drive letter (RfcFileProofs). Authorities (C101-C103): the direct-style parser is split into a
part that reads the authority and one that reads the rest, which commute with replacing the other's fields
(AuthorityProofs; FileAuthority for file URLs).

repr (C104, C105): the reader of literals gives back what repr wrote, by induction on the object; injectivity
follows because the reader is a function (ReprProofs).

IDNA (C106, C107): induction on the table of names and on the history of calls (IdnaProofs).
Messages (C109-C114): simulation between the model with texts and the one without, state by state; each log
call is checked against the sentence that SpecMessages.v has for its validation error (MsgProofs,
MsgHostProofs, MsgParserProofs, MsgCallProofs; CredentialProofs for C114_always). ValidityState (C115-C118): the same, with the entries folded
into the state (MsgValidatorProofs). Without the assumption on numbers (`_exactly`, RaisedProofs): the entry that
raises can only be the last of a call, because ValueError leaves every function on the way. Setters (C119-C122): the same with a state override; which errors a setter
can log follows from sets of parser states that are not left (MsgApiProofs). Levels (C123): each step logs at
INFO or stops with an ERROR (MsgLevelProofs).
Canonical records (C124): they meet the parser's invariant and survive serializing and parsing again (CanonProofs, from RoundTrip).
Objects (C131): the invariant of histories, component by component; for the other direction, a canonical record is parsed
from its serialization, and the others are made from a canonical one by at most two calls, `protocol = "file"` and
`host = ""` (HeldProofs).
Length (C125): a size of records that each function of the direct-style parser raises by at most k for each code point it reads (SizeProofs, LengthProofs).
ValueError (C126): StandardProofs compares the code with the standard's machine extended by a third outcome, raised where a port has too many digits or the host parser raises; RaiseProofs says which hosts do that.
HostValidator (C127): the exact sets from those of the address parsers (C80, C81), the URL units (C68) and ICU's answers; HostWritingProofs.
Debug records (C128): a predicate on what a computation of MsgParser.v returns, state by state, with the index; Trace.v adds the records, TraceProofs.
Int/str limit (C108): congruence of the flat parser in its host and port functions, numbers bounded by 16^length (LimitProofs). The setters are treated in the same way (SetterStandard, SetterRaise).

Surrogates (C43): a congruence through the whole parser (SurrogateProofs).

URL object (C46-C55): the objects reachable by a constructor and any history of calls are an inductive
predicate; LooseProofs has the invariant that all histories keep, SetterProofs the closed form of each
setter, ApiProofs and ObjProofs the rest. From the closed forms follow the algebraic laws: C82 (GetSet),
C83 and C84 (SetterLaws).

Programs (C86-C88): a simulation between the heap of World.v and separate values (WorldProofs), an
invariant for programs that also connect URLSearchParams objects to records (AttachProofs), and induction
over the program for iterators.

Origin, URLSearchParams, validation, urlparse (C56-C72, C75): direct.
URLSearchParams of any object (C129, C130): the outcomes as an inductive relation (SpecArgs); the model's
outcome for each of its rules, and a rule for each argument. Slices: the walk of the code and the selected
positions are sorted lists with the same members.

Any codec (C132): the machine up to the query state does not look at the encoding, and what it does afterwards does not
look at the query; so the result is the UTF-8 result with another query.
Encodings in C95, C97, C98 and C99: the theorems for UTF-8 together with C132 (EncodingProofs, PropEncodings).

Origins (C133): scheme, host and port of an origin make a canonical record with the path "/"; parsing its href without the
final slash gives the same record.

File bases (C134): the site text of a file base is read back as its host whatever follows the slash; pushing the drive or the
well-formed directory segments gives them back; then as C92 and C93.

urlencode with any codec (C135): all texts are one function applied to each byte; checked for the 256 bytes, then by induction.

State overrides (C136-C138): one lemma for each state, from the closed forms of its loop; the authority state is the loop for
userinfo followed by the host state, which looks at the override only for HOSTNAME.

Texts of Origin and ValidityState (C140): as C104, with the reader of literals; the failing case by comparison with a
record that has the same host and port (ReprTupleProofs).

One object as url and base (C139): on the heap, with the value that the base has inside each state function (AliasProofs; AliasOverride for state overrides);
the states after the last read of the base do not depend on it, and their loops commute with the old fragment.

Schemes (C141): the table is checked by computation; a string whose lower case is ASCII is ASCII if no other character
maps into ASCII; validity of `scheme:` from C98 (SchemeProofs).

Reading the table (C142): the reader's states along a field, a record and a table (CsvProofs); the shipped file is shown to
be a table by computation, and tables are closed under replacing characters outside ASCII, which gives all 8-bit
encodings at once (CsvShipped).

Query and fragment of the base (C143): two runs side by side; once the query is copied only the fragment state, or the path
state at the end of the input, can follow (BaseQuery). C97 for other encodings and string bases follows (EncodingBase).

Status of each property: MANIFEST.json (written by tools/gen_manifest.py).

## 4. Trusted base

* Coq 8.16.1's kernel including `vm_compute`, and coqchk.
* No axioms: every property theorem prints "Closed under the global context". The checker lists seven
  axioms of the standard library's `Coq.ssr.ssrunder.Under_rel`; they come in with a library
  file that is loaded and no theorem depends on them.
* The reading of the Python code: that each definition says what the lines named in its comment do.
* The reading of the standards: that the Spec files say what the URL, Encoding, Infra, HTML and Unicode
  standards say. They were written from memory, without network access.
* The behaviour of CPython and urllib primitives as modelled in PyStr, PyInt and Codec.

Hypotheses that theorems make about the environment (a concrete environment satisfying all of them is
in ExampleEnv.v):

* `limit_ok E`: the int/str digit limit is absent or at least 640, which CPython enforces.
* `idna_ok E`: domain-to-ASCII returns ASCII, is stable on its own output and leaves serialized IPv4
  addresses alone. This is a property of ICU and is not proved.
* `enc_ok E enc`: the codec is UTF-8 or encodes ASCII characters as themselves and everything to bytes.
* `scalar_string s`, `short_for limit s`: no surrogates; not longer than the digit limit.

## 5. What is not modelled

* `get_logger` and handlers of the logging package. Parser.v models which validation errors are logged,
  MsgParser.v also the texts of messages and exceptions, the positions in them and the levels; Trace.v
  adds the debug records.
* What the codecs of Python do: a parameter, character by character in Parser.v (`codec`), and any two functions
  (`str.encode`, `codecs.iterencode`) in AnyCodec.v, which covers unknown names, byte order marks and shift states.
* `str.lower()`'s rule for a final sigma; other characters of 128 and above go through `uni_lower`.
* The assertion `len(address) == 8` in `IPv6Address.serialize` (the parser only makes eight pieces).
* gzip decompression of the shipped table; locales with multi-byte encodings other than UTF-8 when it is read (C142).
* `blob_url_entry`, which the code never sets.
* `repr()` of floats: numbers given to URLSearchParams carry their text (`PVNum`, `ANum`).
* Non-`str` objects where `str` is expected, other than as the argument of URLSearchParams and the
  operands of its operators (C129, C130), and user code that writes `URLRecord` fields directly.
* `icu.UnicodeString` comparison in `sort` is modelled as UTF-16 code unit order; `list.sort` as
  insertion sort (both stable).
* Lone surrogates handed to ICU: icupy cannot convert them and raises TypeError. Host.parse decodes first, so this
  needs a direct call of `IDNA` or of `HostValidator.is_valid_domain`; `icu_to_ascii` is applied to the text as it is.
* Python's garbage collection; object identity (`is`); iterators other than those of lists.
* Threads: the code has no locks and no shared state other than what C42/C76 are about.

## 6. Disagreements between code and property (each a `_refuted` theorem)

1. `IPv4Address.parse` accepts `256.256` and returns 2^32+256: leading parts are checked only if the
   last part is at most 255 (C14, C15, and from there C23, C57).
2. `_parse_ipv4_number` uses `int(x, r)`: accepts `1_0`, `+1`, `0x0x10`, surrounding spaces, non-ASCII
   digits (C15, C16, C77, C78); `HostValidator.is_valid_ipv4_address` inherits this (C67).
3. `IPv6Address.parse` accepts `:::1` and an IPv4 part that is not last (`::1.2.3.4:5`), rejects
   `1:2:3:4:5:6:7::` (C21).
4. `_parse_file` on the empty reference appends an empty path segment (C38, C41).
5. `_parse_opaque_path` encodes code point by code point, so surrogate pairs become two U+FFFD (C43).
6. Port 0 is treated as "no port" in `_parse_host`/`_parse_scheme` with state override (C48, C49, C79).
7. `urlencode` leaves `~` unescaped (C08).
8. `URLSearchParams` percent-decodes its arguments; `has`/`delete` compare values without `str()`
   (C59, C63, C64).
9. With the int/str digit limit, long digit strings raise plain ValueError from the parser (C19, C27,
   C28, C55, C56; C126 says exactly when).
10. `url.host = 'example.com:99999'` raises after replacing the host (C47; C47_exactly says for which texts).
11. `protocol = 'file'` keeps `localhost` hosts and `C|` segments that a re-parse changes (C49).
12. `Origin.is_same_origin_domain` takes the domain `''` for no domain (C58).
13. `ValidityState.prepend` that raises while formatting leaves an inconsistent state (C66).
14. `search_params.attach(record)`, a public method, disconnects `url.search_params` from the URL; two
    URLSearchParams objects on one record do not see each other's changes (C87).
15. Iterators are not WebIDL's: `entries()` keeps the old list after `url.search = ...` and never goes on after
    its end, `keys()` and `values()` are snapshots (C88).
16. `_parse_file_host` on `file://C|/x` goes back to the start of the drive letter, so the `|` is reported as an
    invalid URL unit, which it is not in the standard (C95).
17. `IPv6Address.parse` names another error than the standard for some invalid addresses, as it counts pieces
    before it looks at them; `_parse_opaque_host` reports at most one invalid URL unit (C96).
18. `URLValidator.is_valid('http://1_0.1/')` is true, by item 2 (C97).
19. The valid URL strings `http://[1:2:3:4:5:6:7::]/` and `http://a.0x-0/` are refused, by items 3 and 2 (C98).
20. `data:a:b`, `http://h//a`, `file://` and `file://h/C:/` are parsed without any report though section 4.3 of the
    standard does not allow them (the standard's parser does the same) (C99).
21. "at position n" counts in the cleaned input, not in the argument (C113).
22. `http://user:pw@/` is rejected with "credentials are empty"; the host is missing (C114).
23. `is_valid_ipv4_address('')` records "ends with a U+002E (.)" (C118).
24. `url.protocol = 'a b'` raises URLParseError, which no log entry announces (C121).
25. `HostValidator.is_valid_domain` asks ToUnicode about the domain, not about its ASCII form; `is_valid` takes every
    host whose last label is a number for an IPv4 address, so `1.2.3.999`, by the letter of section 3.4 a valid domain, is
    not valid; `[:::1]` and `1.2.3.+4` are, by items 3 and 2 (C127).
26. Encodings: `UTF16BE_CODECS`/`UTF16LE_CODECS` do not have "utf-16", "utf16" or "utf_16", so these give a byte order
    mark and two bytes for a character where the standard takes UTF-8; an unknown encoding raises LookupError instead of
    a URLParseError, and only if the query of a special URL is not empty (C132).
27. `BasicURLParser.parse(..., state_override=AUTHORITY_STATE)` adds to the username and password of the record, where
    the docstring says "replace" (C137); the `url` argument without an override is not "replaced with the parsing
    result": segments are appended to its path and its credentials, port, query and fragment stay (C138).
28. With one object as `url` and `base` the parser compares the scheme of the input with itself, and loses the host of a
    file URL (C139).
29. `URLValidator.is_valid_url_scheme` lower-cases with `str.lower()`: U+212A KELVIN SIGN counts as k (C141).
30. The table of registered schemes is opened without an encoding, so the locale decides: where the byte A1 has no character
    (windows-1257, the Baltic code page of Windows) `import urlstd.parse` raises UnicodeDecodeError (C142).

## 7. Mutation testing

`tools/mutate.py` applies the edits of `seeded/mutations.jsonl` one at a time to a scratch copy of the
model. A proof that no longer goes through is replaced by an appeal to a scratch axiom and the build
goes on; the property theorems whose assumptions then list that axiom are reported as failed. The axiom
exists in the scratch copy only. `seeded/LOG.jsonl` has one line per attempt. "Failed" means that the
proof script failed; that the statement itself became false is checked only where an `Example` or
`_refuted` theorem failed by computation.

Only the property files of the claim are rebuilt, so `not_checked` says nothing about the theorems it lists.
Three attempts survived (M66, M84, M99: no theorem of the claim failed); the theorems added because of them
are named in the log, and the same edits, repeated as M104, M149 and M181, are caught. Until M181 the log
marked these three as not survived, because it took theorems that were not rebuilt for broken ones. A first run of
M182-M195 was discarded: the scratch copy lacked the axiom, so every build got stuck at the first
broken lemma and no theorem was tested. `mutate.py` now refuses such a copy, and the log marks a run
that got stuck without a failed theorem as inconclusive.

## 8. Validation against recorded behaviour

/repo/tests/wpt/report.html is a report of a test run of the package: outcomes of 4128 tests and the
log messages they caused. tools/recorded.py reads it together with the test data beside it and writes
Recorded*.v, which compute the same calls in the model and compare:

* 1086 calls of URL(): ten attributes, origin, search_params, or that URLParseError is raised; and in each
  case the levels and texts of all log messages, in order.
* 544 calls of setters: the attributes afterwards and the log messages.
* 43 calls of URLSearchParams() and sort().

All agree, also where the package fails its own test (`urls_6`, two file URLs). These are tests, not proofs:
they support the reading of the code that section 4 names. What ICU answers is taken from the
recorded outcome where the domain is not plain ASCII, so ICU itself is not checked. Of the 2032 IDNA tests
only one for each set of errors is included.

/repo/tests/test_api.py states what calls of the API return, log or raise. tools/apitests.py collects the
calls of its parametrized tests and writes RecordedApi.v: 397 calls with 530 assertions, among them texts of
exceptions and descriptions recorded by a ValidityState, and the code point predicates. They agree. Two of
these tests showed that an earlier version of MsgHost.v gave IDNAError a text without ICU's error code, so that
C111 was weaker than it is now.

RecordedDocs.v computes, by hand, the examples in the docstrings of parse.py (except those of `BasicURLParser.parse`,
which are `C136_doc`) and the tests of objects in test_api.py that are not calls with one argument: URLRecord, Origin,
URLSearchParams, URL, ValidityState, urlparse. They agree.

tools/paramtests.py translates the tests of URLSearchParams, URL.search_params and URL.can_parse in /repo/tests/wpt
to programs of the model, RecordedPrograms.v: 80 tests with 220 assertions. They agree. Left out are four
assertions about the logging package, one about object identity and one that a property has no setter.
