"""Makes rocq/theories/Recorded*.v from the recorded test run of the package.

  python3 recorded.py /repo /verif/rocq/theories

/repo/tests/wpt/report.html is a report of pytest: for every test its outcome and the log messages it
caused. Together with the test data in /repo/tests/wpt/resources this says what the package did. The
files made here compute the same calls in the model and compare attributes, levels and texts. Nothing
of the package is run.

What ICU answered is taken from the recorded outcome for domains that are not plain ASCII; for the others
lower-casing is used. Character properties come from Python's unicodedata, for the characters that occur.
"""
import ast, html, json, re, sys, unicodedata

repo, out = sys.argv[1:3]
wpt = repo + '/tests/wpt/'
report = open(wpt + 'report.html', encoding='utf-8').read()
blob = json.loads(html.unescape(re.search(r'data-jsonblob="([^"]*)"', report).group(1)))
tests = {t['testId'].split('/')[-1]: t for ts in blob['tests'].values() for t in ts}

def load(name):
    return json.load(open(wpt + 'resources/' + name, encoding='utf-8'))

def logged(test):
    """(level, text) of the log messages of a test"""
    s = html.unescape(tests[test]['log'])
    k = s.find('Captured log call')
    if k < 0: return []
    parts = re.split(r'(?:^|\n)\d\d:\d\d:\d\d\|', s[k:].split('\n', 1)[1])[1:]
    found = []
    for p in parts:
        level, _, text = p.split('|', 2)
        found.append((level, text))
    if found: found[-1] = (found[-1][0], found[-1][1].rstrip('\n'))
    return found

chars = set()
def q(s):
    chars.update(map(ord, s))
    if s == '': return '[]'
    if all(32 <= ord(c) < 127 for c in s): return '$"' + s.replace('"', '""') + '"'
    return '[' + '; '.join(str(ord(c)) for c in s) + ']'
def lst(l): return '[' + '; '.join(l) + ']'
def some(s): return 'None' if s is None else 'Some ' + q(s)

def icu(logs, host):
    for level, t in logs:
        m = re.match(r'domain-to-ASCII: Unicode ToASCII records an error: .*\(0x([0-9A-F]+)\)$', t, re.S)
        if m: return 'IcuOk %d []' % int(m.group(1), 16)
        if t.startswith('domain-to-ASCII: Unicode ToASCII returns the empty string'): return 'IcuOk 0 []'
        m = re.match(r"domain-invalid-code-point: .*?: ('.*')$", t, re.S)
        if m: return 'IcuOk 0 ' + q(ast.literal_eval(m.group(1)))
        m = re.match(r"IPv4-non-(?:decimal|numeric)-part: .* in ('.*')$", t, re.S)
        if m: return 'IcuOk 0 ' + q(ast.literal_eval(m.group(1)))
    return 'IcuFail 0' if host is None else 'IcuOk 0 ' + q(host)

ATTRS = ['href', 'protocol', 'username', 'password', 'host', 'hostname', 'port', 'pathname', 'search', 'hash']
SET = {'protocol': 'SetProtocol', 'username': 'SetUsername', 'password': 'SetPassword', 'host': 'SetHost', 'hostname': 'SetHostname',
       'port': 'SetPort', 'pathname': 'SetPathname', 'search': 'SetSearch', 'hash': 'SetHash', 'href': 'SetHref'}
def logs_v(l): return lst('(%s, %s)' % (a, q(b)) for a, b in l)

HEAD = '''(** %s
    Made by tools/recorded.py. *)
From Coq Require Import Ascii String.
From Coq Require Import NArith ZArith Bool Arith List.
From Verif Require Import PyStr PyInt Codec Env HostModel UrlRecord Parser SearchParams UrlApi Repr Message MsgHost MsgParser MsgApi%s.
Import ListNotations.
Open Scope N_scope.

'''

# URL(input, base): tests/wpt/test_url_constructor.py, and url.origin: test_url_origin.py
urls, origin = [], 0
for i, x in enumerate(t for t in load('urltestdata.json') if isinstance(t, dict)):
    name = 'test_url_constructor.py::test_url[expected%d]' % i
    logs = logged(name)
    want = None if x.get('failure') else {a: x[a] for a in ATTRS}
    if want and 'searchParams' in x: want['searchParams'] = x['searchParams']
    if 'origin' in x:
        t = tests['test_url_origin.py::test_origin[expected%d]' % origin]
        assert t['result'] == 'Passed'
        want['origin'] = x['origin']; origin += 1
    if tests[name]['result'] != 'Passed':
        # the first assertion is the one about href
        m = re.search(r"E   assert '(.*)' == '(.*)'", html.unescape(tests[name]['log']))
        assert m.group(2) == x['href']
        want = {'href': m.group(1)}
    host = x.get('hostname')
    if x['input'].startswith('file://lo') and host == '': host = 'localhost'
    base = 'BNone' if x.get('base') is None else 'BStr ' + q(x['base'])
    exp = 'None' if want is None else 'Some ' + lst(some(want.get(a)) for a in ATTRS + ['searchParams', 'origin'])
    urls.append('mkurl %s (%s) (%s) %s (%s)' % (q(x['input']), base, exp, logs_v(logs), icu(logs, host)))

# URL("about:blank", input) of inputs that fail: tests/wpt/test_failure.py
failing = [x for x in load('urltestdata.json') if isinstance(x, dict) and x.get('failure') and x['base'] is None]
for i, x in enumerate(failing):
    name = 'test_failure.py::test_url_constructor[test%d]' % i
    assert tests[name]['result'] == 'Passed'
    logs = logged(name)
    urls.append('mkurl $"about:blank" (BStr %s) None %s (%s)' % (q(x['input']), logs_v(logs), icu(logs, None)))

# URL(f"https://{input}/x"): tests/wpt/test_toascii.py and tests/wpt/test_idna_test_v2.py, of which one for each set of IDNA errors
def host_case(name, enc, host):
    assert tests[name]['result'] == 'Passed'
    logs = logged(name)
    exp = 'None' if host is None else 'Some ' + lst(some({'host': host, 'hostname': host, 'pathname': '/x', 'href': 'https://%s/x' % host}.get(a)) for a in ATTRS + ['', ''])
    urls.append('mkurl %s (BNone) (%s) %s (%s)' % (q('https://%s/x' % enc), exp, logs_v(logs), icu(logs, host)))
toascii = [x for x in load('toascii.json') if isinstance(x, dict)]
for i, x in enumerate(toascii): host_case('test_toascii.py::test_getter[host_test%d]' % i, x['input'], x['output'])
idna, seen = [x for x in load('IdnaTestV2.json') if isinstance(x, dict)], set()
for i, x in enumerate(idna):
    name = 'test_idna_test_v2.py::test_to_ascii[idna_test%d]' % i
    key = tuple(re.sub(r"'.*'", '', t) for _, t in logged(name))
    if key in seen or tests[name]['result'] != 'Passed': continue
    seen.add(key)
    host_case(name, ''.join('%%%02X' % ord(c) if c in ':/?#\\' else c for c in x['input']), x['output'])

# setattr(URL(href), attribute, value): tests/wpt/test_url_setters.py
setters, i = [], 0
data = load('setters_tests.json'); del data['comment']
for k in data:
    for j, x in enumerate(data[k]):
        name = 'test_url_setters.py::test_setter[%s-test_case%d]' % (k, i)
        if name not in tests: sys.exit('no ' + name)
        assert tests[name]['result'] == 'Passed'
        logs = logged(name)
        exp = x['expected']
        setters.append('mkset %s (%s %s) %s %s (%s)' % (q(x['href']), SET[k], q(x['new_value']), lst(some(exp.get(a)) for a in ATTRS), logs_v(logs),
                                                     icu(logs, exp.get('hostname', exp.get('host')))))
        i += 1

# url = URL("about:blank"); url.href = input: tests/wpt/test_failure.py
for i, x in enumerate(failing):
    name = 'test_failure.py::test_url_href[test%d]' % i
    assert tests[name]['result'] == 'Passed'
    logs = logged(name)
    setters.append('mkset $"about:blank" (SetHref %s) %s %s (%s)' % (q(x['input']), lst('None' for a in ATTRS), logs_v(logs), icu(logs, None)))
# url = URL("https://x/x"); url.host = input: tests/wpt/test_toascii.py
for i, x in enumerate(toascii):
    for k in ['host', 'hostname']:
        name = 'test_toascii.py::test_setter[host_test%d-%s]' % (2 * i + (k == 'hostname'), k)
        assert tests[name]['result'] == 'Passed'
        logs = logged(name)
        want = x['output'] if x['output'] is not None else 'x'
        setters.append('mkset $"https://x/x" (%s %s) %s %s (%s)' % (SET[k], q(x['input']), lst(some(want if a == k else None) for a in ATTRS), logs_v(logs), icu(logs, x['output'])))

# list(URLSearchParams(input)): tests/wpt/test_urlencoded_parser.py; after sort(): tests/wpt/test_urlsearchparams_sort.py
def literals(name):
    tree = ast.parse(open(wpt + name, encoding='utf-8').read())
    for n in ast.walk(tree):
        if isinstance(n, ast.Dict):
            try: d = ast.literal_eval(n)
            except ValueError: continue
            if set(d) == {'input', 'output'}: yield d
def row(x): return '(%s, %s)' % (q(x['input']), lst('(%s, %s)' % (q(a), q(b)) for a, b in x['output']))
params = [row(x) for x in literals('test_urlencoded_parser.py')]
sorts = [row(x) for x in literals('test_urlsearchparams_sort.py')]
assert all(t['result'] == 'Passed' for n, t in tests.items() if 'test_urlencoded_parser' in n or 'params_sort' in n)

# the definitions come last, when all characters are known
cs = sorted(c for c in chars if c > 127)
table = lambda l: lst(l)
defs = HEAD % ('What the package did in a recorded test run (/repo/tests/wpt/report.html), as tables in Recorded*.v; here\n    how a line is computed in the model and compared. A check of the model, not a proof.', ' ExampleEnv')
defs += '''(** properties of the characters above 127 that occur *)
Definition printables : list N := %s.
Definition decimals : list (N * N) := %s.
Definition spaces : list N := %s.
Definition lowered : list (N * list N) := %s.
''' % (table(str(c) for c in cs if chr(c).isprintable()), table('(%d, %d)' % (c, unicodedata.decimal(chr(c))) for c in cs if unicodedata.category(chr(c)) == 'Nd'),
       table(str(c) for c in cs if chr(c).isspace()), table('(%d, %s)' % (c, lst(str(ord(k)) for k in chr(c).lower())) for c in cs if chr(c).lower() != chr(c)))
defs += '''Definition look {A} (l : list (N * A)) (c : N) : option A := option_map snd (find (fun p => fst p =? c) l).
Fixpoint infix (a b : list N) : bool := str_eqb a (firstn (length a) b) || match b with [] => false | _ :: t => infix a t end.
(** ICU: [answer] for a domain that is not ASCII or has a label in Punycode *)
Definition rec_env (answer : icu_result) : menv :=
  {| m_env :=
       {| icu_to_ascii := fun _ d => if forallb (fun c => c <? 128) d && negb (infix $"xn--" (lower d)) then IcuOk 0 (lower d) else answer;
          icu_to_unicode := fun _ d => IcuOk 0 d; codec := codec ascii_env;
          uni_decimal := look decimals; uni_space := fun c => existsb (N.eqb c) spaces;
          uni_lower := fun c => match look lowered c with Some l => l | None => [c] end;
          int_limit := Some 4300; has_validity := false |};
     m_print := fun c => existsb (N.eqb c) printables; m_icu_code := fun _ _ => $"<ErrorCode(<U_MEMORY_ALLOCATION_ERROR: 7>)>" |}.

Fixpoint lists {A B} (f : A -> B -> bool) (a : list A) (b : list B) : bool :=
  match a, b with [], [] => true | x :: a, y :: b => f x y && lists f a b | _, _ => false end.
Definition level_eqb (a b : level) : bool := match a, b with INFO, INFO | ERROR, ERROR => true | _, _ => false end.
Definition same_logs (l : list entry) (r : list (level * list N)) : bool :=
  lists (fun en p => level_eqb (e_level en) (fst p) && match e_text en with Some t => str_eqb t (snd p) | None => false end) l r.
(** None: not looked at *)
Definition same_attrs (o : list (list N)) (r : list (option (list N))) : bool :=
  lists (fun x y => match y with Some y => str_eqb x y | None => true end) o r.
Definition attrs (o : urlobj) : list (list N) :=
  [get_href o; get_protocol o; get_username o; get_password o; get_host o; get_hostname o; get_port o; get_pathname o; get_search o; get_hash o].

(** URL(input, base) and its attributes, str(url.search_params) and url.origin *)
Record rec_url := mkurl { r_input : list N; r_base : base_arg; r_attrs : option (list (option (list N))); r_logs : list (level * list N); r_icu : icu_result }.
Definition url_agrees (r : rec_url) : bool :=
  let X := rec_env (r_icu r) in
  let (l, o) := m_url_new X (r_input r) (r_base r) in
  same_logs l (r_logs r) &&
  match o, r_attrs r with
  | MOk o, Some want => same_attrs (attrs o ++ [sp_str (o_list o); match get_origin (m_env X) o with Ok t => t | Err _ => $"?" end]) want
  | MErr e _, None => is_url_error e
  | _, _ => false
  end.
(** setattr(URL(href), attribute, value), an exception of which is ignored, and the attributes afterwards *)
Record rec_set := mkset { s_href : list N; s_call : setter; s_attrs : list (option (list N)); s_logs : list (level * list N); s_icu : icu_result }.
Definition set_agrees (r : rec_set) : bool :=
  let X := rec_env (s_icu r) in
  let (l, o) := m_url_new X (s_href r) BNone in
  match o with
  | MOk o => let '(l', (o', e)) := m_set_attr X (s_call r) o in
             same_logs (l ++ l') (s_logs r) && same_attrs (attrs o') (s_attrs r) && match e with MErr e _ => is_url_error e | MOk _ => true end
  | MErr _ _ => false
  end.
'''
def emit(name, what, kind, typ, check, rows, size):
    names = []
    text = HEAD % (what, ' Recorded')
    for k in range(0, len(rows), size):
        d = '%s_%d' % (kind, k // size + 1)
        text += 'Definition %s : list %s :=\n  [%s].\n' % (d, typ, ';\n   '.join(rows[k:k + size]))
        text += 'Example %s_agree : forallb %s %s = true.\nProof. vm_compute. reflexivity. Qed.\n\n' % (d, check, d)
    open('%s/%s.v' % (out, name), 'w', encoding='utf-8').write(text)
open(out + '/Recorded.v', 'w').write(defs)
emit('RecordedUrls', 'The constructor and the getters of URL, as recorded.', 'urls', 'rec_url', 'url_agrees', urls, 100)
emit('RecordedSetters', 'The setters of URL, as recorded.', 'setters', 'rec_set', 'set_agrees', setters, 100)
emit('RecordedParams', 'Parsing and sorting of URLSearchParams, as recorded.', 'params', '(list N * pairs)', '(fun r => pairs_eqb (sp_init_str (fst r)) (snd r))', params, 100)
with open(out + '/RecordedParams.v', 'a') as f:
    f.write('Definition sorts : list (list N * pairs) :=\n  [%s].\n' % ';\n   '.join(sorts))
    f.write('Example sorts_agree : forallb (fun r => pairs_eqb (sp_sort (sp_init_str (fst r))) (snd r)) sorts = true.\nProof. vm_compute. reflexivity. Qed.\n')
print(len(urls), len(setters), len(params), len(sorts))
