"""Makes rocq/theories/RecordedApi.v from the unit tests of the package.

  python3 apitests.py /repo /verif/rocq/theories

/repo/tests/test_api.py says what calls return, raise, log and record. This reads it as a syntax tree,
follows the assignments of strings in each test, and writes every call together with what the assertions
after it say; RecordedApi.v computes the same calls in the model and compares. Nothing of the package is run.
Assertions that do not have one of the forms below are left out (the count is printed).
"""
import ast, re, sys, unicodedata

repo, out = sys.argv[1:3]
tree = ast.parse(open(repo + '/tests/test_api.py', encoding='utf-8').read())

class Skip(Exception): pass

def value(e, env):
    """constant expressions"""
    if isinstance(e, ast.Constant): return e.value
    if isinstance(e, ast.Name):
        if e.id in env: return env[e.id]
        raise Skip
    if isinstance(e, ast.JoinedStr): return ''.join(value(v, env) for v in e.values)
    if isinstance(e, ast.FormattedValue):
        v = value(e.value, env)
        return repr(v) if e.conversion == ord('r') else format(v, value(e.format_spec, env) if e.format_spec else '')
    if isinstance(e, ast.BinOp):
        a, b = value(e.left, env), value(e.right, env)
        if isinstance(e.op, ast.Add): return a + b
        if isinstance(e.op, ast.Mult): return a * b
        raise Skip
    if isinstance(e, ast.UnaryOp) and isinstance(e.op, ast.USub): return -value(e.operand, env)
    if isinstance(e, (ast.List, ast.Tuple)): return [value(x, env) for x in e.elts]
    if isinstance(e, ast.Subscript):
        v = value(e.value, env)
        if isinstance(e.slice, ast.Slice):
            return v[value(e.slice.lower, env) if e.slice.lower else None:value(e.slice.upper, env) if e.slice.upper else None]
        return v[value(e.slice, env)]
    if isinstance(e, ast.Call) and isinstance(e.func, ast.Attribute) and e.func.attr == 'join':
        return value(e.func.value, env).join(value(e.args[0], env))
    if isinstance(e, ast.Call) and ast.unparse(e.func) in ('URL', 'parse_url') and len(e.args) == 1: return ('URL', value(e.args[0], env))
    raise Skip

KNOWN = {'Host.parse', 'parse_url', 'IDNA.domain_to_ascii', 'IDNA.domain_to_unicode', 'URL', 'URL.can_parse', 'URLValidator.is_valid',
         'URLValidator.is_valid_url_scheme', 'HostValidator.is_valid', 'HostValidator.is_valid_domain', 'HostValidator.is_valid_ipv4_address',
         'HostValidator.is_valid_ipv6_address', 'HostValidator.is_valid_opaque_host', 'IPv4Address.is_ends_in_a_number'}
def call_of(e, env):
    if not (isinstance(e, ast.Call) and ast.unparse(e.func) in KNOWN): return None
    args = [value(a, env) for a in e.args]
    kw = {k.arg: (True if k.arg == 'validity' else value(k.value, env)) for k in e.keywords}
    return {'f': ast.unparse(e.func), 'args': args, 'kw': kw, 'want': {}}

calls, skipped = [], 0
mocked = False
def walk(body, env, st):
    """st: 'last' the last call, 'var' calls by the name of their result"""
    global skipped, mocked
    for s in body:
        if isinstance(s, ast.With):
            ctx = s.items[0].context_expr
            if ast.unparse(ctx).startswith('pytest.raises'):
                c = None
                for x in s.body:
                    if isinstance(x, (ast.Assign, ast.Expr)):
                        try: c = call_of(x.value, env)
                        except Skip: c = None
                if c:
                    c['want']['exc'] = ast.unparse(ctx.args[0]); c['line'] = s.lineno; c['mocked'] = mocked
                    calls.append(c); st['last'] = c
                else: skipped += 1
            continue
        if isinstance(s, ast.Assign) and len(s.targets) == 1 and isinstance(s.targets[0], ast.Name):
            name = s.targets[0].id
            env.pop(name, None); st['var'].pop(name, None)
            try:
                c = call_of(s.value, env)
                if c:
                    c['line'] = s.lineno; c['mocked'] = mocked; calls.append(c); st['last'] = c; st['var'][name] = c
                    if c['f'] in ('URL', 'parse_url'): env[name] = ('URL', c)
                else: env[name] = value(s.value, env)
            except Skip: pass
            continue
        if isinstance(s, ast.Expr):
            if 'mocker.patch' in ast.unparse(s): mocked = True
            continue
        if isinstance(s, ast.Assert):
            if not claim(s.test, env, st, s.lineno): skipped += 1
            continue
        if not isinstance(s, (ast.Assign, ast.Expr)): skipped += 1

def note(c, k, v):
    if c is None: return False
    c['want'][k] = v
    return True
def claim(t, env, st, line):
    global mocked
    src = ast.unparse(t)
    try:
        # a validator
        neg = isinstance(t, ast.UnaryOp) and isinstance(t.op, ast.Not)
        e = t.operand if neg else t
        c = call_of(e, env)
        if c:
            c['want']['bool'] = not neg; c['line'] = line; c['mocked'] = mocked; calls.append(c); st['last'] = c
            return True
        if not isinstance(t, ast.Compare): return False
        l, op, r = t.left, t.ops[0], t.comparators[0]
        c = call_of(l, env)
        if c:
            c['line'] = line; c['mocked'] = mocked; calls.append(c); st['last'] = c
            v = value(r, env)
            return note(c, 'bool' if isinstance(v, bool) else 'result', v)
        last = st['last']
        ls = ast.unparse(l)
        if ls == 'exc_info.value.args[0]': return note(last, 'text', value(r, env))
        m = re.fullmatch(r'caplog\.record_tuples\[-(\d)\]\[(\d)\]', ls)
        if m:
            k, f = int(m.group(1)), int(m.group(2))
            if f == 1: return note(last, ('level', k), ast.unparse(r).split('.')[-1])
            if f == 2: return note(last, ('log', k), value(r, env))
        if ls == 'len(caplog.record_tuples)' and isinstance(op, ast.Eq): return note(last, 'logs', value(r, env))
        if ls == 'validity.valid': return note(last, 'valid', value(r, env))
        if ls == 'validity.error_types' and isinstance(op, ast.Eq): return note(last, 'types', value(r, env))
        if ls == 'validity.descriptions' and isinstance(op, ast.Eq): return note(last, 'descs', value(r, env))
        if ls == 'validity.validation_errors' and isinstance(op, ast.Eq): return note(last, 'count', value(r, env))
        if isinstance(op, ast.In) and ast.unparse(r) == 'validity.error_types': return note(last, 'has', value(l, env))
        m = re.fullmatch(r'Host\.serialize\((\w+)\)', ls)
        if m and m.group(1) in st['var']: return note(st['var'][m.group(1)], 'serialized', value(r, env))
        if isinstance(l, ast.Name) and l.id in st['var']: return note(st['var'][l.id], 'result', value(r, env))
        m = re.fullmatch(r'(?:str\((\w+)\)|(\w+)\.(\w+)|len\((\w+)\.(\w+)\))', ls)
        if m:
            name = m.group(1) or m.group(2) or m.group(4)
            if name in st['var']:
                at = 'href' if m.group(1) else m.group(3) or m.group(5)
                v = value(r, env)
                if m.group(5): v = '' if v == 0 else None
                return note(st['var'][name], ('attr', at), v)
        return False
    except Skip:
        return False

units, points = [], []
for f in tree.body:
    if not isinstance(f, ast.FunctionDef): continue
    mocked = False
    if f.name in ('test_is_url_units', 'test_is_url_code_points'):
        (units if f.name.endswith('units') else points).extend(value(f.decorator_list[0].args[1], {}))
        continue
    if f.decorator_list: continue
    walk(f.body, {}, {'last': None, 'var': {}})

# ---------- output ----------
chars = set()
def q(s):
    chars.update(map(ord, s))
    if s == '': return '[]'
    if len(s) > 40 and len(set(s)) == 1: return '(repeat %d %d)' % (ord(s[0]), len(s))
    if all(32 <= ord(c) < 127 for c in s): return '$"' + s.replace('"', '""') + '"'
    return '[' + '; '.join(str(ord(c)) for c in s) + ']'
def lst(l): return '[' + '; '.join(l) + ']'
def opt(x): return 'None' if x is None else '(Some %s)' % x

def icu(c):
    """what ICU answered, where lower-casing is not it"""
    if c['mocked']: return 'IcuFail 0'
    t = c['want'].get('text') or c['want'].get(('log', 1)) or ''
    m = re.search(r'records an error: .*\(0x([0-9A-F]+)\)$', t, re.S)
    if m: return 'IcuOk %d %s' % (int(m.group(1), 16), q(c['want'].get('result', '')))
    if 'returns the empty string' in t: return 'IcuOk 0 []'
    m = re.search(r'failed: domain=.* errors=0x([0-9A-F]+)', t)
    if m: return 'IcuFail %d' % int(m.group(1), 16)
    return None

left = 0
out_calls = []
for c in calls:
    w, a, kw = c['want'], c['args'], c['kw']
    f = c['f']
    if c['mocked'] and f not in ('HostValidator.is_valid_domain', 'IDNA.domain_to_ascii', 'IDNA.domain_to_unicode'): left += 1; continue
    ans = icu(c)
    s = a[0]
    if isinstance(s, tuple): left += 1; continue
    def base(x):
        if x is None: return 'BNone'
        if isinstance(x, tuple):
            x = x[1]
            if isinstance(x, dict):
                if len(x['args']) > 1 or x['kw']: raise KeyError
                x = x['args'][0]
            return '(BStr %s)' % q(x)
        return '(BStr %s)' % q(x)
    b = base(a[1] if len(a) > 1 and not isinstance(a[1], bool) else kw.get('base'))
    enc = kw.get('encoding', 'utf-8')
    strict = str(len(a) > 1 and a[1] is True).lower()
    table = []
    if f.startswith('HostValidator') and w.get('bool') is False and (w.get('types') in (None, ['domain-to-ASCII'])) and f in ('HostValidator.is_valid', 'HostValidator.is_valid_domain'):
        # empty label, label or name too long, disallowed character: the tests say which
        n = 1 if s in ('', 'a..b', '­') else 2 if len(s) == 64 else 4 if len(s) > 200 else 128
        ans = 'IcuOk %d []' % n
        table = [s]
    elif f.startswith('IDNA'):
        table = [s]
        if ans is None and 'result' in w: ans = 'IcuOk 0 ' + q(w['result'])
    elif ans is None and any(ord(x) > 127 for x in s): ans = 'IcuOk 0 ' + q(w['result'] if isinstance(w.get('result'), str) else '')
    kind = {'Host.parse': 'CHost %s' % strict, 'parse_url': 'CUrl %s %s' % (b, q(enc)), 'URL': 'CUrl %s %s' % (b, q(enc)),
            'IDNA.domain_to_ascii': 'CAscii %s' % strict, 'IDNA.domain_to_unicode': 'CUnicode %s' % strict,
            'URL.can_parse': 'CCan %s' % b, 'URLValidator.is_valid': 'CValid %s %s' % (b, q(enc)), 'URLValidator.is_valid_url_scheme': 'CScheme',
            'HostValidator.is_valid': 'CVHost', 'HostValidator.is_valid_domain': 'CVDomain', 'HostValidator.is_valid_ipv4_address': 'CV4',
            'HostValidator.is_valid_ipv6_address': 'CV6', 'HostValidator.is_valid_opaque_host': 'CVOpaque',
            'IPv4Address.is_ends_in_a_number': 'CEnds'}[f]
    res = w.get('result')
    attrs = []
    for k, v in w.items():
        if isinstance(k, tuple) and k[0] == 'attr':
            n = {'href': 'AHref', 'scheme': 'AScheme', 'username': 'AUser', 'password': 'APass', 'query': 'AQuery', 'fragment': 'AFrag'}.get(k[1])
            if n is None or f == 'URL' and k[1] != 'href' or v is None and n not in ('AQuery', 'AFrag'): continue
            attrs.append('(%s, %s)' % (n, opt(None if v is None else q(v))))
    logs = [(k[1], v) for k, v in w.items() if isinstance(k, tuple) and k[0] == 'log']
    levels = [(k[1], v) for k, v in w.items() if isinstance(k, tuple) and k[0] == 'level']
    exc = {'HostParseError': 'EHostParse', 'IPv4AddressParseError': 'EIPv4', 'IPv6AddressParseError': 'EIPv6', 'URLParseError': 'EURLParse', 'IDNAError': 'EIDNA', None: None}[w.get('exc')]
    wants = []
    if 'bool' in w: wants.append('WBool %s' % str(w['bool']).lower())
    if exc: wants.append('WExc %s' % exc)
    elif not 'bool' in w: wants.append('WReturns')
    if 'text' in w: wants.append('WText %s' % q(w['text']))
    if isinstance(res, str): wants.append('WStr %s' % q(res))
    if isinstance(res, int): wants.append('WInt %d' % res)
    if isinstance(res, list) and all(isinstance(x, int) for x in res): wants.append('WInts %s' % lst(map(str, res)))
    if 'serialized' in w: wants.append('WSerial %s' % q(w['serialized']))
    for k, v in sorted(levels): wants.append('WLevel %d %s' % (k - 1, v))
    for k, v in sorted(logs): wants.append('WLog %d %s' % (k - 1, q(v)))
    if w.get('valid') is not None: wants.append('WValid %s' % str(w['valid']).lower())
    if 'types' in w: wants.append('WTypes %s' % lst(map(q, w['types'])))
    if 'descs' in w: wants.append('WDescs %s' % lst(map(q, w['descs'])))
    if 'count' in w: wants.append('WCount %d' % w['count'])
    if 'has' in w: wants.append('WHas %s' % q(w['has']))
    for x in attrs: wants.append('WAttr %s' % x)
    out_calls.append((c['line'], 'mkcall (%s) %s %s %s %s' % (kind, q(s), lst(wants), lst(map(q, table)), '(%s)' % (ans or 'IcuOk 0 []'))))

high = sorted(c for c in chars if c > 127)
v = open(out + '/RecordedApi.v', 'w')
v.write('''(** The calls of /repo/tests/test_api.py and what its assertions say of them, computed in the model and compared.
    A check of the model, not a proof. Made by tools/apitests.py. *)
From Coq Require Import Ascii String.
From Coq Require Import NArith ZArith Bool Arith List.
From Verif Require Import PyStr PyInt Codec Env HostModel UrlRecord Parser SearchParams UrlApi Repr Message MsgHost MsgParser MsgValidators MsgApi ExampleEnv.
Import ListNotations.
Open Scope N_scope.

Definition printables : list N := %s.
(** ICU: [answer] for domains that are not ASCII, have a label in Punycode or are in [table]; windows-1252 as far as needed *)
Fixpoint infix (a b : list N) : bool := str_eqb a (firstn (length a) b) || match b with [] => false | _ :: t => infix a t end.
Definition api_icu (table : list (list N)) (answer : icu_result) (d : list N) : icu_result :=
  if forallb (fun c => c <? 128) d && negb (infix $"xn--" (lower d)) && negb (str_in d table) then IcuOk 0 (lower d) else answer.
(** a test that patches ICU to fail patches name_to_unicode only, in the test of is_valid_domain *)
Definition api_env (only_unicode : bool) (table : list (list N)) (answer : icu_result) : menv :=
  {| m_env :=
       {| icu_to_ascii := fun _ d => if only_unicode then IcuOk 0 (lower d) else api_icu table answer d;
          icu_to_unicode := fun _ d => if only_unicode then answer else api_icu table answer d;
          codec := fun n c => if c <? 128 then Some [c] else if str_eqb n $"windows-1252" then if (160 <=? c) && (c <? 256) then Some [c] else None else None;
          uni_decimal := fun _ => None; uni_space := fun _ => false; uni_lower := fun c => [c];
          int_limit := Some 4300; has_validity := false |};
     m_print := fun c => existsb (N.eqb c) printables; m_icu_code := fun _ _ => $"<ErrorCode(<U_MEMORY_ALLOCATION_ERROR: 7>)>" |}.

Inductive callee :=
| CHost (opaque : bool) | CUrl (base : base_arg) (encoding : list N) | CAscii (strict : bool) | CUnicode (strict : bool)
| CCan (base : base_arg) | CValid (base : base_arg) (encoding : list N) | CScheme | CVHost | CVDomain | CV4 | CV6 | CVOpaque | CEnds.
Inductive attr := AHref | AScheme | AUser | APass | AQuery | AFrag.
Inductive want :=
| WBool (b : bool) | WReturns | WExc (e : exc) | WText (t : list N) | WStr (s : list N) | WInt (n : N) | WInts (l : list N) | WSerial (s : list N)
| WLevel (k : nat) (l : level) | WLog (k : nat) (t : list N)
| WValid (b : bool) | WTypes (l : list (list N)) | WDescs (l : list (list N)) | WCount (n : nat) | WHas (t : list N)
| WAttr (a : attr * option (list N)).
Record call := mkcall { c_what : callee; c_arg : list N; c_want : list want; c_table : list (list N); c_icu : icu_result }.

(** what a call does: result, messages, ValidityState *)
Inductive got := GBool (b : bool) | GStr (s : list N) | GHost (h : host) | GUrl (u : urlrec).
Definition gmap {A} (f : A -> got) (r : mres A) : mres got := match r with MOk a => MOk (f a) | MErr e t => MErr e t end.
Definition do_call (X : menv) (c : callee) (s : list N) : mres got * list entry * mstate :=
  let w {A} (f : A -> got) (m : MW A) := (gmap f (snd m), fst m, ms_fresh) in
  let v (m : mres bool * mstate) := (gmap GBool (fst m), @nil entry, snd m) in
  match c with
  | CHost o => w GHost (m_host_parse X s o)
  | CUrl b enc => w GUrl (m_parse_url X s b enc)
  | CAscii b => w GStr (m_domain_to_ascii X b s)
  | CUnicode b => w GStr (m_domain_to_unicode X b s)
  | CCan b => v (m_can_parse X s b (Some ms_fresh))
  | CValid b enc => v (m_url_is_valid X s b enc (Some ms_fresh))
  | CScheme => v (m_is_valid_url_scheme X s (Some ms_fresh))
  | CVHost => v (m_host_is_valid X s (Some ms_fresh))
  | CVDomain => v (m_is_valid_domain X s (Some ms_fresh))
  | CV4 => let (r, o) := m_is_valid_ipv4_address X s (Some ms_fresh) in (gmap GBool r, [], match o with Some m => m | None => ms_fresh end)
  | CV6 => v (m_is_valid_ipv6_address X s (Some ms_fresh))
  | CVOpaque => v (m_is_valid_opaque_host X s (Some ms_fresh))
  | CEnds => (MOk (GBool (is_ends_in_a_number (m_env X) s)), [], ms_fresh)
  end.
Definition same_exc (a b : exc) : bool :=
  match a, b with
  | EHostParse, EHostParse | EIPv4, EIPv4 | EIPv6, EIPv6 | EURLParse, EURLParse | EIDNA, EIDNA => true
  | _, _ => false
  end.
Fixpoint strs_eqb (a b : list (list N)) : bool :=
  match a, b with [], [] => true | x :: a, y :: b => str_eqb x y && strs_eqb a b | _, _ => false end.
Definition opt_eqb (a b : option (list N)) : bool :=
  match a, b with None, None => true | Some a, Some b => str_eqb a b | _, _ => false end.
Definition attr_of (a : attr) (u : urlrec) : option (list N) :=
  match a with AHref => Some (href u) | AScheme => Some (scheme u) | AUser => Some (username u) | APass => Some (password u) | AQuery => query u | AFrag => fragment u end.
Definition meets (g : mres got * list entry * mstate) (w : want) : bool :=
  let '(r, l, st) := g in
  match w with
  | WBool b => match r with MOk (GBool x) => Bool.eqb x b | _ => false end
  | WReturns => match r with MOk _ => true | _ => false end
  | WExc e => match r with MErr x _ => same_exc x e | _ => false end
  | WText t => match r with MErr _ (Some x) => str_eqb x t | _ => false end
  | WStr s => match r with MOk (GStr x) => str_eqb x s | MOk (GHost (HStr x)) => str_eqb x s | _ => false end
  | WInt n => match r with MOk (GHost (HIPv4 x)) => x =? n | _ => false end
  | WInts n => match r with MOk (GHost (HIPv6 x)) => str_eqb x n | _ => false end
  | WSerial s => match r with MOk (GHost h) => str_eqb (host_serialize h) s | _ => false end
  | WLevel k lv => match nth_error (rev l) k with Some en => match e_level en, lv with INFO, INFO | ERROR, ERROR => true | _, _ => false end | None => false end
  | WLog k t => match nth_error (rev l) k with Some en => opt_eqb (e_text en) (Some t) | None => false end
  | WValid b => Bool.eqb (ms_valid st) b
  | WTypes t => strs_eqb (ms_types st) t
  | WDescs t => strs_eqb (ms_descs st) t
  | WCount n => (ms_count st =? n)%%nat
  | WHas t => str_in t (ms_types st)
  | WAttr (a, v) => match r with MOk (GUrl u) => opt_eqb (attr_of a u) v | _ => false end
  end.
Definition call_agrees (c : call) : bool :=
  let o := match c_what c, c_icu c with CVDomain, IcuFail _ => true | _, _ => false end in
  forallb (meets (do_call (api_env o (c_table c) (c_icu c)) (c_what c) (c_arg c))) (c_want c).

(** the number is the line in test_api.py *)
Definition api_calls : list (N * call) :=
  [%s].
Example api_calls_agree : filter (fun c => negb (call_agrees (snd c))) api_calls = [].
Proof. vm_compute. reflexivity. Qed.

(** is_url_units(text, excluding=...), where None is the empty string, and the first part that is not allowed *)
Definition unit_calls : list (list N * list N * option (list N)) :=
  [%s].
Example unit_calls_agree : filter (fun '(t, ex, r) => negb (opt_eqb (is_url_units $"%%" ex t) r)) unit_calls = [].
Proof. vm_compute. reflexivity. Qed.

(** is_url_code_points(text, including=..., excluding=...) *)
Definition point_calls : list (list N * list N * list N * option N) :=
  [%s].
Example point_calls_agree :
  filter (fun '(t, inc, ex, r) => negb (opt_eqb (option_map (fun c => [c]) (is_url_code_points inc ex t)) (option_map (fun c => [c]) r))) point_calls = [].
Proof. vm_compute. reflexivity. Qed.
''' % (lst(map(str, [c for c in high if chr(c).isprintable()])),
       ';\n   '.join('(%d, %s)' % x for x in out_calls),
       ';\n   '.join('(%s, %s, %s)' % (q(t), q(e or ''), 'None' if ok else 'Some ' + q(r)) for t, e, ok, r in units),
       ';\n   '.join('(%s, %s, %s, %s)' % (q(t), q(i or ''), q(e or ''), 'None' if ok else 'Some %d' % ord(r)) for t, i, e, ok, r in points)))
print(len(out_calls), 'calls', skipped, 'assertions left out', left, 'calls left out', len(units), len(points))
