#!/usr/bin/env python3
"""Writes theories/RecordedPrograms.v: the tests of URLSearchParams and of URL.search_params in
/repo/tests/wpt (test_urlsearchparams_*.py, test_url_searchparams.py, test_url_statics_canparse.py) as
programs of the model, with their assertions. They are read as syntax trees; nothing is run.

usage: paramtests.py REPO OUT"""
import ast, sys
repo, out = sys.argv[1:3]
files = ['append', 'constructor', 'delete', 'get', 'getall', 'has', 'set', 'sort', 'stringifier']
files = ['test_urlsearchparams_%s.py' % f for f in files] + ['test_url_searchparams.py', 'test_url_statics_canparse.py']

class Skip(Exception): pass
def text(s):
    if all(32 <= ord(c) < 127 for c in s): return '$"%s"' % s.replace('"', '""') if s else '[]'
    return '[' + '; '.join(str(ord(c)) for c in s) + ']'
def arg(x):
    if x is None: return 'ANone'
    if isinstance(x, str): return '(AStr %s)' % text(x)
    if isinstance(x, int): return '(ANum $"int" (Some $"%d"))' % x
    if isinstance(x, (list, tuple)): return '(ASeq %s [%s])' % ('true' if isinstance(x, tuple) else 'false', '; '.join(map(arg, x)))
    if isinstance(x, dict): return '(ADict [%s])' % '; '.join('(%s, %s)' % (arg(k), arg(v)) for k, v in x.items())
    raise Skip(repr(x))
def val(x): return '(PVStr %s)' % text(x) if isinstance(x, str) else '(PVNum $"%d")' % x
def opt(x): return '(Some %s)' % val(x)

class Test:
    """statements become let-bindings, assertions booleans"""
    def __init__(self, env): self.env, self.lets, self.checks, self.n, self.left = dict(env), [], [], 0, 0
    def bind(self, term):
        name = 'x%d' % self.n; self.n += 1
        self.lets.append((name, term)); return name
    def const(self, e):
        if isinstance(e, ast.Constant): return e.value
        if isinstance(e, ast.Name) and e.id in self.env and self.env[e.id][0] == 'const': return self.env[e.id][1]
        if isinstance(e, ast.Subscript): return self.const(e.value)[self.const(e.slice)]
        if isinstance(e, ast.BinOp) and isinstance(e.op, ast.Add): return self.const(e.left) + self.const(e.right)
        if isinstance(e, (ast.List, ast.Tuple)): return type(ast.literal_eval(e))(self.const(x) for x in e.elts)
        if isinstance(e, ast.Dict): return {self.const(k): self.const(v) for k, v in zip(e.keys, e.values)}
        if isinstance(e, ast.ListComp): return [tuple(x) for x in self.const(e.generators[0].iter)]
        raise Skip(ast.dump(e))
    # params: ('own', coq variable) or ('of', name of the URL variable); url: ('url', coq variable)
    def params(self, e):
        if isinstance(e, ast.Name):
            v = self.env[e.id]
            if v[0] in ('own', 'of'): return v
        if isinstance(e, ast.Attribute) and e.attr == 'search_params': return ('of', e.value.id)
        raise Skip(ast.dump(e))
    def plist(self, e):
        p = self.params(e)
        return p[1] if p[0] == 'own' else '(o_list %s)' % self.env[p[1]][1]
    def url(self, e):
        if isinstance(e, ast.Name) and self.env[e.id][0] == 'url': return self.env[e.id][1]
        raise Skip(ast.dump(e))
    def make(self, e):
        """URLSearchParams(...), URL(...)"""
        f = e.func.id
        if f == 'URLSearchParams':
            if not e.args: a = 'ANone'
            else:
                try: a = arg(self.const(e.args[0]))
                except (Skip, KeyError):
                    if isinstance(e.args[0], ast.Name): a = '(AParams %s)' % self.plist(e.args[0])
                    else: a = '(AStr (%s))' % self.string(e.args[0])
            return ('own', self.bind('new_params %s' % a))
        if f in ('URL', '_b_url'):
            s = self.const(e.args[0])
            b = self.const(e.args[1]) if len(e.args) > 1 else 'about:blank' if f == '_b_url' else None
            return ('url', self.bind('new_url_object %s %s' % (text(s), 'BNone' if b is None else '(BStr %s)' % text(b))))
        raise Skip(f)
    def operate(self, e):
        p, m = self.params(e.func.value), e.func.attr
        a = [self.const(x) for x in e.args]
        op = {'append': lambda: 'OpAppend %s %s' % (text(a[0]), val(a[1])), 'set': lambda: 'OpSet %s %s' % (text(a[0]), val(a[1])),
              'delete': lambda: 'OpDelete %s %s' % (text(a[0]), opt(a[1]) if len(a) > 1 else 'None'), 'sort': lambda: 'OpSort'}[m]()
        if p[0] == 'own':
            new = self.bind('sp_apply (%s) %s' % (op, p[1]))
            for k, v in list(self.env.items()):
                if v == p: self.env[k] = ('own', new)
        else: self.env[p[1]] = ('url', self.bind('params_op doc_env (%s) %s' % (op, self.env[p[1]][1])))
    def string(self, e):
        """a Coq term of type str"""
        if isinstance(e, ast.Call) and isinstance(e.func, ast.Name) and e.func.id == 'str':
            try: return 'get_href %s' % self.url(e.args[0])
            except (Skip, KeyError): return 'sp_str %s' % self.plist(e.args[0])
        if isinstance(e, ast.BinOp): return 'match sp_add %s (AStr %s) with Some t => t | None => [0] end' % (self.plist(e.left), text(self.const(e.right)))
        if isinstance(e, ast.Attribute): return 'get_%s %s' % (e.attr, self.url(e.value))
        raise Skip(ast.dump(e))
    def claim(self, t):
        if isinstance(t, ast.UnaryOp): return 'negb (%s)' % self.claim(t.operand)
        if isinstance(t, ast.BoolOp): return ' && '.join('(%s)' % self.claim(v) for v in t.values)
        if isinstance(t, ast.Call) and isinstance(t.func, ast.Attribute) and t.func.attr == 'has':
            a = [self.const(x) for x in t.args]
            return 'sp_has %s %s %s' % (self.plist(t.func.value), text(a[0]), opt(a[1]) if len(a) > 1 else 'None')
        if isinstance(t, ast.Call) and t.func.id == 'isinstance': return 'true'   # see the length beside it
        l, op, r = t.left, t.ops[0], t.comparators[0]
        if isinstance(l, ast.Name) and l.id in self.env and self.env[l.id][0] == 'term': l = self.env[l.id][1]
        if isinstance(l, ast.Call) and isinstance(l.func, ast.Name) and l.func.id == 'len':
            x = l.args[0]
            if isinstance(x, ast.Name) and self.env.get(x.id, ('',))[0] == 'term':
                x = self.env[x.id][1]
                if x.func.attr == 'get': return 'option_eqb (sp_get %s %s) (Some (repeat 0 %d))' % (self.plist(x.func.value), text(self.const(x.args[0])), self.const(r))
                return 'Nat.eqb (length (sp_get_all %s %s)) %d' % (self.plist(x.func.value), text(self.const(x.args[0])), self.const(r))
            return 'Nat.eqb (length (%s)) %d' % (self.string(x), self.const(r))
        if isinstance(l, ast.Call) and isinstance(l.func, ast.Name) and l.func.id == 'list':
            return 'pairs_eqb %s [%s]' % (self.plist(l.args[0]), '; '.join('(%s, %s)' % (text(a), text(b)) for a, b in self.const(r)))
        if isinstance(l, ast.Call) and isinstance(l.func, ast.Attribute) and l.func.attr in ('get', 'get_all'):
            got = 'sp_%s %s %s' % (l.func.attr, self.plist(l.func.value), text(self.const(l.args[0])))
            want = self.const(r)
            if l.func.attr == 'get': return 'option_eqb (%s) %s' % (got, 'None' if want is None else '(Some %s)' % text(want))
            return 'strings_eqb (%s) [%s]' % (got, '; '.join(map(text, want)))
        if isinstance(l, ast.Call) and isinstance(l.func, ast.Attribute) and l.func.attr == 'can_parse':
            u, b = [self.const(x) for x in l.args]
            return 'can_is %s %s %s' % (text(u), 'BNone' if b is None else '(BStr %s)' % text(b), 'true' if self.const(r) else 'false')
        if isinstance(op, ast.Eq): return 'str_eqb (%s) %s' % (self.string(l), text(self.const(r)))
        raise Skip(ast.dump(t))
    def run(self, body):
        for s in body:
            if isinstance(s, ast.Expr) and isinstance(s.value, ast.Constant): continue
            if isinstance(s, ast.Assert):
                try: self.checks.append((s.lineno, self.claim(s.test)))
                except (Skip, KeyError, AttributeError, TypeError): self.left += 1
                continue
            if isinstance(s, ast.Assign):
                t, v = s.targets[-1], s.value
                if isinstance(t, ast.Attribute):
                    if t.attr == '__doc__' or isinstance(v, ast.JoinedStr): continue
                    u = self.url(t.value)
                    self.env[t.value.id] = ('url', self.bind('fst (set_attr doc_env (Set%s %s) %s)' % (t.attr.capitalize(), text(self.const(v)), u)))
                elif isinstance(v, ast.JoinedStr) or t.id == 'msg': pass
                elif isinstance(v, ast.Call) and isinstance(v.func, ast.Name): self.env[t.id] = self.make(v)
                elif isinstance(v, ast.Call): self.env[t.id] = ('term', v)
                elif isinstance(v, ast.Attribute): self.env[t.id] = self.params(v)
                else: self.env[t.id] = ('const', self.const(v))
                continue
            if isinstance(s, ast.Expr): self.operate(s.value); continue
            if isinstance(s, ast.With):
                c = s.items[0].context_expr
                if c.args[0].id == 'ValueError':
                    self.checks.append((s.lineno, 'is_value_error (sp_new doc_env pr %s)' % arg(self.const(s.body[0].value.args[0]))))
                else: self.left += 1
                continue
            raise Skip(ast.dump(s))

rows, left = [], 0
for f in files:
    tree = ast.parse(open(repo + '/tests/wpt/' + f, encoding='utf-8').read())
    consts = {}
    for d in tree.body:
        if isinstance(d, ast.Assign):
            try: consts[d.targets[0].id] = ('const', ast.literal_eval(d.value))
            except ValueError: pass
        if not (isinstance(d, ast.FunctionDef) and d.name.startswith('test_')): continue
        cases = [{}]
        for dec in d.decorator_list:
            names = ast.literal_eval(dec.args[0])
            data = consts[dec.args[1].id][1] if isinstance(dec.args[1], ast.Name) else ast.literal_eval(dec.args[1])
            cases = [dict(zip(names, row)) if isinstance(names, tuple) else {names: row} for row in data]
        for k, case in enumerate(cases):
            t = Test(consts); t.env.update({n: ('const', v) for n, v in case.items()})
            t.run(d.body)
            left += t.left
            if t.checks: rows.append((f, d.name, k if len(cases) > 1 else None, t))
with open(out, 'w') as v:
    v.write('''(** The tests of URLSearchParams, URL.search_params and URL.can_parse in /repo/tests/wpt as programs of the model,
    with their assertions. A check of the model, not a proof. Made by tools/paramtests.py. *)
From Coq Require Import Ascii String.
From Coq Require Import NArith ZArith Bool Arith List.
From Verif Require Import PyStr PyInt Codec Env HostModel UrlRecord Parser SearchParams UrlApi Args RecordedDocs.
Import ListNotations.
Open Scope N_scope.

Definition new_params (a : arg) : pairs := match sp_new doc_env pr a with Made l _ => l | _ => [([0], [0])] end.
Definition new_url_object (s : str) (b : base_arg) : urlobj := match url_new doc_env s b with Ok o => o | Err _ => mkobj new_url [([0], [0])] end.
Definition option_eqb (a b : option str) : bool := match a, b with None, None => true | Some a, Some b => str_eqb a b | _, _ => false end.
Fixpoint strings_eqb (a b : list str) : bool := match a, b with [], [] => true | x :: a, y :: b => str_eqb x y && strings_eqb a b | _, _ => false end.
Definition can_is (s : str) (b : base_arg) (r : bool) : bool := match can_parse doc_env s b with Ok x => Bool.eqb x r | Err _ => false end.
Definition is_value_error (m : made) : bool := match m with ValueErr _ => true | _ => false end.

(** the number is the line of the assertion that fails; none does *)
Definition failing (l : list (N * bool)) : list N := map fst (filter (fun x => negb (snd x)) l).
''')
    last = None
    for f, name, k, t in rows:
        if f != last: v.write('\n(** %s *)\n' % f); last = f
        v.write('Example %s_%s%s : failing (\n' % (f[5:-3], name[5:], '' if k is None else '_%d' % k))
        for n, term in t.lets: v.write('  let %s := %s in\n' % (n, term))
        v.write('  [%s]) = [].\nProof. vm_compute. reflexivity. Qed.\n' % ';\n   '.join('(%d, %s)' % c for c in t.checks))
print(len(rows), 'tests', sum(len(t.checks) for *_, t in rows), 'assertions', left, 'left out')
