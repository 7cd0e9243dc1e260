"""Random edits of the model, one token each, to find parts that no proof looks at.

  python3 automutate.py BASE WORK RESULTS.jsonl SEED PER_DEFINITION [FILE ...]

BASE is a copy of /verif/rocq as for mutate.py (with the axiom MUT), without the Recorded*.v files.
An edit counts as caught when the proof of a lemma or theorem no longer goes through; Examples that
fail are replaced by an appeal to MUT, since they are tests.  A proof that runs out of time
(outcome "time") shows nothing either way.  An edit after which everything still
builds is a survivor: either it does not change the meaning or the theorems have a gap.
"""
import hashlib, json, os, random, re, subprocess, sys, time
sys.path.insert(0, os.path.dirname(__file__))
from mutate import HEAD, sh, stub

FILES = 'Args UrlApi UrlRecord Validators Idna Message MsgApi Trace World Repr SearchParams HostModel Parser Codec PyStr PyInt Env MsgHost MsgParser MsgValidators HeapParser'.split()

def mask(s):
    """comments blanked out, same length"""
    out, depth, i, instr = list(s), 0, 0, False
    while i < len(s):
        if depth == 0 and s[i] == '"': instr = not instr
        if not instr and s.startswith('(*', i): depth += 1; out[i] = out[i + 1] = ' '; i += 2; continue
        if not instr and depth and s.startswith('*)', i): depth -= 1; out[i] = out[i + 1] = ' '; i += 2; continue
        if depth and s[i] != '\n': out[i] = ' '
        i += 1
    return ''.join(out)

OPS = [(r'&&', lambda m: '||'), (r'\|\|', lambda m: '&&'), (r'\bnegb\b', lambda m: '(fun b : bool => b)'),
       (r'(?<![<])=\?', lambda m: '<=?'), (r'<\?', lambda m: '<=?'), (r'<=\?', lambda m: '<?'),
       (r'\bstr_eqb\b', lambda m: '(fun a b => negb (str_eqb a b))'),
       (r'(?<![\w.#"])\d+(?![\w"])', lambda m: str(int(m.group()) + 1)), (r'\btrue\b', lambda m: 'false'), (r'\bfalse\b', lambda m: 'true'),
       (r'\$"([^"]*)"', lambda m: '$"' + (m.group(1)[:-1] if len(m.group(1)) > 1 else m.group(1) + 'x') + '"'),
       (r'\bif\b((?:(?!\b(?:if|then|match)\b)[^.;])*?)\bthen\b', lambda m: 'if negb (' + m.group(1) + ') then'),
       (r'\bforallb\b', lambda m: 'existsb'), (r'\bexistsb\b', lambda m: 'forallb'), (r'\brev\b', lambda m: '(fun x => x)'),
       (r'\bfirstn\b', lambda m: 'skipn'), (r'\bskipn\b', lambda m: 'firstn'),
       (r'\bS ', lambda m: '(fun n : nat => n) '), (r'(?<= )\+(?= )', lambda m: '-'), (r'(?<= )-(?= )', lambda m: '+'),
       (r'\bV[A-Z]\w+', lambda m: 'VInvalidUrlUnit' if m.group() != 'VInvalidUrlUnit' else 'VHostMissing'),
       (r'\b(EType|EValue|EAssert|EIndex|EKey)\b', lambda m: 'EType' if m.group() != 'EType' else 'EValue')]

def edits(f, s):
    """per definition the list of (position, old, new)"""
    t, res = mask(s), {}
    for d in re.finditer(r'^ *(?:Definition|Fixpoint|CoFixpoint|with)\s+(\w+)(.*?)\.(?=\s)', t, re.M | re.S):
        k = d.group(0).find(':=')
        if k < 0: continue
        lo, hi = d.start() + k + 2, d.end()
        l = []
        for pat, fn in OPS:
            for m in re.finditer(pat, t[lo:hi], re.S):
                new = fn(m)
                if new != m.group(): l.append((lo + m.start(), s[lo + m.start():lo + m.end()], new))
        if l: res[d.group(1)] = l
    return res

def run(base, work, f, s, e, limit=2400):
    subprocess.run(['rm', '-rf', work], check=True)
    subprocess.run(['cp', '-a', base, work], check=True)
    pos, old, new = e
    open(os.path.join(work, 'theories', f + '.v'), 'w').write(s[:pos] + new + s[pos + len(old):])
    start, examples = time.time(), []
    rc, out = sh('timeout 300 coqc -q -Q theories Verif theories/%s.v' % f, work, 310)
    if rc: return {'outcome': 'invalid', 'why': out[-200:]}
    while time.time() - start < limit:
        rc, out = sh('make -j%s COQC="timeout 400 coqc" 2>&1' % os.environ.get('MUTATE_JOBS', '2'), work, limit)
        if rc == 0: return {'outcome': 'survived', 'examples': examples, 'seconds': round(time.time() - start)}
        hang = re.findall(r'theories/(\w+)\.vo\] Error 124', out)
        if hang: return {'outcome': 'time', 'by': hang[0], 'examples': examples, 'seconds': round(time.time() - start)}
        progress = False
        for mod, ln in re.findall(r'File "\./theories/(\w+)\.v", line (\d+), characters \d+-\d+:\s*Error', out):
            p = os.path.join(work, 'theories', mod + '.v')
            lines = open(p).read().split('\n')
            i = int(ln) - 1
            while i >= 0 and not HEAD.match(lines[i]): i -= 1
            h = HEAD.match(lines[i]) if i >= 0 else None
            if not h or h.group(1) != 'Example':
                return {'outcome': 'caught', 'by': '%s.%s' % (mod, h.group(2) if h else ln), 'examples': examples, 'seconds': round(time.time() - start)}
            n = stub(p, int(ln))
            if n: examples.append(mod + '.' + n); progress = True
            else: return {'outcome': 'caught', 'by': '%s:%s' % (mod, ln), 'examples': examples, 'seconds': round(time.time() - start)}
        if not progress: return {'outcome': 'error', 'why': out[-300:]}
    return {'outcome': 'limit'}

if __name__ == '__main__':
    base, work, log, seed, per = sys.argv[1:6]
    done = set()
    if os.path.exists(log): done = {json.loads(l)['key'] for l in open(log)}
    for f in sys.argv[6:] or FILES:
        s = open(os.path.join(base, 'theories', f + '.v')).read()
        for name, l in edits(f, s).items():
            r = random.Random('%s %s %s' % (seed, f, name))
            for e in r.sample(l, min(int(per), len(l))):
                line = s[:e[0]].count('\n') + 1
                key = hashlib.sha1(('%s %s %d %s' % (f, name, e[0], e[2])).encode()).hexdigest()[:12]
                if key in done: continue
                rec = {'key': key, 'file': f, 'definition': name, 'line': line, 'text': s.split('\n')[line - 1].strip(), 'old': e[1], 'new': e[2]}
                rec.update(run(base, work, f, s, e))
                open(log, 'a').write(json.dumps(rec) + '\n')
                print(f, name, rec['line'], e[1], '->', e[2], rec['outcome'], rec.get('by', ''), rec.get('seconds', ''), flush=True)
