"""Mutation testing of the theorems, in a scratch copy.

  python3 mutate.py BASE WORK MUTATIONS.jsonl LOG.jsonl [ID ...]

BASE is a built copy of /verif/rocq in which PyStr.v ends with
"Axiom MUT : forall P : Prop, P.".  For each mutation the edited model is built in
WORK; a proof that no longer goes through is replaced by an appeal to MUT and the
build goes on (only what the property files of the claim need is built).  The property theorems whose Print Assumptions then lists MUT are
the ones the mutation broke.  Nothing in BASE or /verif/rocq is changed.
"""
import json, os, re, subprocess, sys, time, shutil

HEAD = re.compile(r'^\s*(?:Local |Global |#\[[^\]]*\] )?(Lemma|Theorem|Example|Corollary|Fact|Remark)\s+(\w+)')
END = re.compile(r'\b(Qed|Defined)\.')

def sh(cmd, cwd, timeout):
    try:
        r = subprocess.run(['timeout', '-k', '5', str(timeout), 'bash', '-c', cmd], cwd=cwd, stdout=subprocess.PIPE, stderr=subprocess.STDOUT)
        return r.returncode, r.stdout.decode(errors='replace')
    except Exception as e:
        return 1, str(e)

def stub(path, line):
    """replace the proof around [line] by an appeal to MUT; name of the lemma"""
    lines = open(path).read().split('\n')
    i = line - 1
    while i >= 0 and not HEAD.match(lines[i]): i -= 1
    if i < 0: return None
    name = HEAD.match(lines[i]).group(2)
    j = i
    while j < len(lines) and not END.search(lines[j]): j += 1
    if j < line - 1: return None
    text = '\n'.join(lines[i:j + 1])
    k = re.search(r'\bProof\b[^.]*\.', text)
    if not k: return None
    if line <= i + text[:k.start()].count('\n'): return None  # the statement itself
    if 'apply MUT' in text: return None
    new = text[:k.end()] + ' intros; apply MUT. Qed.'
    lines[i:j + 1] = [new]
    open(path, 'w').write('\n'.join(lines))
    return name

FILE_LIMIT, JOBS = 400, os.environ.get('MUTATE_JOBS', '2')

def hanging(work, f):
    """the line of the command of [f] that does not end"""
    rc, out = sh('timeout %d coqc -time -Q theories Verif %s' % (FILE_LIMIT, f), work, FILE_LIMIT + 10)
    ends = [int(x) for x in re.findall(r'^Chars \d+ - (\d+) ', out, re.M)]
    text = open(os.path.join(work, f), 'rb').read()[:(ends or [0])[-1]]
    return text.count(b'\n') + 1

def claim_files(work, claim):
    """the property files with the theorems of the claims (all, if there are none)"""
    t = os.path.join(work, 'theories')
    return [os.path.join('theories', f + 'o') for f in os.listdir(t) if re.match(r'Prop\w+\.v$', f) and
            any(re.search(r'^Theorem %s_' % c, open(os.path.join(t, f)).read(), re.M) for c in claim.split(','))]

def run(base, work, m, limit=4500):
    subprocess.run(['rm', '-rf', work], check=True)
    subprocess.run(['cp', '-a', base, work], check=True)
    p = os.path.join(work, 'theories', m['file'])
    s = open(p).read()
    if 'Axiom MUT' not in open(os.path.join(work, 'theories', 'PyStr.v')).read():
        return {'error': 'BASE has no MUT: no proof can be replaced'}
    if s.count(m['old']) != 1:
        return {'error': 'edit does not apply: %d matches' % s.count(m['old'])}
    open(p, 'w').write(s.replace(m['old'], m['new']))
    broken, stuck, start = [], [], time.time()
    targets = ' '.join(sorted(claim_files(work, m['claim'])))
    while time.time() - start < limit:
        rc, out = sh('make -k -j%s COQC="timeout %d coqc" %s 2>&1' % (JOBS, FILE_LIMIT, targets), work, int(limit))
        if rc == 0: break
        errs = re.findall(r'File "\./(theories/(\w+)\.v)", line (\d+), characters \d+-\d+:\s*Error', out)
        for f, mod in re.findall(r'(theories/(\w+)\.vo)\] Error 124', out):
            errs.append((f[:-1], mod, str(hanging(work, f[:-1]))))
        progress = False
        for f, mod, ln in dict(((e[0], e) for e in errs)).values():
            n = stub(os.path.join(work, f), int(ln))
            if n: broken.append('%s.%s' % (mod, n)); progress = True
            else: stuck.append('%s:%s' % (f, ln))
        if not progress:
            stuck.append(out[-600:] if not errs else '')
            break
    props = []
    for f in sorted(os.listdir(os.path.join(work, 'theories'))):
        if re.match(r'Prop\w+\.v$', f):
            for t in re.findall(r'^Theorem (\w+)', open(os.path.join(work, 'theories', f)).read(), re.M):
                props.append((f[:-2], t))
    built = [x for x in props if os.path.exists(os.path.join(work, 'theories', x[0] + '.vo')) and
             os.path.getmtime(os.path.join(work, 'theories', x[0] + '.vo')) >= os.path.getmtime(p)]
    dead = [t for x, t in props if (x, t) not in built]
    src = 'From Verif Require Import PyStr.\n' + ''.join('From Verif Require %s.\n' % x for x in dict.fromkeys(x for x, _ in built))
    src += ''.join('Print Assumptions Verif.%s.%s.\n' % x for x in built)
    open(os.path.join(work, 'chk.v'), 'w').write(src)
    rc, out = sh('coqc -Q theories Verif chk.v', work, 600)
    parts = re.findall(r'^(Closed under the global context|Axioms:(?:\n(?!Closed|Axioms:).*)*)', out, re.M)
    failed = [t for (x, t), r in zip(built, parts) if 'MUT' in r]
    if len(parts) != len(built): stuck.append('assumption check: ' + out[-300:])
    return {'broken_lemmas': broken, 'stuck': [x for x in stuck if x], 'failed': failed, 'not_built': dead, 'seconds': round(time.time() - start)}

if __name__ == '__main__':
    base, work, muts, log = sys.argv[1:5]
    only = set(sys.argv[5:])
    for l in open(muts):
        m = json.loads(l)
        if only and m['id'] not in only: continue
        r = run(base, work, m)
        rec = dict(m); rec.update(r)
        with open(log, 'a') as f: f.write(json.dumps(rec) + '\n')
        print(m['id'], json.dumps(r)[:700], flush=True)
