"""Write seeded/LOG.jsonl from the mutations and the results of mutate.py.

  python3 log_mutations.py MUTATIONS.jsonl RESULTS.jsonl TIGHTENED.json LOG.jsonl

TIGHTENED.json maps a mutation id to the theorems strengthened because of it.
A mutation is caught only if a theorem failed.  "not_checked" lists the theorems of
the files the claim does not need, which were not rebuilt: they count for neither
side.  A run that got stuck with no failed theorem is "inconclusive"."""
import json, os, sys
muts, results, tight, log = sys.argv[1:5]
M = {m['id']: m for m in map(json.loads, open(muts))}
T = json.load(open(tight)) if os.path.exists(tight) else {}
out = []
for r in map(json.loads, open(results)):
    m = M[r['id']]
    out.append({'id': m['id'], 'definition': '%s:%s' % (m['file'], m['definition']), 'edit': {'old': m['old'], 'new': m['new']},
                'why_wrong': m['why'], 'claim_it_breaks': m['claim'], 'theorems_failed': r.get('failed', []),
                'first_lemmas_broken': r.get('broken_lemmas', [])[:8], 'not_checked': r.get('not_built', []),
                'survived': not r.get('failed') and not r.get('stuck') and 'error' not in r,
                'inconclusive': not r.get('failed') and (bool(r.get('stuck')) or 'error' in r),
                'theorems_tightened': T.get(m['id'], []), **({'error': r['error']} if 'error' in r else {})})
with open(log, 'w') as f:
    for o in out: f.write(json.dumps(o) + '\n')
for o in out: print(o['id'], len(o['theorems_failed']), o['claim_it_breaks'], 'ok' if all(any(t.startswith(c.strip() + '_') for t in o['theorems_failed']) for c in o['claim_it_breaks'].split(',')) else 'CHECK', 'SURVIVED' if o['survived'] else 'INCONCLUSIVE' if o['inconclusive'] else '')
