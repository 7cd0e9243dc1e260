import json
d=json.load(open('/repo/tests/wpt/resources/setters_tests.json',encoding='utf-8'))
def cps(s): return '['+';'.join(str(ord(c)) for c in s)+']'
K={'protocol':'SetProtocol','username':'SetUsername','password':'SetPassword','host':'SetHost','hostname':'SetHostname','port':'SetPort','pathname':'SetPathname','search':'SetSearch','hash':'SetHash','href':'SetHref'}
G=dict(protocol='get_protocol',username='get_username',password='get_password',host='get_host',hostname='get_hostname',port='get_port',pathname='get_pathname',search='get_search',hash='get_hash',href='get_href')
out=[]
n=0; idx=[]
for k,v in d.items():
    if k not in K: continue
    for t in v:
        for a,e in t['expected'].items():
            out.append(f"({n}, {cps(t['href'])}, {K[k]} {cps(t['new_value'])}, {G[a]}, {cps(e)})"); idx.append((k,t,a,e)); n+=1
json.dump(idx,open('idx.json','w'))
print(open('wpt.v').read().split('Definition tests')[0].replace('Parser.','Parser SearchParams UrlApi.'))
print("Definition tests : list (N * list N * setter * (urlobj -> str) * list N) := [\n"+';\n'.join(out)+"].")
print("""Definition run1 (t : N * list N * setter * (urlobj -> str) * list N) :=
  let '(i,h,s,g,e) := t in
  match url_new te h BNone with Err _ => [(i,[])] | Ok o => let r := g (fst (set_attr te s o)) in if str_eqb r e then [] else [(i,r)] end.
Eval vm_compute in length tests. Eval vm_compute in flat_map run1 tests.""")
