import json
d=json.load(open('/repo/tests/wpt/resources/urltestdata.json',encoding='utf-8'))
def cps(s):
    # json surrogate pairs merged by python; lone remain
    return '['+';'.join(str(ord(c)) for c in s)+']'
def o(s): return 'None' if s is None else f'(Some {cps(s)})'
out=[]
for i,t in enumerate(d):
    if isinstance(t,str): continue
    if t.get('failure'):
        e='None'
    else:
        e=f"(Some {cps(t['href'])})"
    out.append(f"({i}, {cps(t['input'])}, {o(t.get('base'))}, {e})")
print("""From Coq Require Import Ascii String. From Coq Require Import NArith ZArith Bool List. From Verif Require Import PyStr PyInt Codec Env HostModel UrlRecord Parser. Import ListNotations. Open Scope N_scope.
Definition te : env := {| icu_to_ascii := fun o s => if forallb (fun c => c <? 128) s then IcuOk 0 (lower s) else IcuOk 128 []; icu_to_unicode := fun o s => IcuOk 0 s; codec := fun _ _ => None; uni_decimal := fun _ => None; uni_space := fun _ => false; uni_lower := fun c => [c]; int_limit := Some 4300; has_validity := false |}.
Definition tests : list (N * list N * option (list N) * option (list N)) := [""")
print(';\n'.join(out))
print("""].
Definition run1 (t : N * list N * option (list N) * option (list N)) :=
  let '(i,inp,base,exp) := t in
  let r := snd (parse_url te inp (match base with Some b => BStr b | None => BNone end) UTF8) in
  match r, exp with
  | Ok u, Some h => if str_eqb (href u) h then [] else [(i, inp, href u, Some h, 1)]
  | Err e, None => if is_url_error e then [] else [(i, inp, [], None, 2)]
  | Ok u, None => [(i,inp,href u,None,3)]
  | Err e, Some h => [(i,inp,[],Some h,4)]
  end.
Definition bad := flat_map run1 tests.
Eval vm_compute in (length tests).
Eval vm_compute in bad.
""")
