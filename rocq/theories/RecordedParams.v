(** Parsing and sorting of URLSearchParams, as recorded.
    Made by tools/recorded.py. *)
From Coq Require Import Ascii String.
From Coq Require Import NArith ZArith Bool Arith List.
From Verif Require Import PyStr PyInt Codec Env HostModel UrlRecord Parser SearchParams UrlApi Repr Message MsgHost MsgParser MsgApi Recorded.
Import ListNotations.
Open Scope N_scope.

Definition params_1 : list (list N * pairs) :=
  [($"test", [($"test", [])]);
   ([65279; 116; 101; 115; 116; 61; 65279], [([65279; 116; 101; 115; 116], [65279])]);
   ($"%EF%BB%BFtest=%EF%BB%BF", [([65279; 116; 101; 115; 116], [65279])]);
   ($"%EF%BF%BF=%EF%BF%BF", [([65535], [65535])]);
   ($"%FE%FF", [([65533; 65533], [])]);
   ($"%FF%FE", [([65533; 65533], [])]);
   ([8224; 38; 8224; 61; 120], [([8224], []); ([8224], $"x")]);
   ($"%C2", [([65533], [])]);
   ($"%C2x", [([65533; 120], [])]);
   ($"_charset_=windows-1252&test=%C2x", [($"_charset_", $"windows-1252"); ($"test", [65533; 120])]);
   ([], []);
   ($"a", [($"a", [])]);
   ($"a=b", [($"a", $"b")]);
   ($"a=", [($"a", [])]);
   ($"=b", [([], $"b")]);
   ($"&", []);
   ($"&a", [($"a", [])]);
   ($"a&", [($"a", [])]);
   ($"a&a", [($"a", []); ($"a", [])]);
   ($"a&b&c", [($"a", []); ($"b", []); ($"c", [])]);
   ($"a=b&c=d", [($"a", $"b"); ($"c", $"d")]);
   ($"a=b&c=d&", [($"a", $"b"); ($"c", $"d")]);
   ($"&&&a=b&&&&c=d&", [($"a", $"b"); ($"c", $"d")]);
   ($"a=a&a=b&a=c", [($"a", $"a"); ($"a", $"b"); ($"a", $"c")]);
   ($"a==a", [($"a", $"=a")]);
   ($"a=a+b+c+d", [($"a", $"a b c d")]);
   ($"%=a", [($"%", $"a")]);
   ($"%a=a", [($"%a", $"a")]);
   ($"%a_=a", [($"%a_", $"a")]);
   ($"%61=a", [($"a", $"a")]);
   ($"%61+%4d%4D=", [($"a MM", [])]);
   ($"id=0&value=%", [($"id", $"0"); ($"value", $"%")]);
   ($"b=%2sf%2a", [($"b", $"%2sf*")]);
   ($"b=%2%2af%2a", [($"b", $"%2*f*")]);
   ($"b=%%2a", [($"b", $"%*")])].
Example params_1_agree : forallb (fun r => pairs_eqb (sp_init_str (fst r)) (snd r)) params_1 = true.
Proof. vm_compute. reflexivity. Qed.

Definition sorts : list (list N * pairs) :=
  [($"z=b&a=b&z=a&a=a", [($"a", $"b"); ($"a", $"a"); ($"z", $"b"); ($"z", $"a")]);
   ([65533; 61; 120; 38; 65532; 38; 65533; 61; 97], [([65532], []); ([65533], $"x"); ([65533], $"a")]);
   ([64259; 38; 127752], [([127752], []); ([64259], [])]);
   ([233; 38; 101; 65533; 38; 101; 769], [([101; 769], []); ([101; 65533], []); ([233], [])]);
   ($"z=z&a=a&z=y&a=b&z=x&a=c&z=w&a=d&z=v&a=e&z=u&a=f&z=t&a=g", [($"a", $"a"); ($"a", $"b"); ($"a", $"c"); ($"a", $"d"); ($"a", $"e"); ($"a", $"f"); ($"a", $"g"); ($"z", $"z"); ($"z", $"y"); ($"z", $"x"); ($"z", $"w"); ($"z", $"v"); ($"z", $"u"); ($"z", $"t")]);
   ($"bbb&bb&aaa&aa=x&aa=y", [($"aa", $"x"); ($"aa", $"y"); ($"aaa", []); ($"bb", []); ($"bbb", [])]);
   ($"z=z&=f&=t&=x", [([], $"f"); ([], $"t"); ([], $"x"); ($"z", $"z")]);
   ([97; 127752; 38; 97; 128169], [([97; 127752], []); ([97; 128169], [])])].
Example sorts_agree : forallb (fun r => pairs_eqb (sp_sort (sp_init_str (fst r))) (snd r)) sorts = true.
Proof. vm_compute. reflexivity. Qed.
