(** The tests of URLSearchParams, URL.search_params and URL.can_parse in /repo/tests/wpt as programs of the model,
    with their assertions. A check of the model, not a proof. Made by tools/paramtests.py. *)
From Coq Require Import Ascii String.
From Coq Require Import NArith ZArith Bool Arith List.
From Verif Require Import PyStr PyInt Codec Env HostModel UrlRecord Parser SearchParams UrlApi Args RecordedDocs.
Import ListNotations.
Open Scope N_scope.

Definition new_params (a : arg) : pairs := match sp_new doc_env pr a with Made l _ => l | _ => [([0], [0])] end.
Definition new_url_object (s : str) (b : base_arg) : urlobj := match url_new doc_env s b with Ok o => o | Err _ => mkobj new_url [([0], [0])] end.
Definition option_eqb (a b : option str) : bool := match a, b with None, None => true | Some a, Some b => str_eqb a b | _, _ => false end.
Fixpoint strings_eqb (a b : list str) : bool := match a, b with [], [] => true | x :: a, y :: b => str_eqb x y && strings_eqb a b | _, _ => false end.
Definition can_is (s : str) (b : base_arg) (r : bool) : bool := match can_parse doc_env s b with Ok x => Bool.eqb x r | Err _ => false end.
Definition is_value_error (m : made) : bool := match m with ValueErr _ => true | _ => false end.

(** the number is the line of the assertion that fails; none does *)
Definition failing (l : list (N * bool)) : list N := map fst (filter (fun x => negb (snd x)) l).

(** test_urlsearchparams_append.py *)
Example urlsearchparams_append_append_same_name : failing (
  let x0 := new_params ANone in
  let x1 := sp_apply (OpAppend $"a" (PVStr $"b")) x0 in
  let x2 := sp_apply (OpAppend $"a" (PVStr $"b")) x1 in
  let x3 := sp_apply (OpAppend $"a" (PVStr $"c")) x2 in
  [(11, str_eqb (match sp_add x1 (AStr []) with Some t => t | None => [0] end) $"a=b");
   (13, str_eqb (match sp_add x2 (AStr []) with Some t => t | None => [0] end) $"a=b&a=b");
   (15, str_eqb (match sp_add x3 (AStr []) with Some t => t | None => [0] end) $"a=b&a=b&a=c")]) = [].
Proof. vm_compute. reflexivity. Qed.
Example urlsearchparams_append_append_empty_strings : failing (
  let x0 := new_params ANone in
  let x1 := sp_apply (OpAppend [] (PVStr [])) x0 in
  let x2 := sp_apply (OpAppend [] (PVStr [])) x1 in
  [(22, str_eqb (match sp_add x1 (AStr []) with Some t => t | None => [0] end) $"=");
   (24, str_eqb (match sp_add x2 (AStr []) with Some t => t | None => [0] end) $"=&=")]) = [].
Proof. vm_compute. reflexivity. Qed.
Example urlsearchparams_append_append_multiple : failing (
  let x0 := new_params ANone in
  let x1 := sp_apply (OpAppend $"first" (PVNum $"1")) x0 in
  let x2 := sp_apply (OpAppend $"second" (PVNum $"2")) x1 in
  let x3 := sp_apply (OpAppend $"third" (PVStr [])) x2 in
  let x4 := sp_apply (OpAppend $"first" (PVNum $"10")) x3 in
  let x5 := sp_apply (OpAppend $"first" (PVNum $"10")) x4 in
  [(37, sp_has x4 $"first" None);
   (38, option_eqb (sp_get x4 $"first") (Some $"1"));
   (39, option_eqb (sp_get x4 $"second") (Some $"2"));
   (41, (true) && (option_eqb (sp_get x4 $"third") (Some (repeat 0 0))));
   (43, option_eqb (sp_get x5 $"first") (Some $"1"))]) = [].
Proof. vm_compute. reflexivity. Qed.

(** test_urlsearchparams_constructor.py *)
Example urlsearchparams_constructor_basic_construction : failing (
  let x0 := new_params ANone in
  let x1 := new_params (AStr []) in
  let x2 := new_params (AStr $"a=b") in
  let x3 := new_params (AParams x2) in
  [(12, Nat.eqb (length (match sp_add x0 (AStr []) with Some t => t | None => [0] end)) 0);
   (14, Nat.eqb (length (match sp_add x1 (AStr []) with Some t => t | None => [0] end)) 0);
   (16, str_eqb (match sp_add x2 (AStr []) with Some t => t | None => [0] end) $"a=b");
   (18, str_eqb (match sp_add x3 (AStr []) with Some t => t | None => [0] end) $"a=b")]) = [].
Proof. vm_compute. reflexivity. Qed.
Example urlsearchparams_constructor_no_arguments : failing (
  let x0 := new_params ANone in
  [(24, Nat.eqb (length (sp_str x0)) 0)]) = [].
Proof. vm_compute. reflexivity. Qed.
Example urlsearchparams_constructor_remove_leading : failing (
  let x0 := new_params (AStr $"?a=b") in
  [(30, str_eqb (sp_str x0) $"a=b")]) = [].
Proof. vm_compute. reflexivity. Qed.
Example urlsearchparams_constructor_empty_string_as_argument : failing (
  let x0 := new_params (AStr []) in
  [(36, Nat.eqb (length (sp_str x0)) 0)]) = [].
Proof. vm_compute. reflexivity. Qed.
Example urlsearchparams_constructor_empty_dict_as_argument : failing (
  let x0 := new_params (ADict []) in
  [(42, Nat.eqb (length (match sp_add x0 (AStr []) with Some t => t | None => [0] end)) 0)]) = [].
Proof. vm_compute. reflexivity. Qed.
Example urlsearchparams_constructor_string : failing (
  let x0 := new_params (AStr $"a=b") in
  let x1 := new_params (AStr $"a=b&c") in
  let x2 := new_params (AStr $"&a&&& &&&&&a+b=& c&m%c3%b8%c3%b8") in
  let x3 := new_params (AStr $"id=0&value=%") in
  let x4 := new_params (AStr $"b=%2sf%2a") in
  let x5 := new_params (AStr $"b=%2%2af%2a") in
  let x6 := new_params (AStr $"b=%%2a") in
  [(48, sp_has x0 $"a" None);
   (49, negb (sp_has x0 $"b" None));
   (52, sp_has x1 $"a" None);
   (53, sp_has x1 $"c" None);
   (56, sp_has x2 $"a" None);
   (57, sp_has x2 $"a b" None);
   (58, sp_has x2 $" " None);
   (59, negb (sp_has x2 $"c" None));
   (60, sp_has x2 $" c" None);
   (61, sp_has x2 [109; 248; 248] None);
   (64, sp_has x3 $"id" None);
   (65, sp_has x3 $"value" None);
   (66, option_eqb (sp_get x3 $"id") (Some $"0"));
   (67, option_eqb (sp_get x3 $"value") (Some $"%"));
   (70, sp_has x4 $"b" None);
   (71, option_eqb (sp_get x4 $"b") (Some $"%2sf*"));
   (74, sp_has x5 $"b" None);
   (75, option_eqb (sp_get x5 $"b") (Some $"%2*f*"));
   (78, sp_has x6 $"b" None);
   (79, option_eqb (sp_get x6 $"b") (Some $"%*"))]) = [].
Proof. vm_compute. reflexivity. Qed.
Example urlsearchparams_constructor_object : failing (
  let x0 := new_params (AStr $"a=b&c=d") in
  let x1 := new_params (AParams x0) in
  let x2 := sp_apply (OpAppend $"e" (PVStr $"f")) x0 in
  let x3 := sp_apply (OpAppend $"g" (PVStr $"h")) x1 in
  [(86, option_eqb (sp_get x1 $"a") (Some $"b"));
   (87, option_eqb (sp_get x1 $"c") (Some $"d"));
   (88, negb (sp_has x1 $"d" None));
   (91, negb (sp_has x1 $"e" None));
   (93, negb (sp_has x2 $"g" None))]) = [].
Proof. vm_compute. reflexivity. Qed.
Example urlsearchparams_constructor_parse_plus : failing (
  let x0 := new_params (AStr $"a=b+c") in
  let x1 := new_params (AStr $"a+b=c") in
  [(99, option_eqb (sp_get x0 $"a") (Some $"b c"));
   (101, option_eqb (sp_get x1 $"a b") (Some $"c"))]) = [].
Proof. vm_compute. reflexivity. Qed.
Example urlsearchparams_constructor_parse_encoded_plus : failing (
  let x0 := new_params ANone in
  let x1 := sp_apply (OpSet $"query" (PVStr $"+15555555555")) x0 in
  let x2 := new_params (AStr (sp_str x1)) in
  [(111, str_eqb (sp_str x1) $"query=%2B15555555555");
   (112, option_eqb (sp_get x1 $"query") (Some $"+15555555555"));
   (113, option_eqb (sp_get x2 $"query") (Some $"+15555555555"))]) = [].
Proof. vm_compute. reflexivity. Qed.
Example urlsearchparams_constructor_parse_space : failing (
  let x0 := new_params (AStr $"a=b c") in
  let x1 := new_params (AStr $"a b=c") in
  [(119, option_eqb (sp_get x0 $"a") (Some $"b c"));
   (121, option_eqb (sp_get x1 $"a b") (Some $"c"))]) = [].
Proof. vm_compute. reflexivity. Qed.
Example urlsearchparams_constructor_parse_percent_encoded_20 : failing (
  let x0 := new_params (AStr $"a=b%20c") in
  let x1 := new_params (AStr $"a%20b=c") in
  [(127, option_eqb (sp_get x0 $"a") (Some $"b c"));
   (129, option_eqb (sp_get x1 $"a b") (Some $"c"))]) = [].
Proof. vm_compute. reflexivity. Qed.
Example urlsearchparams_constructor_parse_00 : failing (
  let x0 := new_params (AStr [97; 61; 98; 0; 99]) in
  let x1 := new_params (AStr [97; 0; 98; 61; 99]) in
  [(135, option_eqb (sp_get x0 $"a") (Some [98; 0; 99]));
   (137, option_eqb (sp_get x1 [97; 0; 98]) (Some $"c"))]) = [].
Proof. vm_compute. reflexivity. Qed.
Example urlsearchparams_constructor_parse_percent_encoded_00 : failing (
  let x0 := new_params (AStr $"a=b%00c") in
  let x1 := new_params (AStr $"a%00b=c") in
  [(143, option_eqb (sp_get x0 $"a") (Some [98; 0; 99]));
   (145, option_eqb (sp_get x1 [97; 0; 98]) (Some $"c"))]) = [].
Proof. vm_compute. reflexivity. Qed.
Example urlsearchparams_constructor_parse_2384 : failing (
  let x0 := new_params (AStr [97; 61; 98; 9092]) in
  let x1 := new_params (AStr [97; 9092; 98; 61; 99]) in
  [(151, option_eqb (sp_get x0 $"a") (Some [98; 9092]));
   (153, option_eqb (sp_get x1 [97; 9092; 98]) (Some $"c"))]) = [].
Proof. vm_compute. reflexivity. Qed.
Example urlsearchparams_constructor_parse_percent_encoded_2384 : failing (
  let x0 := new_params (AStr $"a=b%e2%8e%84") in
  let x1 := new_params (AStr $"a%e2%8e%84b=c") in
  [(159, option_eqb (sp_get x0 $"a") (Some [98; 9092]));
   (161, option_eqb (sp_get x1 [97; 9092; 98]) (Some $"c"))]) = [].
Proof. vm_compute. reflexivity. Qed.
Example urlsearchparams_constructor_parse_d83d_dca9 : failing (
  let x0 := new_params (AStr [97; 61; 98; 55357; 56489; 99]) in
  let x1 := new_params (AStr [97; 55357; 56489; 98; 61; 99]) in
  [(169, option_eqb (sp_get x0 $"a") (Some [98; 128169; 99]));
   (171, option_eqb (sp_get x1 [97; 55357; 56489; 98]) (Some $"c"))]) = [].
Proof. vm_compute. reflexivity. Qed.
Example urlsearchparams_constructor_parse_percent_encoded_d83d_dca9 : failing (
  let x0 := new_params (AStr $"a=b%f0%9f%92%a9c") in
  let x1 := new_params (AStr $"a%f0%9f%92%a9b=c") in
  [(179, option_eqb (sp_get x0 $"a") (Some [98; 128169; 99]));
   (181, option_eqb (sp_get x1 [97; 55357; 56489; 98]) (Some $"c"))]) = [].
Proof. vm_compute. reflexivity. Qed.
Example urlsearchparams_constructor_sequences_of_strings : failing (
  let x0 := new_params (ASeq false [(ASeq false [(AStr $"a"); (AStr $"b")]); (ASeq false [(AStr $"c"); (AStr $"d")])]) in
  [(187, option_eqb (sp_get x0 $"a") (Some $"b"));
   (188, option_eqb (sp_get x0 $"c") (Some $"d"));
   (189, is_value_error (sp_new doc_env pr (ASeq false [(ASeq false [(ANum $"int" (Some $"1"))])])));
   (191, is_value_error (sp_new doc_env pr (ASeq false [(ASeq false [(ANum $"int" (Some $"1")); (ANum $"int" (Some $"2")); (ANum $"int" (Some $"3"))])])))]) = [].
Proof. vm_compute. reflexivity. Qed.
Example urlsearchparams_constructor_construct_with_0 : failing (
  let x0 := new_params (ADict [((AStr $"+"), (AStr $"%C2"))]) in
  [(234, pairs_eqb x0 [($"+", $"%C2")])]) = [].
Proof. vm_compute. reflexivity. Qed.
Example urlsearchparams_constructor_construct_with_1 : failing (
  let x0 := new_params (ADict [((AStr $"c"), (AStr $"x")); ((AStr $"a"), (AStr $"?"))]) in
  [(234, pairs_eqb x0 [($"c", $"x"); ($"a", $"?")])]) = [].
Proof. vm_compute. reflexivity. Qed.
Example urlsearchparams_constructor_construct_with_2 : failing (
  let x0 := new_params (ASeq false [(ASeq false [(AStr $"c"); (AStr $"x")]); (ASeq false [(AStr $"a"); (AStr $"?")])]) in
  [(234, pairs_eqb x0 [($"c", $"x"); ($"a", $"?")])]) = [].
Proof. vm_compute. reflexivity. Qed.
Example urlsearchparams_constructor_construct_with_3 : failing (
  let x0 := new_params (ADict [((AStr [55349; 120]), (AStr $"1")); ((AStr $"xx"), (AStr $"2")); ((AStr [55357; 120]), (AStr $"3"))]) in
  [(234, pairs_eqb x0 [([65533; 120], $"3"); ($"xx", $"2")])]) = [].
Proof. vm_compute. reflexivity. Qed.
Example urlsearchparams_constructor_construct_with_4 : failing (
  let x0 := new_params (ADict [((AStr [120; 56403]), (AStr $"1")); ((AStr [120; 56412]), (AStr $"2")); ((AStr [120; 56421]), (AStr $"3"))]) in
  [(234, pairs_eqb x0 [([120; 65533], $"3")])]) = [].
Proof. vm_compute. reflexivity. Qed.
Example urlsearchparams_constructor_construct_with_5 : failing (
  let x0 := new_params (ADict [((AStr [97; 0; 98]), (AStr $"42")); ((AStr [99; 55357]), (AStr $"23")); ((AStr [100; 4660]), (AStr $"foo"))]) in
  [(234, pairs_eqb x0 [([97; 0; 98], $"42"); ([99; 65533], $"23"); ([100; 4660], $"foo")])]) = [].
Proof. vm_compute. reflexivity. Qed.

(** test_urlsearchparams_delete.py *)
Example urlsearchparams_delete_delete_basics : failing (
  let x0 := new_params (AStr $"a=b&c=d") in
  let x1 := sp_apply (OpDelete $"a" None) x0 in
  let x2 := new_params (AStr $"a=a&b=b&a=a&c=c") in
  let x3 := sp_apply (OpDelete $"a" None) x2 in
  let x4 := new_params (AStr $"a=a&=&b=b&c=c") in
  let x5 := sp_apply (OpDelete [] None) x4 in
  [(11, str_eqb (match sp_add x1 (AStr []) with Some t => t | None => [0] end) $"c=d");
   (15, str_eqb (match sp_add x3 (AStr []) with Some t => t | None => [0] end) $"b=b&c=c");
   (19, str_eqb (match sp_add x5 (AStr []) with Some t => t | None => [0] end) $"a=a&b=b&c=c")]) = [].
Proof. vm_compute. reflexivity. Qed.
Example urlsearchparams_delete_deleting_appended_multiple : failing (
  let x0 := new_params ANone in
  let x1 := sp_apply (OpAppend $"first" (PVStr $"1")) x0 in
  let x2 := sp_apply (OpDelete $"first" None) x1 in
  let x3 := sp_apply (OpAppend $"first" (PVStr $"1")) x2 in
  let x4 := sp_apply (OpAppend $"first" (PVStr $"10")) x3 in
  let x5 := sp_apply (OpDelete $"first" None) x4 in
  [(28, sp_has x1 $"first" None);
   (29, option_eqb (sp_get x1 $"first") (Some $"1"));
   (32, negb (sp_has x2 $"first" None));
   (37, negb (sp_has x5 $"first" None))]) = [].
Proof. vm_compute. reflexivity. Qed.
Example urlsearchparams_delete_deleting_all_params : failing (
  let x0 := new_url_object $"http://example.com/?param1&param2" BNone in
  let x1 := params_op doc_env (OpDelete $"param1" None) x0 in
  let x2 := params_op doc_env (OpDelete $"param2" None) x1 in
  [(45, str_eqb (get_href x2) $"http://example.com/");
   (46, Nat.eqb (length (get_search x2)) 0)]) = [].
Proof. vm_compute. reflexivity. Qed.
Example urlsearchparams_delete_removing_non_existent_param : failing (
  let x0 := new_url_object $"http://example.com/?" BNone in
  let x1 := params_op doc_env (OpDelete $"param1" None) x0 in
  [(53, str_eqb (get_href x1) $"http://example.com/");
   (54, Nat.eqb (length (get_search x1)) 0)]) = [].
Proof. vm_compute. reflexivity. Qed.
Example urlsearchparams_delete_changing_query_of_url_with_opaque_path : failing (
  let x0 := new_url_object $"data:space    ?test" BNone in
  let x1 := params_op doc_env (OpDelete $"test" None) x0 in
  [(60, sp_has (o_list x0) $"test" None);
   (62, negb (sp_has (o_list x1) $"test" None));
   (63, Nat.eqb (length (get_search x1)) 0);
   (64, str_eqb (get_pathname x1) $"space");
   (65, str_eqb (get_href x1) $"data:space")]) = [].
Proof. vm_compute. reflexivity. Qed.
Example urlsearchparams_delete_changing_query_of_url_with_opaque_path_no_fragment : failing (
  let x0 := new_url_object $"data:space    ?test#test" BNone in
  let x1 := params_op doc_env (OpDelete $"test" None) x0 in
  [(74, Nat.eqb (length (get_search x1)) 0);
   (75, str_eqb (get_pathname x1) $"space    ");
   (76, str_eqb (get_href x1) $"data:space    #test")]) = [].
Proof. vm_compute. reflexivity. Qed.
Example urlsearchparams_delete_two_argument_delete : failing (
  let x0 := new_params ANone in
  let x1 := sp_apply (OpAppend $"a" (PVStr $"b")) x0 in
  let x2 := sp_apply (OpAppend $"a" (PVStr $"c")) x1 in
  let x3 := sp_apply (OpAppend $"a" (PVStr $"d")) x2 in
  let x4 := sp_apply (OpDelete $"a" (Some (PVStr $"c"))) x3 in
  [(86, str_eqb (sp_str x4) $"a=b&a=d")]) = [].
Proof. vm_compute. reflexivity. Qed.

(** test_urlsearchparams_get.py *)
Example urlsearchparams_get_get_basics : failing (
  let x0 := new_params (AStr $"a=b&c=d") in
  let x1 := new_params (AStr $"a=b&c=d&a=e") in
  let x2 := new_params (AStr $"=b&c=d") in
  let x3 := new_params (AStr $"a=&c=d&a=e") in
  [(10, option_eqb (sp_get x0 $"a") (Some $"b"));
   (11, option_eqb (sp_get x0 $"c") (Some $"d"));
   (12, option_eqb (sp_get x0 $"e") None);
   (14, option_eqb (sp_get x1 $"a") (Some $"b"));
   (16, option_eqb (sp_get x2 []) (Some $"b"));
   (19, (true) && (option_eqb (sp_get x3 $"a") (Some (repeat 0 0))))]) = [].
Proof. vm_compute. reflexivity. Qed.
Example urlsearchparams_get_more_get_basics : failing (
  let x0 := new_params (AStr $"first=second&third&&") in
  [(25, sp_has x0 $"first" None);
   (26, option_eqb (sp_get x0 $"first") (Some $"second"));
   (28, (true) && (option_eqb (sp_get x0 $"third") (Some (repeat 0 0))));
   (29, option_eqb (sp_get x0 $"fourth") None)]) = [].
Proof. vm_compute. reflexivity. Qed.

(** test_urlsearchparams_getall.py *)
Example urlsearchparams_getall_get_all_basics : failing (
  let x0 := new_params (AStr $"a=b&c=d") in
  let x1 := new_params (AStr $"a=b&c=d&a=e") in
  let x2 := new_params (AStr $"=b&c=d") in
  let x3 := new_params (AStr $"a=&c=d&a=e") in
  [(10, strings_eqb (sp_get_all x0 $"a") [$"b"]);
   (11, strings_eqb (sp_get_all x0 $"c") [$"d"]);
   (12, strings_eqb (sp_get_all x0 $"e") []);
   (14, strings_eqb (sp_get_all x1 $"a") [$"b"; $"e"]);
   (16, strings_eqb (sp_get_all x2 []) [$"b"]);
   (18, strings_eqb (sp_get_all x3 $"a") [[]; $"e"])]) = [].
Proof. vm_compute. reflexivity. Qed.
Example urlsearchparams_getall_get_all_multiples : failing (
  let x0 := new_params (AStr $"a=1&a=2&a=3&a") in
  let x1 := sp_apply (OpSet $"a" (PVStr $"one")) x0 in
  [(24, sp_has x0 $"a" None);
   (26, Nat.eqb (length (sp_get_all x0 $"a")) 4);
   (27, strings_eqb (sp_get_all x0 $"a") [$"1"; $"2"; $"3"; []]);
   (34, option_eqb (sp_get x1 $"a") (Some $"one"));
   (36, Nat.eqb (length (sp_get_all x1 $"a")) 1);
   (37, strings_eqb (sp_get_all x1 $"a") [$"one"])]) = [].
Proof. vm_compute. reflexivity. Qed.

(** test_urlsearchparams_has.py *)
Example urlsearchparams_has_has_basics : failing (
  let x0 := new_params (AStr $"a=b&c=d") in
  let x1 := new_params (AStr $"a=b&c=d&a=e") in
  let x2 := new_params (AStr $"=b&c=d") in
  [(10, sp_has x0 $"a" None);
   (11, sp_has x0 $"c" None);
   (12, negb (sp_has x0 $"e" None));
   (14, sp_has x1 $"a" None);
   (16, sp_has x2 [] None)]) = [].
Proof. vm_compute. reflexivity. Qed.
Example urlsearchparams_has_has_following_delete : failing (
  let x0 := new_params (AStr $"a=b&c=d&&") in
  let x1 := sp_apply (OpAppend $"first" (PVNum $"1")) x0 in
  let x2 := sp_apply (OpAppend $"first" (PVNum $"2")) x1 in
  let x3 := sp_apply (OpDelete $"first" None) x2 in
  [(27, sp_has x2 $"a" None);
   (28, sp_has x2 $"c" None);
   (29, sp_has x2 $"first" None);
   (30, negb (sp_has x2 $"d" None));
   (32, negb (sp_has x3 $"first" None))]) = [].
Proof. vm_compute. reflexivity. Qed.
Example urlsearchparams_has_two_argument_has : failing (
  let x0 := new_params (AStr $"a=b&a=d&c&e&") in
  let x1 := sp_apply (OpDelete $"a" (Some (PVStr $"b"))) x0 in
  [(38, sp_has x0 $"a" (Some (PVStr $"b")));
   (39, negb (sp_has x0 $"a" (Some (PVStr $"c"))));
   (40, sp_has x0 $"a" (Some (PVStr $"d")));
   (41, sp_has x0 $"e" (Some (PVStr [])));
   (46, sp_has x1 $"a" (Some (PVStr $"d")))]) = [].
Proof. vm_compute. reflexivity. Qed.

(** test_urlsearchparams_set.py *)
Example urlsearchparams_set_set_basics : failing (
  let x0 := new_params (AStr $"a=b&c=d") in
  let x1 := sp_apply (OpSet $"a" (PVStr $"B")) x0 in
  let x2 := new_params (AStr $"a=b&c=d&a=e") in
  let x3 := sp_apply (OpSet $"a" (PVStr $"B")) x2 in
  let x4 := sp_apply (OpSet $"e" (PVStr $"f")) x3 in
  [(11, str_eqb (match sp_add x1 (AStr []) with Some t => t | None => [0] end) $"a=B&c=d");
   (14, str_eqb (match sp_add x3 (AStr []) with Some t => t | None => [0] end) $"a=B&c=d");
   (16, str_eqb (match sp_add x4 (AStr []) with Some t => t | None => [0] end) $"a=B&c=d&e=f")]) = [].
Proof. vm_compute. reflexivity. Qed.
Example urlsearchparams_set_url_search_params_set : failing (
  let x0 := new_params (AStr $"a=1&a=2&a=3") in
  let x1 := sp_apply (OpSet $"first" (PVNum $"4")) x0 in
  let x2 := sp_apply (OpSet $"a" (PVNum $"4")) x1 in
  [(22, sp_has x0 $"a" None);
   (23, option_eqb (sp_get x0 $"a") (Some $"1"));
   (25, sp_has x1 $"a" None);
   (26, option_eqb (sp_get x1 $"a") (Some $"1"));
   (28, sp_has x2 $"a" None);
   (29, option_eqb (sp_get x2 $"a") (Some $"4"))]) = [].
Proof. vm_compute. reflexivity. Qed.

(** test_urlsearchparams_sort.py *)
Example urlsearchparams_sort_parse_and_sort_0 : failing (
  let x0 := new_params (AStr $"z=b&a=b&z=a&a=a") in
  let x1 := sp_apply (OpSort) x0 in
  [(69, pairs_eqb x1 [($"a", $"b"); ($"a", $"a"); ($"z", $"b"); ($"z", $"a")])]) = [].
Proof. vm_compute. reflexivity. Qed.
Example urlsearchparams_sort_parse_and_sort_1 : failing (
  let x0 := new_params (AStr [65533; 61; 120; 38; 65532; 38; 65533; 61; 97]) in
  let x1 := sp_apply (OpSort) x0 in
  [(69, pairs_eqb x1 [([65532], []); ([65533], $"x"); ([65533], $"a")])]) = [].
Proof. vm_compute. reflexivity. Qed.
Example urlsearchparams_sort_parse_and_sort_2 : failing (
  let x0 := new_params (AStr [64259; 38; 127752]) in
  let x1 := sp_apply (OpSort) x0 in
  [(69, pairs_eqb x1 [([127752], []); ([64259], [])])]) = [].
Proof. vm_compute. reflexivity. Qed.
Example urlsearchparams_sort_parse_and_sort_3 : failing (
  let x0 := new_params (AStr [233; 38; 101; 65533; 38; 101; 769]) in
  let x1 := sp_apply (OpSort) x0 in
  [(69, pairs_eqb x1 [([101; 769], []); ([101; 65533], []); ([233], [])])]) = [].
Proof. vm_compute. reflexivity. Qed.
Example urlsearchparams_sort_parse_and_sort_4 : failing (
  let x0 := new_params (AStr $"z=z&a=a&z=y&a=b&z=x&a=c&z=w&a=d&z=v&a=e&z=u&a=f&z=t&a=g") in
  let x1 := sp_apply (OpSort) x0 in
  [(69, pairs_eqb x1 [($"a", $"a"); ($"a", $"b"); ($"a", $"c"); ($"a", $"d"); ($"a", $"e"); ($"a", $"f"); ($"a", $"g"); ($"z", $"z"); ($"z", $"y"); ($"z", $"x"); ($"z", $"w"); ($"z", $"v"); ($"z", $"u"); ($"z", $"t")])]) = [].
Proof. vm_compute. reflexivity. Qed.
Example urlsearchparams_sort_parse_and_sort_5 : failing (
  let x0 := new_params (AStr $"bbb&bb&aaa&aa=x&aa=y") in
  let x1 := sp_apply (OpSort) x0 in
  [(69, pairs_eqb x1 [($"aa", $"x"); ($"aa", $"y"); ($"aaa", []); ($"bb", []); ($"bbb", [])])]) = [].
Proof. vm_compute. reflexivity. Qed.
Example urlsearchparams_sort_parse_and_sort_6 : failing (
  let x0 := new_params (AStr $"z=z&=f&=t&=x") in
  let x1 := sp_apply (OpSort) x0 in
  [(69, pairs_eqb x1 [([], $"f"); ([], $"t"); ([], $"x"); ($"z", $"z")])]) = [].
Proof. vm_compute. reflexivity. Qed.
Example urlsearchparams_sort_parse_and_sort_7 : failing (
  let x0 := new_params (AStr [97; 127752; 38; 97; 128169]) in
  let x1 := sp_apply (OpSort) x0 in
  [(69, pairs_eqb x1 [([97; 127752], []); ([97; 128169], [])])]) = [].
Proof. vm_compute. reflexivity. Qed.
Example urlsearchparams_sort_url_parse_and_sort_0 : failing (
  let x0 := new_url_object $"?z=b&a=b&z=a&a=a" (BStr $"https://example/") in
  let x1 := params_op doc_env (OpSort) x0 in
  let x2 := new_params (AStr (get_search x1)) in
  [(80, pairs_eqb x2 [($"a", $"b"); ($"a", $"a"); ($"z", $"b"); ($"z", $"a")])]) = [].
Proof. vm_compute. reflexivity. Qed.
Example urlsearchparams_sort_url_parse_and_sort_1 : failing (
  let x0 := new_url_object [63; 65533; 61; 120; 38; 65532; 38; 65533; 61; 97] (BStr $"https://example/") in
  let x1 := params_op doc_env (OpSort) x0 in
  let x2 := new_params (AStr (get_search x1)) in
  [(80, pairs_eqb x2 [([65532], []); ([65533], $"x"); ([65533], $"a")])]) = [].
Proof. vm_compute. reflexivity. Qed.
Example urlsearchparams_sort_url_parse_and_sort_2 : failing (
  let x0 := new_url_object [63; 64259; 38; 127752] (BStr $"https://example/") in
  let x1 := params_op doc_env (OpSort) x0 in
  let x2 := new_params (AStr (get_search x1)) in
  [(80, pairs_eqb x2 [([127752], []); ([64259], [])])]) = [].
Proof. vm_compute. reflexivity. Qed.
Example urlsearchparams_sort_url_parse_and_sort_3 : failing (
  let x0 := new_url_object [63; 233; 38; 101; 65533; 38; 101; 769] (BStr $"https://example/") in
  let x1 := params_op doc_env (OpSort) x0 in
  let x2 := new_params (AStr (get_search x1)) in
  [(80, pairs_eqb x2 [([101; 769], []); ([101; 65533], []); ([233], [])])]) = [].
Proof. vm_compute. reflexivity. Qed.
Example urlsearchparams_sort_url_parse_and_sort_4 : failing (
  let x0 := new_url_object $"?z=z&a=a&z=y&a=b&z=x&a=c&z=w&a=d&z=v&a=e&z=u&a=f&z=t&a=g" (BStr $"https://example/") in
  let x1 := params_op doc_env (OpSort) x0 in
  let x2 := new_params (AStr (get_search x1)) in
  [(80, pairs_eqb x2 [($"a", $"a"); ($"a", $"b"); ($"a", $"c"); ($"a", $"d"); ($"a", $"e"); ($"a", $"f"); ($"a", $"g"); ($"z", $"z"); ($"z", $"y"); ($"z", $"x"); ($"z", $"w"); ($"z", $"v"); ($"z", $"u"); ($"z", $"t")])]) = [].
Proof. vm_compute. reflexivity. Qed.
Example urlsearchparams_sort_url_parse_and_sort_5 : failing (
  let x0 := new_url_object $"?bbb&bb&aaa&aa=x&aa=y" (BStr $"https://example/") in
  let x1 := params_op doc_env (OpSort) x0 in
  let x2 := new_params (AStr (get_search x1)) in
  [(80, pairs_eqb x2 [($"aa", $"x"); ($"aa", $"y"); ($"aaa", []); ($"bb", []); ($"bbb", [])])]) = [].
Proof. vm_compute. reflexivity. Qed.
Example urlsearchparams_sort_url_parse_and_sort_6 : failing (
  let x0 := new_url_object $"?z=z&=f&=t&=x" (BStr $"https://example/") in
  let x1 := params_op doc_env (OpSort) x0 in
  let x2 := new_params (AStr (get_search x1)) in
  [(80, pairs_eqb x2 [([], $"f"); ([], $"t"); ([], $"x"); ($"z", $"z")])]) = [].
Proof. vm_compute. reflexivity. Qed.
Example urlsearchparams_sort_url_parse_and_sort_7 : failing (
  let x0 := new_url_object [63; 97; 127752; 38; 97; 128169] (BStr $"https://example/") in
  let x1 := params_op doc_env (OpSort) x0 in
  let x2 := new_params (AStr (get_search x1)) in
  [(80, pairs_eqb x2 [([97; 127752], []); ([97; 128169], [])])]) = [].
Proof. vm_compute. reflexivity. Qed.
Example urlsearchparams_sort_sorting_non_existent_params : failing (
  let x0 := new_url_object $"http://example.com/?" BNone in
  let x1 := params_op doc_env (OpSort) x0 in
  [(87, str_eqb (get_href x1) $"http://example.com/");
   (88, Nat.eqb (length (get_search x1)) 0)]) = [].
Proof. vm_compute. reflexivity. Qed.

(** test_urlsearchparams_stringifier.py *)
Example urlsearchparams_stringifier_serialize_space : failing (
  let x0 := new_params ANone in
  let x1 := sp_apply (OpAppend $"a" (PVStr $"b c")) x0 in
  let x2 := sp_apply (OpDelete $"a" None) x1 in
  let x3 := sp_apply (OpAppend $"a b" (PVStr $"c")) x2 in
  [(11, str_eqb (match sp_add x1 (AStr []) with Some t => t | None => [0] end) $"a=b+c");
   (14, str_eqb (match sp_add x3 (AStr []) with Some t => t | None => [0] end) $"a+b=c")]) = [].
Proof. vm_compute. reflexivity. Qed.
Example urlsearchparams_stringifier_serialize_empty_value : failing (
  let x0 := new_params ANone in
  let x1 := sp_apply (OpAppend $"a" (PVStr [])) x0 in
  let x2 := sp_apply (OpAppend $"a" (PVStr [])) x1 in
  let x3 := sp_apply (OpAppend [] (PVStr $"b")) x2 in
  let x4 := sp_apply (OpAppend [] (PVStr [])) x3 in
  let x5 := sp_apply (OpAppend [] (PVStr [])) x4 in
  [(21, str_eqb (match sp_add x1 (AStr []) with Some t => t | None => [0] end) $"a=");
   (23, str_eqb (match sp_add x2 (AStr []) with Some t => t | None => [0] end) $"a=&a=");
   (25, str_eqb (match sp_add x3 (AStr []) with Some t => t | None => [0] end) $"a=&a=&=b");
   (27, str_eqb (match sp_add x4 (AStr []) with Some t => t | None => [0] end) $"a=&a=&=b&=");
   (29, str_eqb (match sp_add x5 (AStr []) with Some t => t | None => [0] end) $"a=&a=&=b&=&=")]) = [].
Proof. vm_compute. reflexivity. Qed.
Example urlsearchparams_stringifier_serialize_empty_name : failing (
  let x0 := new_params ANone in
  let x1 := sp_apply (OpAppend [] (PVStr $"b")) x0 in
  let x2 := sp_apply (OpAppend [] (PVStr $"b")) x1 in
  [(36, str_eqb (match sp_add x1 (AStr []) with Some t => t | None => [0] end) $"=b");
   (38, str_eqb (match sp_add x2 (AStr []) with Some t => t | None => [0] end) $"=b&=b")]) = [].
Proof. vm_compute. reflexivity. Qed.
Example urlsearchparams_stringifier_serialize_empty_name_and_value : failing (
  let x0 := new_params ANone in
  let x1 := sp_apply (OpAppend [] (PVStr [])) x0 in
  let x2 := sp_apply (OpAppend [] (PVStr [])) x1 in
  [(45, str_eqb (match sp_add x1 (AStr []) with Some t => t | None => [0] end) $"=");
   (47, str_eqb (match sp_add x2 (AStr []) with Some t => t | None => [0] end) $"=&=")]) = [].
Proof. vm_compute. reflexivity. Qed.
Example urlsearchparams_stringifier_serialize_plus : failing (
  let x0 := new_params ANone in
  let x1 := sp_apply (OpAppend $"a" (PVStr $"b+c")) x0 in
  let x2 := sp_apply (OpDelete $"a" None) x1 in
  let x3 := sp_apply (OpAppend $"a+b" (PVStr $"c")) x2 in
  [(54, str_eqb (match sp_add x1 (AStr []) with Some t => t | None => [0] end) $"a=b%2Bc");
   (57, str_eqb (match sp_add x3 (AStr []) with Some t => t | None => [0] end) $"a%2Bb=c")]) = [].
Proof. vm_compute. reflexivity. Qed.
Example urlsearchparams_stringifier_serialize_equal : failing (
  let x0 := new_params ANone in
  let x1 := sp_apply (OpAppend $"=" (PVStr $"a")) x0 in
  let x2 := sp_apply (OpAppend $"b" (PVStr $"=")) x1 in
  [(64, str_eqb (match sp_add x1 (AStr []) with Some t => t | None => [0] end) $"%3D=a");
   (66, str_eqb (match sp_add x2 (AStr []) with Some t => t | None => [0] end) $"%3D=a&b=%3D")]) = [].
Proof. vm_compute. reflexivity. Qed.
Example urlsearchparams_stringifier_serialize_ampersand : failing (
  let x0 := new_params ANone in
  let x1 := sp_apply (OpAppend $"&" (PVStr $"a")) x0 in
  let x2 := sp_apply (OpAppend $"b" (PVStr $"&")) x1 in
  [(73, str_eqb (match sp_add x1 (AStr []) with Some t => t | None => [0] end) $"%26=a");
   (75, str_eqb (match sp_add x2 (AStr []) with Some t => t | None => [0] end) $"%26=a&b=%26")]) = [].
Proof. vm_compute. reflexivity. Qed.
Example urlsearchparams_stringifier_serialize_safe_characters : failing (
  let x0 := new_params ANone in
  let x1 := sp_apply (OpAppend $"a" (PVStr $"*-._")) x0 in
  let x2 := sp_apply (OpDelete $"a" None) x1 in
  let x3 := sp_apply (OpAppend $"*-._" (PVStr $"c")) x2 in
  [(82, str_eqb (match sp_add x1 (AStr []) with Some t => t | None => [0] end) $"a=*-._");
   (85, str_eqb (match sp_add x3 (AStr []) with Some t => t | None => [0] end) $"*-._=c")]) = [].
Proof. vm_compute. reflexivity. Qed.
Example urlsearchparams_stringifier_serialize_percent : failing (
  let x0 := new_params ANone in
  let x1 := sp_apply (OpAppend $"a" (PVStr $"b%c")) x0 in
  let x2 := sp_apply (OpDelete $"a" None) x1 in
  let x3 := sp_apply (OpAppend $"a%b" (PVStr $"c")) x2 in
  let x4 := new_params (AStr $"id=0&value=%") in
  [(92, str_eqb (match sp_add x1 (AStr []) with Some t => t | None => [0] end) $"a=b%25c");
   (95, str_eqb (match sp_add x3 (AStr []) with Some t => t | None => [0] end) $"a%25b=c");
   (98, str_eqb (match sp_add x4 (AStr []) with Some t => t | None => [0] end) $"id=0&value=%25")]) = [].
Proof. vm_compute. reflexivity. Qed.
Example urlsearchparams_stringifier_serialize_00 : failing (
  let x0 := new_params ANone in
  let x1 := sp_apply (OpAppend $"a" (PVStr [98; 0; 99])) x0 in
  let x2 := sp_apply (OpDelete $"a" None) x1 in
  let x3 := sp_apply (OpAppend [97; 0; 98] (PVStr $"c")) x2 in
  [(105, str_eqb (match sp_add x1 (AStr []) with Some t => t | None => [0] end) $"a=b%00c");
   (108, str_eqb (match sp_add x3 (AStr []) with Some t => t | None => [0] end) $"a%00b=c")]) = [].
Proof. vm_compute. reflexivity. Qed.
Example urlsearchparams_stringifier_serialize_d83d_dca9 : failing (
  let x0 := new_params ANone in
  let x1 := sp_apply (OpAppend $"a" (PVStr [98; 55357; 56489; 99])) x0 in
  let x2 := sp_apply (OpDelete $"a" None) x1 in
  let x3 := sp_apply (OpAppend [97; 55357; 56489; 98] (PVStr $"c")) x2 in
  [(115, str_eqb (match sp_add x1 (AStr []) with Some t => t | None => [0] end) $"a=b%F0%9F%92%A9c");
   (118, str_eqb (match sp_add x3 (AStr []) with Some t => t | None => [0] end) $"a%F0%9F%92%A9b=c")]) = [].
Proof. vm_compute. reflexivity. Qed.
Example urlsearchparams_stringifier_urlsearchparams_tostring : failing (
  let x0 := new_params (AStr $"a=b&c=d&&e&&") in
  let x1 := new_params (AStr $"a = b &a=b&c=d%20") in
  let x2 := new_params (AStr $"a=&a=b") in
  let x3 := new_params (AStr $"b=%2sf%2a") in
  let x4 := new_params (AStr $"b=%2%2af%2a") in
  let x5 := new_params (AStr $"b=%%2a") in
  [(124, str_eqb (sp_str x0) $"a=b&c=d&e=");
   (126, str_eqb (sp_str x1) $"a+=+b+&a=b&c=d+");
   (129, str_eqb (sp_str x2) $"a=&a=b");
   (132, str_eqb (sp_str x3) $"b=%252sf*");
   (135, str_eqb (sp_str x4) $"b=%252*f*");
   (138, str_eqb (sp_str x5) $"b=%25*")]) = [].
Proof. vm_compute. reflexivity. Qed.
Example urlsearchparams_stringifier_urlsearchparams_connected_to_url : failing (
  let x0 := new_url_object $"http://www.example.com/?a=b,c" BNone in
  let x1 := params_op doc_env (OpAppend $"x" (PVStr $"y")) x0 in
  [(146, str_eqb (get_href x0) $"http://www.example.com/?a=b,c");
   (147, str_eqb (sp_str (o_list x0)) $"a=b%2Cc");
   (151, str_eqb (get_href x1) $"http://www.example.com/?a=b%2Cc&x=y");
   (152, str_eqb (sp_str (o_list x1)) $"a=b%2Cc&x=y")]) = [].
Proof. vm_compute. reflexivity. Qed.
Example urlsearchparams_stringifier_urlsearchparams_must_not_do_newline_normalization : failing (
  let x0 := new_url_object $"http://www.example.com/" BNone in
  let x1 := params_op doc_env (OpAppend [97; 10; 98] (PVStr [99; 13; 100])) x0 in
  let x2 := params_op doc_env (OpAppend [101; 10; 13; 102] (PVStr [103; 13; 10; 104])) x1 in
  [(163, str_eqb (sp_str (o_list x2)) $"a%0Ab=c%0Dd&e%0A%0Df=g%0D%0Ah")]) = [].
Proof. vm_compute. reflexivity. Qed.

(** test_url_searchparams.py *)
Example url_searchparams_updating_clearing : failing (
  let x0 := new_url_object $"http://example.org/?a=b" (BStr $"about:blank") in
  let x1 := params_op doc_env (OpSet $"a" (PVStr $"b")) x0 in
  let x2 := fst (set_attr doc_env (SetSearch []) x1) in
  [(26, str_eqb (sp_str (o_list x0)) $"a=b");
   (29, str_eqb (sp_str (o_list x1)) $"a=b");
   (30, str_eqb (get_search x1) $"?a=b");
   (32, Nat.eqb (length (sp_str (o_list x2))) 0);
   (33, Nat.eqb (length (get_search x2)) 0);
   (34, Nat.eqb (length (sp_str (o_list x2))) 0)]) = [].
Proof. vm_compute. reflexivity. Qed.
Example url_searchparams_setters_update_propagation : failing (
  let x0 := new_url_object $"http://example.org/file?a=b&c=d" (BStr $"about:blank") in
  let x1 := fst (set_attr doc_env (SetSearch $"e=f&g=h") x0) in
  let x2 := fst (set_attr doc_env (SetSearch $"?e=f&g=h") x1) in
  let x3 := params_op doc_env (OpAppend $"i" (PVStr $" j ")) x2 in
  let x4 := params_op doc_env (OpSet $"e" (PVStr $"updated")) x3 in
  let x5 := new_url_object $"http://example.org/file??a=b&c=d" (BStr $"about:blank") in
  let x6 := fst (set_attr doc_env (SetHref $"http://example.org/file??a=b") x5) in
  [(50, str_eqb (get_search x0) $"?a=b&c=d");
   (51, str_eqb (sp_str (o_list x0)) $"a=b&c=d");
   (54, str_eqb (get_search x1) $"?e=f&g=h");
   (55, str_eqb (sp_str (o_list x1)) $"e=f&g=h");
   (58, str_eqb (get_search x2) $"?e=f&g=h");
   (59, str_eqb (sp_str (o_list x2)) $"e=f&g=h");
   (62, str_eqb (get_search x3) $"?e=f&g=h&i=+j+");
   (63, str_eqb (sp_str (o_list x3)) $"e=f&g=h&i=+j+");
   (64, option_eqb (sp_get (o_list x3) $"i") (Some $" j "));
   (67, str_eqb (get_search x4) $"?e=updated&g=h&i=+j+");
   (68, option_eqb (sp_get (o_list x4) $"e") (Some $"updated"));
   (71, str_eqb (get_search x5) $"??a=b&c=d");
   (72, str_eqb (sp_str (o_list x5)) $"%3Fa=b&c=d");
   (75, str_eqb (get_search x6) $"??a=b");
   (76, str_eqb (sp_str (o_list x6)) $"%3Fa=b")]) = [].
Proof. vm_compute. reflexivity. Qed.

(** test_url_statics_canparse.py *)
Example url_statics_canparse_setter_0 : failing (
  [(28, can_is $"a:b" BNone true)]) = [].
Proof. vm_compute. reflexivity. Qed.
Example url_statics_canparse_setter_1 : failing (
  [(28, can_is $"a:/b" BNone true)]) = [].
Proof. vm_compute. reflexivity. Qed.
Example url_statics_canparse_setter_2 : failing (
  [(28, can_is $"https://test:test" BNone false)]) = [].
Proof. vm_compute. reflexivity. Qed.
Example url_statics_canparse_setter_3 : failing (
  [(28, can_is $"a" (BStr $"https://b/") true)]) = [].
Proof. vm_compute. reflexivity. Qed.
