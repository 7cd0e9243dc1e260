(** Property theorems for URLSearchParams: C59-C64, C75. *)
From Coq Require Import Ascii String.
From Coq Require Import NArith Bool List Permutation Sorted.
From Verif Require Import PyStr PyInt Codec Env SearchParams QuoteProofs ParamProofs SpecText SpecParams.
Import ListNotations.
Open Scope N_scope.

(** C59. "For those very strings" is false: the library percent-decodes the
    names it is given (and the values given to append and set) and never finds
    a number. *)
Theorem C59_list_operations_refuted :
  (exists l n, is_pystr n /\ sp_get l n <> std_get l (scalar_value_string n)) /\
  (exists l n v, is_pystr n /\ is_pystr v /\
     sp_append l n (PVStr v) <> std_append l (scalar_value_string n) (scalar_value_string v)) /\
  (exists l n v, is_pystr n /\ sp_has l n (Some (PVNum v)) <> std_has l (scalar_value_string n) (Some v)).
Proof. exact ops_differ. Qed.
Print Assumptions C59_list_operations_refuted.
(** What is missing from the full statement: arguments with a "%XY" escape,
    numbers as the value of has and delete, and values of has and delete with
    lone surrogates. *)
Theorem C59_list_operations_partial :
  forall l n, is_pystr n -> has_escape n = false ->
  let n' := scalar_value_string n in
  (forall v, is_pystr (py_str v) -> has_escape (py_str v) = false ->
     sp_append l n v = std_append l n' (scalar_value_string (py_str v)) /\
     sp_set l n v = std_set l n' (scalar_value_string (py_str v))) /\
  sp_get l n = std_get l n' /\
  sp_get_all l n = std_get_all l n' /\
  sp_has l n None = std_has l n' None /\
  sp_delete l n None = std_delete l n' None /\
  (forall s, surrogate_free s ->
     sp_has l n (Some (PVStr s)) = std_has l n' (Some (scalar_value_string s)) /\
     sp_delete l n (Some (PVStr s)) = std_delete l n' (Some (scalar_value_string s))).
Proof. exact ops_conform. Qed.
Print Assumptions C59_list_operations_partial.
(** All arguments: the standard's operation on the percent-decoded strings. *)
Theorem C59_list_operations_decoded :
  forall l n, is_pystr n ->
  (forall v, is_pystr (py_str v) -> sp_append l n v = std_append l (std_unescape n) (std_unescape (py_str v))) /\
  (forall v, is_pystr (py_str v) -> sp_set l n v = std_set l (std_unescape n) (std_unescape (py_str v))) /\
  sp_get l n = std_get l (std_unescape n) /\
  sp_get_all l n = std_get_all l (std_unescape n) /\
  sp_contains l n = std_has l (std_unescape n) None /\
  sp_has l n None = std_has l (std_unescape n) None /\
  sp_delete l n None = std_delete l (std_unescape n) None /\
  (forall s, sp_has l n (Some (PVStr s)) = std_has l (std_unescape n) (Some s)) /\
  (forall s, sp_delete l n (Some (PVStr s)) = std_delete l (std_unescape n) (Some s)) /\
  (forall s, sp_has l n (Some (PVNum s)) = false) /\
  (forall s, sp_delete l n (Some (PVNum s)) = l).
Proof. exact ops_unescape. Qed.
Print Assumptions C59_list_operations_decoded.
Example C59_case :
  let l := [($"a", $"1"); ($"b", $"2"); ($"a", $"3"); ($"a", $"1")] in
  has_escape $"a%4g%" = false /\
  sp_delete l $"a" (Some (PVStr $"1")) = [($"b", $"2"); ($"a", $"3")] /\
  std_delete l $"a" (Some $"1") = [($"b", $"2"); ($"a", $"3")] /\
  std_set l $"a" $"x" = [($"a", $"x"); ($"b", $"2")] /\
  std_get_all l $"a" = [$"1"; $"3"; $"1"] /\ std_unescape $"%61" = $"a".
Proof. repeat split; reflexivity. Qed.

(** C60 *)
Theorem C60_set_exactly_one :
  forall l n v, is_pystr n -> is_pystr (py_str v) ->
  let n' := std_unescape n in let v' := std_unescape (py_str v) in
  filter (named n') (sp_set l n v) = [(n', v')] /\
  filter (fun t => negb (named n' t)) (sp_set l n v) = filter (fun t => negb (named n' t)) l /\
  (existsb (named n') l = false -> sp_set l n v = l ++ [(n', v')]) /\
  (forall p x r, l = p ++ x :: r -> existsb (named n') p = false -> named n' x = true ->
     firstn (length p) (sp_set l n v) = p /\ nth_error (sp_set l n v) (length p) = Some (n', v')).
Proof. exact set_exactly_one. Qed.
Print Assumptions C60_set_exactly_one.
Example C60_case :
  sp_set [($"b", $"2"); ($"a", $"3"); ($"a", $"1"); ($"c", $"5"); ($"a", $"4")] $"%61" (PVNum $"7")
  = [($"b", $"2"); ($"a", $"7"); ($"c", $"5")].
Proof. reflexivity. Qed.

(** C61. The result is a stable sort, and the only one; so a list.sort that is
    any stable sort gives this list. *)
Theorem C61_sort_stable :
  (forall l, pystr_names l -> stable_sort_of l (sp_sort l)) /\
  (forall l l', pystr_names l -> stable_sort_of l l' -> l' = sp_sort l) /\
  (forall l, pystr_names l -> sp_sort (sp_sort l) = sp_sort l).
Proof. exact (conj sort_spec (conj sort_unique sort_idem)). Qed.
Print Assumptions C61_sort_stable.
Example C61_case :
  sp_sort [([64259], $"1"); ([128008], $"2"); ($"b", $"3"); ([64259], $"4"); ($"a", $"5"); ($"b", $"6"); ([], [])]
  = [([], []); ($"a", $"5"); ($"b", $"3"); ($"b", $"6"); ([128008], $"2"); ([64259], $"1"); ([64259], $"4")].
Proof. reflexivity. Qed.

(** C62 *)
Theorem C62_copies :
  (forall l, reachable l -> sp_init_str (sp_str l) = l) /\
  (forall l, reachable l -> sp_copy l = l) /\
  (forall l, reachable l -> Forall (fun p => is_pystr (fst p) /\ surrogate_free (fst p) /\
                                             is_pystr (snd p) /\ surrogate_free (snd p)) l).
Proof. exact copies. Qed.
Print Assumptions C62_copies.
Example C62_case :
  let l := sp_append (sp_init_pairs [(PVStr $"?", PVStr $"&=+%"); (PVStr [55357; 56832], PVNum $"1.5")])
             [] (PVStr [56832]) in
  reachable l /\ l = [($"?", $"&=+%"); ([128512], $"1.5"); ([], [65533])] /\
  sp_str l = $"%3F=%26%3D%2B%25&%F0%9F%98%80=1.5&=%EF%BF%BD".
Proof. split; [exact case_reachable|split; reflexivity]. Qed.

(** C63. False for numbers and for values with a "%XY" escape. *)
Theorem C63_has_after_append_refuted :
  (exists n v, is_pystr n /\ is_pystr v /\ sp_has (sp_append [] n (PVNum v)) n (Some (PVNum v)) = false) /\
  (exists n v, is_pystr n /\ is_pystr v /\ surrogate_free v /\
     sp_has (sp_append [] n (PVStr v)) n (Some (PVStr v)) = false).
Proof. exact has_after_append_bad. Qed.
Print Assumptions C63_has_after_append_refuted.
(** Missing: exactly the numbers and the strings that percent-decoding changes
    (second conjunct). *)
Theorem C63_has_after_append_partial :
  (forall l n s, is_pystr n -> is_pystr s -> surrogate_free s -> has_escape s = false ->
     sp_has (sp_append l n (PVStr s)) n (Some (PVStr s)) = true) /\
  (forall l n v, is_pystr n -> is_pystr (py_str v) ->
     sp_has (sp_append l n v) n (Some v)
     = sp_has l n (Some v) || match v with
                              | PVStr s => if list_eq_dec N.eq_dec (std_unescape s) s then true else false
                              | PVNum _ => false
                              end).
Proof. exact (conj has_after_append_ok has_after_append). Qed.
Print Assumptions C63_has_after_append_partial.
Example C63_case : has_escape $"100% +&" = false /\
  sp_has (sp_append [($"a%62", [])] $"a%62" (PVStr $"100% +&")) $"a%62" (Some (PVStr $"100% +&")) = true.
Proof. split; reflexivity. Qed.

(** C64. False for names with a "%XY" escape, which a reachable list can hold. *)
Theorem C64_lookup_refuted :
  exists l n v, reachable l /\ In (n, v) l /\ sp_contains l n = false /\ sp_get l n = None.
Proof. exact lookup_bad. Qed.
Print Assumptions C64_lookup_refuted.
Theorem C64_lookup_partial :
  (forall l n v, reachable l -> has_escape n = false -> In (n, v) l ->
     sp_contains l n = true /\ sp_has l n None = true /\ sp_get l n = std_get l n /\ sp_get l n <> None) /\
  (forall n, is_pystr n ->
     (std_unescape n = n <->
      forall l, (forall v, In (n, v) l -> sp_contains l n = true) /\ sp_get l n = std_get l n)).
Proof. exact (conj lookup_reachable lookup_iff). Qed.
Print Assumptions C64_lookup_partial.
Example C64_case : let l := sp_init_str $"?x=1&a%20%25=2&a+%25=3" in
  reachable l /\ In ($"a %", $"3") l /\ sp_get l $"a %" = Some $"2".
Proof. split; [exact case64_reachable|split; [right; right; left|]; reflexivity]. Qed.

(** C75 *)
Theorem C75_dict_constructor :
  forall items,
  Forall (fun nv => is_pystr (py_str (fst nv)) /\ is_pystr (py_str (snd nv))) items ->
  let conv := map (fun nv => (scalar_value_string (py_str (fst nv)), scalar_value_string (py_str (snd nv)))) items in
  map fst (sp_init_dict items) = first_names (map fst conv) /\
  NoDup (map fst (sp_init_dict items)) /\
  (forall n, std_get (sp_init_dict items) n = std_get (rev conv) n).
Proof. exact init_dict_spec. Qed.
Print Assumptions C75_dict_constructor.
Example C75_case :
  sp_init_dict [(PVStr [55296], PVStr $"1"); (PVStr $"a", PVNum $"2"); (PVStr [56320], PVStr $"3")]
  = [([65533], $"3"); ($"a", $"2")].
Proof. reflexivity. Qed.
