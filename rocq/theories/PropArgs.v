(** Property theorems C129, C130: URLSearchParams with arguments of any Python type. *)
From Coq Require Import Ascii String.
From Coq Require Import NArith ZArith Bool Arith Lia List.
From Verif Require Import PyStr PyInt Codec Env HostModel UrlRecord Parser SearchParams UrlApi Repr Args Slices.
From Verif Require Import ParamProofs SpecRepr ReprProofs ArgProofs SliceProofs ExampleEnv.
From Verif Require Import SpecText SpecParams SpecArgs SpecSlices.
Import ListNotations.
Open Scope N_scope.

(** C129. [good_init]: the texts in [init] are Python strings, and a URLSearchParams in it holds
    scalar value strings, as every one does (C62). *)
Theorem C129_constructor :
  forall E pr init o, good_init E pr init -> sp_new E pr init = o <-> init_spec E pr init o.
Proof. exact new_iff. Qed.
Print Assumptions C129_constructor.
(** every argument has an outcome, so there is exactly one *)
Theorem C129_total : forall E pr init, exists o, init_spec E pr init o.
Proof. exact new_total. Qed.
Print Assumptions C129_total.
(** names and values that are no strings: the text of None, an int, a list or a tuple of such and of strings
    is a literal for the object (read by SpecRepr.v), and no literal stands for two of them *)
Theorem C129_texts :
  (forall E pr o x, lit_arg o x -> pystr_obj o ->
     exists t, arg_repr E pr x = Some t /\ reads t o /\ ((forall s, o <> PStr s) -> arg_str E pr x = Some t)) /\
  (forall t o o', reads t o -> reads t o' -> o = o').
Proof. exact (conj lit_text reads_fun). Qed.
Print Assumptions C129_texts.
Example C129_literal :
  let o := PSeq true [PStr $"it's"; PSeq false [PInt 12; PNone]; PSeq true [PInt 0]] in
  let x := ASeq true [AStr $"it's"; ASeq false [ANum $"int" (Some $"12"); ANone]; ASeq true [ANum $"int" (Some $"0")]] in
  lit_arg o x /\ pystr_obj o /\ arg_str ascii_env (fun _ => true) x = Some ($"(" ++ [34] ++ $"it's" ++ [34] ++ $", [12, None], (0,))").
Proof.
  cbv zeta. split; [|split; [|vm_compute; reflexivity]].
  - repeat first [apply la_seq | apply Forall2_cons | apply Forall2_nil | apply la_str | apply la_none | apply (la_int 12) | apply (la_int 0)].
  - repeat first [apply PO_seq | apply Forall_cons | apply Forall_nil | apply PO_str | apply PO_none | apply PO_int]; vm_compute; discriminate.
Qed.
Example C129_case :
  let new := sp_new ascii_env (fun _ => true) in
  new (ASeq false [ASeq true [AStr $"a"; ANum $"int" (Some $"1")]; AStr $"xy"; ADict [(AStr $"k", ANone); (AStr $"l", ANone)]]) =
    Made [($"a", $"1"); ($"x", $"y"); ($"k", $"l")] None /\
  new (ASeq false [ASeq true [ASeq true [AStr $"a"]; ADict [(ANum $"int" (Some $"1"), ANone)]]]) = Made [($"('a',)", $"{1: None}")] None /\
  new (ASeq true [AStr $"ab"; AStr $"abc"; ANum $"int" (Some $"3")]) = ValueErr $"Expected a sequence of name-value pairs, but got ('ab', 'abc', 3)" /\
  new (ASeq true [AStr $"ab"; ANum $"int" (Some $"3"); AStr $"abc"]) = TypeErr $"object of type 'int' has no len()" /\
  new (ADict [(AStr $"1", AStr $"x"); (AStr $"b", ANone); (ANum $"int" (Some $"1"), AStr $"y")]) = Made [($"1", $"y"); ($"b", $"None")] None /\
  new (ASeq false [ASeq true [AStr $"a"; ANum $"int" None]]) = LimitErr /\
  new (ANum $"int" (Some $"3")) = TypeErr $"Expected string, not int" /\
  new (AStr $"??a=b") = Made [($"?a", $"b")] None /\
  new (AParams [($"?", $"&")]) = Made [($"?", $"&")] None /\
  new (AOther $"set" $"{1, 2}" $"{1, 2}" (Some [ANum $"int" (Some $"1"); ANum $"int" (Some $"2")])) = TypeErr $"Expected string, not set".
Proof. repeat split; vm_compute; reflexivity. Qed.
Example C129_good : good_init ascii_env (fun _ => true) (ASeq false [ASeq true [AStr $"a"; ANum $"int" (Some $"1")]; AStr $"xy"]).
Proof.
  split; [|discriminate]. intros s H. inversion H as [| |b l x n v t I G T|]. subst.
  destruct I as [<-|[<-|[]]]; inversion G; subst; cbn [arg_str arg_repr] in T; destruct T as [[= <-]|[= <-]]; unfold is_pystr; pystr_tac.
Qed.

(** C130. [params + text]; the text in application/x-www-form-urlencoded form grows by further pairs. *)
Theorem C130_add :
  (forall l x, sp_add l x = None /\ (forall s, x <> AStr s) \/ exists s, x = AStr s /\ sp_add l x = Some (sp_str l ++ s)) /\
  (forall l s r, scalars l -> is_pystr s -> sp_add l (AStr (38 :: s)) = Some r ->
     sp_init_str r = l ++ std_urlencoded_parse (std_utf8_encode (scalar_value_string s))).
Proof. exact (conj add_ok add_more). Qed.
Print Assumptions C130_add.
(** [x in params] *)
Theorem C130_in :
  forall l x, (forall s, x = AStr s -> is_pystr s -> sp_in l x = inr (std_has l (std_unescape s) None)) /\
    ((forall s, x <> AStr s) -> sp_in l x = inl ($"requires string as left operand, not " ++ arg_type x)).
Proof. exact in_ok. Qed.
Print Assumptions C130_in.
(** [params == x]: only a URLSearchParams with the same list, that is with the same text *)
Theorem C130_eq :
  (forall l x, sp_eq l x = true <-> x = AParams l) /\
  (forall l l', scalars l -> scalars l' -> sp_eq l (AParams l') = true <-> sp_str l = sp_str l').
Proof. exact (conj eq_ok eq_text). Qed.
Print Assumptions C130_eq.
(** [params[key]]: the pair with [key] pairs before it, or [-key - 1] after it; else IndexError *)
Theorem C130_item :
  (forall l key p, sp_item l key = Some p <->
     exists a b, l = a ++ p :: b /\ (key = Z.of_nat (length a) \/ key = - Z.of_nat (length b) - 1)%Z) /\
  (forall l key, sp_item l key = None <-> (key < - Z.of_nat (length l) \/ Z.of_nat (length l) <= key)%Z).
Proof. exact (conj item_ok item_none). Qed.
Print Assumptions C130_item.
(** [params[start:stop:step]]: the pairs at the selected positions, ValueError for step 0; [params[i:j]] for [0 <= i <= j],
    [params[:]] and [params[::-1]] *)
Theorem C130_slice :
  (forall l start stop step, sp_slice l start stop step = None <-> step = Some 0%Z) /\
  (forall l start stop step, step <> Some 0%Z ->
     sp_slice l start stop step = Some (std_slice l start stop (match step with Some k => k | None => 1%Z end))) /\
  (forall l i j, (i <= j)%nat ->
     sp_slice l (Some (Z.of_nat i)) (Some (Z.of_nat j)) None = Some (firstn (j - i) (skipn i l))) /\
  (forall l, sp_slice l None None None = Some l) /\
  (forall l, sp_slice l None None (Some (-1)%Z) = Some (rev l)).
Proof. exact (conj slice_none (conj slice_ok (conj slice_range (conj slice_all slice_rev)))). Qed.
Print Assumptions C130_slice.
Example C130_slice_case :
  let p := fun s => (s, @nil N) in let l := map p [$"a"; $"b"; $"c"; $"d"; $"e"] in
  sp_slice l (Some (-9)%Z) None (Some 2%Z) = Some (map p [$"a"; $"c"; $"e"]) /\
  sp_slice l (Some (-2)%Z) (Some (-9)%Z) (Some (-2)%Z) = Some (map p [$"d"; $"b"]) /\
  sp_slice l (Some 9%Z) (Some 1%Z) (Some (-3)%Z) = Some (map p [$"e"]) /\
  sp_slice l (Some 3%Z) (Some 1%Z) None = Some [] /\ sp_slice l None None (Some 0%Z) = None.
Proof. repeat split; vm_compute; reflexivity. Qed.
Example C130_case :
  let l := [($"a", $"1 2"); ($"b", $"&")] in
  sp_add l (AStr $"&c=%263") = Some $"a=1+2&b=%26&c=%263" /\ sp_init_str $"a=1+2&b=%26&c=%263" = l ++ [($"c", $"&3")] /\
  sp_add l (AParams l) = None /\ sp_in l (AStr $"%61") = inr true /\ sp_in l (ANum $"int" (Some $"1")) = inl $"requires string as left operand, not int" /\
  sp_eq l (AStr (sp_str l)) = false /\ sp_eq l (AParams l) = true /\
  sp_item l (-1) = Some ($"b", $"&") /\ sp_item l 0 = Some ($"a", $"1 2") /\ sp_item l 2 = None /\ sp_item l (-3) = None.
Proof. repeat split; vm_compute; reflexivity. Qed.
