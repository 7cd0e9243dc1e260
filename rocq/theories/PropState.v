(** Property theorems C42, C43 and C76: shared state and surrogate pairs. *)
From Coq Require Import Ascii String.
From Coq Require Import NArith ZArith Bool Arith Lia List.
From Verif Require Import PyStr PyInt Codec Env HostModel UrlRecord Parser UrlApi HeapParser SpecText SpecUrl SpecPairs.
From Verif Require Import WfProofs ParserProofs UrlProps SurrogateProofs HeapProofs ExampleEnv SpecUrl.
Import ListNotations.
Open Scope N_scope.

Definition hrefs' (r : res urlrec) : res str := match r with Ok u => Ok (href u) | Err e => Err e end.

(** C42. [heap_reached]: any heap that calls of parse_url and of the parser with a
    given record, and the assignments made by the setters, can produce. [obj_at] is a
    record object with its reference to a list, [read] the value it has at the
    moment, lists included. The last conjunct links the heap model to the one of the
    other theorems. *)
Theorem C42_base_untouched :
  forall E h s a enc, heap_reached E h -> arg_in h a ->
    let h' := fst (snd (hparse_url E s a enc h)) in let r := snd (snd (hparse_url E s a enc h)) in
    (forall j, (j < length (objs h))%nat -> obj_at h' j = obj_at h j /\ read h' j = read h j) /\
    (forall i, r = Ok i -> ~ (i < length (objs h))%nat /\
       forall j l, (j < length (objs h'))%nat -> o_path (obj_at h' i) = HRef l -> o_path (obj_at h' j) = HRef l -> j = i) /\
    parse_url E s (arg_val h a) enc = (fst (hparse_url E s a enc h), val h' r).
Proof. exact parse_leaves_base. Qed.
Print Assumptions C42_base_untouched.
(** "../c" is resolved by copying the list of the base (a/b) and deleting from it *)
Definition heap_b : heap := hexec ascii_env (OpParse $"http://h/a/b" HBNone UTF8) (mkheap [] []).
Definition heap_c : heap := hexec ascii_env (OpParse $"../c" (HBRec 0) UTF8) heap_b.
Example C42_case : heap_reached ascii_env heap_b /\ arg_in heap_b (HBRec 0) /\
  href (read heap_b 0) = $"http://h/a/b" /\ href (read heap_c 1) = $"http://h/c" /\ href (read heap_c 0) = $"http://h/a/b" /\
  map o_path (objs heap_c) = [HRef 0; HRef 2].
Proof. split; [exact (hr_op _ _ (OpParse $"http://h/a/b" HBNone UTF8) (hr_empty _) I)|]. split; [apply Nat.ltb_lt; vm_compute; reflexivity|]. repeat split; vm_compute; reflexivity. Qed.

(** C43 is false for opaque paths: they are encoded character by character. *)
Theorem C43_pairs_refuted :
  exists s t u v, pairs_for s t /\ snd (parse_url ascii_env s BNone UTF8) = Ok u /\
    snd (parse_url ascii_env t BNone UTF8) = Ok v /\ href u = $"x:%EF%BF%BD%EF%BF%BD" /\ href v = $"x:%F0%9F%98%80".
Proof.
  exists ($"x:" ++ [55357; 56832]), ($"x:" ++ [128512]),
    (mkurl $"x" [] [] None None (POpaque $"%EF%BF%BD%EF%BF%BD") None None), (mkurl $"x" [] [] None None (POpaque $"%F0%9F%98%80") None None).
  split; [apply (pf_same 120), (pf_same 58), (pf_pair 55357 56832 [] []); [lia|lia|apply pf_nil]|].
  split; [vm_compute; reflexivity|]. split; [vm_compute; reflexivity|]. split; vm_compute; reflexivity.
Qed.
Print Assumptions C43_pairs_refuted.
(** What holds: the same errors, and records that differ at most in the text of an
    opaque path. Missing: that text (refuted above). *)
Theorem C43_pairs_partial :
  forall E s t base enc, enc_ok E (normalize_encoding E enc) -> base_parsed E base -> pairs_for s t ->
    (forall e, snd (parse_url E s base enc) = Err e <-> snd (parse_url E t base enc) = Err e) /\
    (forall u v, snd (parse_url E s base enc) = Ok u -> snd (parse_url E t base enc) = Ok v -> same_but_opaque u v).
Proof. exact pairs_parse. Qed.
Print Assumptions C43_pairs_partial.
Example C43_case :
  snd (parse_url ascii_env ($"http://u" ++ [55357; 56832] ++ $"@h/" ++ [55357; 56832] ++ $"?" ++ [55357; 56832] ++ $"#" ++ [55357; 56832; 55357]) BNone UTF8) =
  snd (parse_url ascii_env ($"http://u" ++ [128512] ++ $"@h/" ++ [128512] ++ $"?" ++ [128512] ++ $"#" ++ [128512; 55357]) BNone UTF8) /\
  hrefs' (snd (parse_url ascii_env ($"http://u" ++ [128512] ++ $"@h/" ++ [128512] ++ $"?" ++ [128512] ++ $"#" ++ [128512; 55357]) BNone UTF8)) =
  Ok $"http://u%F0%9F%98%80@h/%F0%9F%98%80?%F0%9F%98%80#%F0%9F%98%80%EF%BF%BD".
Proof. split; vm_compute; reflexivity. Qed.

(** C76. [target o] is the record that [o] writes to (none for parse_url). *)
Theorem C76_no_shared_state :
  forall E h, heap_reached E h ->
    (forall i j l, (i < length (objs h))%nat -> (j < length (objs h))%nat ->
       o_path (obj_at h i) = HRef l -> o_path (obj_at h j) = HRef l -> i = j) /\
    (forall o j, op_in h o -> (j < length (objs h))%nat -> target o <> Some j -> read (hexec E o h) j = read h j) /\
    (forall i s enc so, (i < length (objs h))%nat ->
       parse_into E s None enc so (read h i) =
       (fst (hparse_into E i s None enc so h), (read (fst (snd (hparse_into E i s None enc so h))) i, snd (snd (hparse_into E i s None enc so h))))).
Proof. exact no_sharing. Qed.
Print Assumptions C76_no_shared_state.
(** the pathname of record 1 is replaced; record 0, from which it was copied, keeps its path *)
Definition heap_d : heap :=
  hexec ascii_env (OpInto 1 $"x/../y z" UTF8 (Some PATH_START)) (hexec ascii_env (OpNewPath 1) (hexec ascii_env (OpParse [] (HBRec 0) UTF8) heap_b)).
Example C76_case : heap_reached ascii_env heap_d /\ href (read heap_d 0) = $"http://h/a/b" /\ href (read heap_d 1) = $"http://h/y%20z".
Proof.
  split; [|split; vm_compute; reflexivity].
  apply (hr_op _ _ (OpInto 1 $"x/../y z" UTF8 (Some PATH_START))); [|apply Nat.ltb_lt; vm_compute; reflexivity].
  apply (hr_op _ _ (OpNewPath 1)); [|apply Nat.ltb_lt; vm_compute; reflexivity].
  apply (hr_op _ _ (OpParse [] (HBRec 0) UTF8)); [|apply Nat.ltb_lt; vm_compute; reflexivity].
  exact (hr_op _ _ (OpParse $"http://h/a/b" HBNone UTF8) (hr_empty _) I).
Qed.
