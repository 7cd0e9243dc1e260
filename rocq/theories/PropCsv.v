(** C142: the list of registered schemes is read from the shipped table. *)
From Coq Require Import Ascii String.
From Coq Require Import NArith Bool Arith List.
From Verif Require Import PyStr Codec Csv CsvProofs CsvShipped SchemeFile Schemes SpecCsv.
Import ListNotations.
Open Scope N_scope.

(** The values of the column come back as they were written: wrong, because the text is split at line
    breaks before the csv module sees it. *)
Definition broken_file : str := $"URI Scheme,x" ++ [13; 10] ++ [34] ++ $"a" ++ [13; 10] ++ $"b" ++ [34] ++ $",c" ++ [13; 10].
Theorem C142_read_refuted :
  ~ (forall nul header rows text a b,
       table_text (header :: rows) text -> Forall (Forall readable) (header :: rows) ->
       header = a ++ $"URI Scheme" :: b -> ~ In $"URI Scheme" b ->
       scheme_column nul (universal text) = Got (map (fun row => nth_error row (length a)) rows)).
Proof.
  intros H.
  assert (T : table_text [[$"URI Scheme"; $"x"]; [$"a" ++ [13; 10] ++ $"b"; $"c"]] broken_file).
  { refine (more_records _ ($"URI Scheme" ++ 44 :: $"x") [13; 10] _ _ _ _ (or_introl eq_refl) _); [|discriminate|].
    - apply more_fields; [|apply one_field]; apply bare; repeat constructor; intros K; vm_compute in K; decompose [or] K; discriminate || assumption.
    - refine (more_records _ ((34 :: ($"a" ++ [13; 10] ++ $"b") ++ [34]) ++ 44 :: $"c") [13; 10] [] [] _ _ (or_introl eq_refl) no_record); [|discriminate].
      apply more_fields; [apply (quoted ($"a" ++ [13; 10] ++ $"b"))|apply one_field, bare]. repeat constructor; intros K; vm_compute in K; decompose [or] K; discriminate || assumption. }
  assert (R : Forall (Forall readable) [[$"URI Scheme"; $"x"]; [$"a" ++ [13; 10] ++ $"b"; $"c"]]).
  { repeat constructor; try (intros K; vm_compute in K; decompose [or] K; discriminate || assumption); vm_compute; discriminate. }
  specialize (H true _ _ broken_file [] [$"x"] T R eq_refl). assert (NI : ~ In $"URI Scheme" [$"x"]) by (intros [K|[]]; discriminate K).
  specialize (H NI). vm_compute in H. discriminate H.
Qed.
Print Assumptions C142_read_refuted.

(** Missing: values and names with line breaks. *)
Theorem C142_read_partial :
  forall nul header rows text a b,
    table_text (header :: rows) text -> Forall (Forall readable) (header :: rows) ->
    Forall (Forall no_break) (header :: rows) -> header = a ++ $"URI Scheme" :: b -> ~ In $"URI Scheme" b ->
    scheme_column nul (universal text) = Got (map (fun row => nth_error row (length a)) rows).
Proof. exact column_unbroken. Qed.
Print Assumptions C142_read_partial.

(** Exactly: every value and name loses its line breaks. *)
Theorem C142_read_exactly :
  forall nul header rows text a b,
    table_text (header :: rows) text -> Forall (Forall readable) (header :: rows) ->
    map unbroken header = a ++ $"URI Scheme" :: b -> ~ In $"URI Scheme" b ->
    scheme_column nul (universal text) = Got (map (fun row => nth_error (map unbroken row) (length a)) rows).
Proof. exact column_exact. Qed.
Print Assumptions C142_read_exactly.

(** A table without the column cannot be loaded. *)
Theorem C142_no_column :
  forall nul header rows text,
    table_text (header :: rows) text -> Forall (Forall readable) (header :: rows) ->
    ~ In $"URI Scheme" (map unbroken header) -> rows <> [] -> scheme_column nul (universal text) = Bad NoColumn.
Proof. exact no_column. Qed.
Print Assumptions C142_no_column.

(** The list is the column without its first "shttp (OBSOLETE)", which has to be there. *)
Theorem C142_load :
  forall nul dec file text l,
    dec file = Some text -> scheme_column nul (universal text) = Got l ->
    (forall l1 l2, l = l1 ++ Some $"shttp (OBSOLETE)" :: l2 -> ~ In (Some $"shttp (OBSOLETE)") l1 -> load_schemes nul dec file = Got (l1 ++ l2))
    /\ (~ In (Some $"shttp (OBSOLETE)") l -> load_schemes nul dec file = Bad NotListed).
Proof. exact load_exact. Qed.
Print Assumptions C142_load.

(** The shipped file gives REGISTERED_SCHEMES of Schemes.v in a locale with the encoding UTF-8 ... *)
Theorem C142_utf8 :
  forall nul dec,
    (forall t, Forall (fun c => c < 1114112 /\ ~ (55296 <= c <= 57343)) t -> dec (utf8_encode t) = Some t) ->
    load_schemes nul dec SHIPPED = Got (map Some REGISTERED_SCHEMES).
Proof. exact shipped_utf8. Qed.
Print Assumptions C142_utf8.
(** ... but not in every locale with an 8-bit encoding that extends ASCII: the byte A1 has no
    character in windows-1257, and importing the module fails. *)
Definition no_a1 (b : N) : option N := if b =? 161 then None else Some b.
Theorem C142_locale_refuted :
  ~ (forall nul dec, extends_ascii dec -> load_schemes nul (bytewise dec) SHIPPED = Got (map Some REGISTERED_SCHEMES)).
Proof.
  intros H. assert (A : extends_ascii no_a1).
  { split; unfold no_a1.
    - intros b L. destruct (b =? 161) eqn:K; [apply N.eqb_eq in K; subst b; discriminate L|reflexivity].
    - intros b c L. destruct (b =? 161); [discriminate|]. intros K. injection K as <-. exact L. }
  pose proof (H true no_a1 A) as K. rewrite (shipped_fails true no_a1 161 (or_introl eq_refl) eq_refl) in K. discriminate K.
Qed.
Print Assumptions C142_locale_refuted.
(** Exactly: the five bytes outside ASCII of the file have to have characters. *)
Theorem C142_locale_exactly :
  forall nul dec, extends_ascii dec ->
    ((forall b, In b [161; 169; 173; 179; 195] -> dec b <> None) -> load_schemes nul (bytewise dec) SHIPPED = Got (map Some REGISTERED_SCHEMES))
    /\ (forall b, In b [161; 169; 173; 179; 195] -> dec b = None -> load_schemes nul (bytewise dec) SHIPPED = Bad Undecodable).
Proof. exact (fun nul dec A => conj (shipped_load nul dec A) (shipped_fails nul dec)). Qed.
Print Assumptions C142_locale_exactly.

Example C142_case :
  scheme_column true (universal broken_file) = Got [Some $"ab"]
  /\ load_schemes true Some ($"x,URI Scheme" ++ [10] ++ $"1,http" ++ [13; 10] ++ $"2," ++ [34] ++ $"shttp (OBSOLETE)" ++ [34; 10] ++ $"3" ++ [10; 10]) = Got [Some $"http"; None]
  /\ scheme_column true ($"x" ++ [10] ++ $"1") = Bad NoColumn /\ scheme_column false ($"URI Scheme" ++ [10; 0]) = Bad CsvNul
  /\ length REGISTERED_SCHEMES = 372%nat.
Proof. vm_compute. repeat split. Qed.
