(** What the flags in a text of error names stand for, and what an ICU without cache does. *)
From Coq Require Import Ascii String.
From Coq Require Import NArith ZArith Bool Arith List.
From Verif Require Import PyStr PyInt Env HostModel Idna SpecText SpecHost SpecParams SpecUrl.
Import ListNotations.
Open Scope N_scope.

(** uidna.h: the name of bit [i] of an error set *)
Definition flag_names : list (list N) :=
  map (fun s => $"UIDNA_ERROR_" ++ s)
   [$"EMPTY_LABEL"; $"LABEL_TOO_LONG"; $"DOMAIN_NAME_TOO_LONG"; $"LEADING_HYPHEN"; $"TRAILING_HYPHEN"; $"HYPHEN_3_4";
    $"LEADING_COMBINING_MARK"; $"DISALLOWED"; $"PUNYCODE"; $"LABEL_HAS_DOT"; $"INVALID_ACE_LABEL"; $"BIDI"; $"CONTEXTJ";
    $"CONTEXTO_PUNCTUATION"; $"CONTEXTO_DIGITS"].
(** the text of an error set: the names of the flags in it, lowest bit first, and the bits without a
    name in hexadecimal *)
Definition flag_bits : list N := [0; 1; 2; 3; 4; 5; 6; 7; 8; 9; 10; 11; 12; 13; 14].
Definition flag_name (i : N) : list N := nth (N.to_nat i) flag_names [].
Definition error_texts (e : N) : list (list N) :=
  map flag_name (filter (N.testbit e) flag_bits) ++
  (let rest := N.shiftl (N.shiftr e 15) 15 in if rest =? 0 then [] else [$"0x" ++ hex_str rest]).
(** the set of the flags named, and of the bits in a hexadecimal number *)
Fixpoint flag_index (names : list (list N)) (i : N) (s : list N) : option N :=
  match names with [] => None | n :: t => if list_eq_dec N.eq_dec n s then Some i else flag_index t (i + 1) s end.
Definition flag_value (s : list N) : option N :=
  match flag_index flag_names 0 s with
  | Some i => Some (2 ^ i)
  | None => match s with 48 :: 120 :: d => std_radix_value 16 d 0 | _ => None end
  end.
Fixpoint flags_union (l : list (list N)) : option N :=
  match l with
  | [] => Some 0
  | s :: t => match flag_value s, flags_union t with Some a, Some b => Some (N.lor a b) | _, _ => None end
  end.
Definition flags_of (s : list N) : option N :=
  match s with [] => Some 0 | _ => flags_union (std_strict_split 124 s []) end.

(** ICU applied directly to the text in UTF-16, with a new instance for every call *)
Definition direct (X : icu) (f : forall X : icu, instance X -> list N -> icu_result) (options : N) (s : list N) : icu_result :=
  match create_uts46_instance X options with Some i => f X i (std_utf16 s) | None => IcuFail 0 end.

Definition call_text (c : idna_call) : list N := match c with ToAscii _ d | ToUnicode _ d => d end.
(** uidna.h: UIDNA_CHECK_BIDI 4, UIDNA_CHECK_CONTEXTJ 8, UIDNA_NONTRANSITIONAL_TO_ASCII 16,
    UIDNA_NONTRANSITIONAL_TO_UNICODE 32, UIDNA_USE_STD3_RULES 2 *)
Definition call_options (c : idna_call) : N :=
  match c with ToAscii false _ => 28 | ToAscii true _ => 30 | ToUnicode false _ => 44 | ToUnicode true _ => 46 end.
(** the stateless functions (HostModel.v) with that ICU *)
Definition call_result (E : env) (c : idna_call) : W (list N) :=
  match c with ToAscii b d => domain_to_ascii E b d | ToUnicode b d => domain_to_unicode E b d end.
