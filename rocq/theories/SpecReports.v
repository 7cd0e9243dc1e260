(** The validation errors of the URL Standard's basic URL parser: what is reported at
    each step of the machine of SpecParser.v. Written from the standard (named
    validation errors of section 1.1 and the places in section 4.4 where they are
    reported); only the names of the errors are those of the model. *)
From Coq Require Import Ascii String.
From Coq Require Import NArith ZArith Bool Arith List.
From Verif Require Import PyStr Env HostModel UrlRecord SpecText SpecHost SpecUrl SpecParser.
Import ListNotations.
Open Scope N_scope.

Definition report (b : bool) (v : verr) : list verr := if b then [v] else [].

(** "If c is not a URL code point and not U+0025 (%), invalid-URL-unit. If c is U+0025
    (%) and remaining does not start with two ASCII hex digits, invalid-URL-unit." *)
Definition std_hex_digit (c : N) : bool := match std_hex c with Some _ => true | None => false end.
Definition std_two_hex (s : list N) : bool :=
  match s with x :: y :: _ => std_hex_digit x && std_hex_digit y | _ => false end.
Definition std_unit_errors (c : N) (remaining : list N) : list verr :=
  report (negb (std_url_code_point c) && negb (c =? 37)) VInvalidURLUnit
  ++ report ((c =? 37) && negb (std_two_hex remaining)) VInvalidURLUnit.

Section Reports.
(** host parser: what it reports, and its result *)
Variable hp : list N -> bool -> list verr * option host.
Variable base : option urlrec.
Variable inp : list N.

Definition std_reports (k : cfg) : list verr :=
  let p := k_ptr k in
  let c := nth_error inp p in
  let remaining := skipn (S p) inp in
  let eof := match c with None => true | Some _ => false end in
  let u := k_url k in
  let buf := k_buf k in
  let sp := std_is_special u in
  let two_slashes := sis c 47 && sis (nth_error inp (S p)) 47 in
  let ends := eof || sis c 47 || sis c 63 || sis c 35 || (sp && sis c 92) in
  let unit_errors := match c with Some x => std_unit_errors x remaining | None => [] end in
  match k_state k with
  | S_scheme_start => []
  | S_scheme =>
      report (sis c 58 && str_eqb buf $"file"
              && negb (match remaining with x :: y :: _ => (x =? 47) && (y =? 47) | _ => false end))
        VSpecialSchemeMissingSolidus
  | S_no_scheme =>
      report (match base with None => true | Some b => std_opaque_path b && negb (sis c 35) end) VMissingScheme
  | S_special_relative_or_authority | S_special_authority_slashes =>
      report (negb two_slashes) VSpecialSchemeMissingSolidus
  | S_path_or_authority => []
  | S_relative =>
      report (match base with Some b => std_is_special (set_scheme (scheme b) u) | None => false end && sis c 92)
        VInvalidReverseSolidus
  | S_relative_slash => report (sp && sis c 92) VInvalidReverseSolidus
  | S_special_authority_ignore_slashes => report (sis c 47 || sis c 92) VSpecialSchemeMissingSolidus
  | S_authority =>
      report (sis c 64) VInvalidCredentials
      ++ report (ends && k_at k && (length buf =? 0)%nat) VInvalidCredentials
  | S_host =>
      if sis c 58 && negb (k_br k) then
        if (length buf =? 0)%nat then [VHostMissing] else fst (hp buf (negb sp))
      else if ends then
        if sp && (length buf =? 0)%nat then [VHostMissing] else fst (hp buf (negb sp))
      else []
  | S_port =>
      if match c with Some x => std_digit x | None => false end then []
      else if ends then report (65535 <? std_decimal buf) VPortOutOfRange
      else [VPortInvalid]
  | S_file =>
      report (sis c 92) VInvalidReverseSolidus
      ++ report (match base with Some b => str_eqb (scheme b) $"file" | None => false end
                 && std_starts_drive_letter (skipn p inp)) VFileDriveLetter
  | S_file_slash => report (sis c 92) VInvalidReverseSolidus
  | S_file_host =>
      if eof || sis c 47 || sis c 92 || sis c 63 || sis c 35 then
        if std_any_drive_letter buf then [VFileDriveLetterHost]
        else if (length buf =? 0)%nat then [] else fst (hp buf (negb sp))
      else []
  | S_path_start => report (sp && sis c 92) VInvalidReverseSolidus
  | S_path =>
      if eof || sis c 47 || (sp && sis c 92) || sis c 63 || sis c 35
      then report (sp && sis c 92) VInvalidReverseSolidus
      else unit_errors
  | S_opaque_path => if sis c 63 || sis c 35 then [] else unit_errors
  | S_query => if sis c 35 then [] else unit_errors
  | S_fragment => unit_errors
  end.

(** all that is reported from [k] on, in order *)
Inductive std_reported : cfg -> list verr -> Prop :=
| reported_end k : (length inp < k_ptr k)%nat -> std_reported k []
| reported_fail k : (k_ptr k <= length inp)%nat ->
    parser_step (fun h o => snd (hp h o)) base inp k = None -> std_reported k (std_reports k)
| reported_step k k' l : (k_ptr k <= length inp)%nat ->
    parser_step (fun h o => snd (hp h o)) base inp k = Some k' -> std_reported k' l ->
    std_reported k (std_reports k ++ l).
End Reports.

(** "If input contains any leading or trailing C0 control or space, invalid-URL-unit.
    [...] If input contains any ASCII tab or newline, invalid-URL-unit." *)
Definition std_input_reports (s : list N) : list verr :=
  report (match s with [] => false | c :: _ => std_c0_space c || std_c0_space (last s 0) end) VInvalidURLUnit
  ++ report (existsb (fun c => (c =? 9) || (c =? 10) || (c =? 13)) (std_rstrip (std_lstrip s))) VInvalidURLUnit.
Definition std_parse_reports (hp : list N -> bool -> list verr * option host) (base : option urlrec) (s : list N) (l : list verr) : Prop :=
  exists l', std_reported hp base (std_input s) (mkcfg S_scheme_start 0 [] false false false new_url) l' /\
    l = std_input_reports s ++ l'.

Lemma std_reported_det hp base inp k l1 l2 : std_reported hp base inp k l1 -> std_reported hp base inp k l2 -> l1 = l2.
Proof.
  intros H. revert l2. induction H as [k L|k L S|k k' l L S H IH]; intros l2 G; inversion G; subst; clear G.
  - reflexivity.
  - exfalso. apply (Nat.lt_irrefl (k_ptr k)). eapply Nat.le_lt_trans; eassumption.
  - exfalso. apply (Nat.lt_irrefl (k_ptr k)). eapply Nat.le_lt_trans; eassumption.
  - exfalso. apply (Nat.lt_irrefl (k_ptr k)). eapply Nat.le_lt_trans; eassumption.
  - reflexivity.
  - congruence.
  - exfalso. apply (Nat.lt_irrefl (k_ptr k)). eapply Nat.le_lt_trans; eassumption.
  - congruence.
  - f_equal. apply IH. assert (k' = k'0) by congruence. subst. assumption.
Qed.

(** The inputs on which a file URL's host is a letter and a vertical bar ("file://C|/x"). *)
Definition std_pipe_host (t : list N) : bool :=
  match t with
  | a :: b :: c :: d :: r =>
      ((a =? 47) || (a =? 92)) && ((b =? 47) || (b =? 92)) && std_alpha c && (d =? 124)
      && match r with [] => true | e :: _ => (e =? 47) || (e =? 92) || (e =? 63) || (e =? 35) end
  | _ => false
  end.
Definition file_pipe_host (base : option urlrec) (s : list N) : bool :=
  (str_eqb (std_lower (firstn 5 (std_input s))) $"file:" && std_pipe_host (skipn 5 (std_input s)))
  || (match base with Some b => str_eqb (scheme b) $"file" | None => false end && std_pipe_host (std_input s)).
