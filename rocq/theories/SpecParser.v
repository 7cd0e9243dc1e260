(** The basic URL parser of the URL Standard (section 4.4, without state override),
    transcribed state by state: one code point at a time, with the pointer, the
    buffer and the three flags. Written from the standard and not from the code;
    the record type, the string type, string equality and [host] are those of the
    model. The host parser is a parameter ([None] is failure). The opaque path state
    is the one before the change of 2024 that encodes a space before '?' or '#'.
    Validation errors are left out. *)
From Coq Require Import Ascii String.
From Coq Require Import NArith ZArith Bool Arith List.
From Verif Require Import PyStr HostModel UrlRecord Parser SpecText SpecHost SpecUrl.
Import ListNotations.
Open Scope N_scope.

Definition std_is_special (u : urlrec) : bool := existsb (str_eqb (scheme u)) (map fst std_special_schemes).
Definition std_port_of (sch : list N) (p : N) : option N :=
  if existsb (fun e => str_eqb sch (fst e) && match snd e with Some d => d =? p | None => false end) std_special_schemes
  then None else Some p.
(** "Windows drive letter", "starts with a Windows drive letter" *)
Definition std_any_drive_letter (s : list N) : bool :=
  match s with [a; b] => std_alpha a && ((b =? 58) || (b =? 124)) | _ => false end.
Definition std_starts_drive_letter (s : list N) : bool :=
  match s with
  | a :: b :: t => std_any_drive_letter [a; b] &&
      match t with [] => true | c :: _ => (c =? 47) || (c =? 92) || (c =? 63) || (c =? 35) end
  | _ => false
  end.
(** "shorten a url's path" (a list) *)
Definition std_shorten (u : urlrec) : urlrec :=
  match path u with
  | PList l =>
      if str_eqb (scheme u) $"file" && match l with [s] => std_drive_letter s | _ => false end
      then u else set_path (PList (removelast l)) u
  | POpaque _ => u
  end.
Definition std_append (x : list N) (u : urlrec) : urlrec :=
  match path u with PList l => set_path (PList (l ++ [x])) u | POpaque _ => u end.
Definition std_opaque_path (u : urlrec) : bool := match path u with POpaque _ => true | PList _ => false end.
Definition std_decimal (s : list N) : N := fold_left (fun n c => n * 10 + (c - 48)) s 0.
Definition enc1 (set : N -> bool) (c : N) : list N := std_percent_encode1 set false c.
Definition sis (c : option N) (x : N) : bool := match c with Some y => y =? x | None => false end.

(** the end of a path segment (the path state at a separator, '?', '#' or the end) *)
Definition std_end_segment (slash : bool) (buf : list N) (u : urlrec) : urlrec :=
  if std_double_dot buf then
    let u := std_shorten u in if slash then u else std_append [] u
  else if std_single_dot buf then
    if slash then u else std_append [] u
  else
    std_append
      (if str_eqb (scheme u) $"file" && match path u with PList [] => true | _ => false end && std_any_drive_letter buf
       then match buf with a :: _ :: t => a :: 58 :: t | _ => buf end else buf) u.

Inductive sstate :=
| S_scheme_start | S_scheme | S_no_scheme | S_special_relative_or_authority | S_path_or_authority
| S_relative | S_relative_slash | S_special_authority_slashes | S_special_authority_ignore_slashes
| S_authority | S_host | S_port | S_file | S_file_slash | S_file_host | S_path_start | S_path
| S_opaque_path | S_query | S_fragment.

(** [k_ptr] is the position of the code point that is processed next. "Decrease
    pointer by 1" (before the loop increases it again) leaves it where it is. *)
Record cfg := mkcfg {
  k_state : sstate; k_ptr : nat; k_buf : list N; k_at : bool; k_br : bool; k_pw : bool; k_url : urlrec }.

Section Standard.
Variable hp : list N -> bool -> option host.   (* host parser: input, isOpaque *)
Variable base : option urlrec.
Variable inp : list N.

(** the loop over the buffer when '@' is read *)
Fixpoint std_userinfo (buf : list N) (pw : bool) (u : urlrec) : bool * urlrec :=
  match buf with
  | [] => (pw, u)
  | c :: t =>
      if (c =? 58) && negb pw then std_userinfo t true u
      else if pw then std_userinfo t pw (set_password (password u ++ enc1 userinfo_set c) u)
      else std_userinfo t pw (set_username (username u ++ enc1 userinfo_set c) u)
  end.

Definition parser_step (k : cfg) : option cfg :=
  let p := k_ptr k in
  let c := nth_error inp p in
  let remaining := skipn (S p) inp in
  let eof := match c with None => true | Some _ => false end in
  let u := k_url k in
  let buf := k_buf k in
  let sp := std_is_special u in
  (* to another state, with the flags as they are *)
  let go st ptr buf u := Some (mkcfg st ptr buf (k_at k) (k_br k) (k_pw k) u) in
  let add x := go (k_state k) (S p) (buf ++ x) u in
  let skip := go (k_state k) (S p) buf u in
  let query_of u := go S_query (S p) buf (set_query (Some []) u) in
  let fragment_of u := go S_fragment (S p) buf (set_fragment (Some []) u) in
  match k_state k with
  | S_scheme_start =>
      match c with
      | Some x => if std_alpha x then go S_scheme (S p) (buf ++ [std_lower1 x]) u else go S_no_scheme p buf u
      | None => go S_no_scheme p buf u
      end
  | S_scheme =>
      match c with
      | Some x =>
          if std_scheme_char x then add [std_lower1 x]
          else if x =? 58 then
            let u := set_scheme buf u in
            if str_eqb buf $"file" then go S_file (S p) [] u
            else if std_is_special u
                 then match base with
                      | Some b => if str_eqb (scheme b) buf then go S_special_relative_or_authority (S p) [] u
                                  else go S_special_authority_slashes (S p) [] u
                      | None => go S_special_authority_slashes (S p) [] u
                      end
                 else if sis (nth_error inp (S p)) 47 then go S_path_or_authority (S (S p)) [] u
                 else go S_opaque_path (S p) [] (set_path (POpaque []) u)
          else go S_no_scheme 0%nat [] u
      | None => go S_no_scheme 0%nat [] u
      end
  | S_no_scheme =>
      match base with
      | None => None
      | Some b =>
          if std_opaque_path b then
            if sis c 35
            then fragment_of (set_query (query b) (set_path (path b) (set_scheme (scheme b) u)))
            else None
          else if str_eqb (scheme b) $"file" then go S_file p buf u
          else go S_relative p buf u
      end
  | S_special_relative_or_authority =>
      if sis c 47 && sis (nth_error inp (S p)) 47 then go S_special_authority_ignore_slashes (S (S p)) buf u
      else go S_relative p buf u
  | S_path_or_authority =>
      if sis c 47 then go S_authority (S p) buf u else go S_path p buf u
  | S_relative =>
      match base with
      | None => None
      | Some b =>
          let u := set_scheme (scheme b) u in
          if sis c 47 || (std_is_special u && sis c 92) then go S_relative_slash (S p) buf u
          else
            let u := set_query (query b) (set_path (path b) (set_port (port b) (set_host (uhost b)
                       (set_password (password b) (set_username (username b) u))))) in
            if sis c 63 then query_of u
            else if sis c 35 then fragment_of u
            else if eof then go S_relative (S p) buf u
            else go S_path p buf (std_shorten (set_query None u))
      end
  | S_relative_slash =>
      if sp && (sis c 47 || sis c 92) then go S_special_authority_ignore_slashes (S p) buf u
      else if sis c 47 then go S_authority (S p) buf u
      else match base with
           | None => None
           | Some b => go S_path p buf (set_port (port b) (set_host (uhost b)
                         (set_password (password b) (set_username (username b) u))))
           end
  | S_special_authority_slashes =>
      if sis c 47 && sis (nth_error inp (S p)) 47 then go S_special_authority_ignore_slashes (S (S p)) buf u
      else go S_special_authority_ignore_slashes p buf u
  | S_special_authority_ignore_slashes =>
      if sis c 47 || sis c 92 then skip else go S_authority p buf u
  | S_authority =>
      if sis c 64 then
        let buf := if k_at k then $"%40" ++ buf else buf in
        let (pw, u) := std_userinfo buf (k_pw k) u in
        Some (mkcfg S_authority (S p) [] true (k_br k) pw u)
      else if eof || sis c 47 || sis c 63 || sis c 35 || (sp && sis c 92) then
        if k_at k && (length buf =? 0)%nat then None
        else go S_host (p - length buf)%nat [] u
      else match c with Some x => add [x] | None => None end
  | S_host =>
      if sis c 58 && negb (k_br k) then
        if (length buf =? 0)%nat then None
        else match hp buf (negb sp) with
             | None => None
             | Some h => go S_port (S p) [] (set_host (Some h) u)
             end
      else if eof || sis c 47 || sis c 63 || sis c 35 || (sp && sis c 92) then
        if sp && (length buf =? 0)%nat then None
        else match hp buf (negb sp) with
             | None => None
             | Some h => go S_path_start p [] (set_host (Some h) u)
             end
      else match c with
           | Some x => Some (mkcfg S_host (S p) (buf ++ [x]) (k_at k)
                               (if x =? 91 then true else if x =? 93 then false else k_br k) (k_pw k) u)
           | None => None
           end
  | S_port =>
      if match c with Some x => std_digit x | None => false end
      then match c with Some x => add [x] | None => None end
      else if eof || sis c 47 || sis c 63 || sis c 35 || (sp && sis c 92) then
        if (length buf =? 0)%nat then go S_path_start p [] u
        else if 65535 <? std_decimal buf then None
        else go S_path_start p [] (set_port (std_port_of (scheme u) (std_decimal buf)) u)
      else None
  | S_file =>
      let u := set_host (Some (HStr [])) (set_scheme $"file" u) in
      if sis c 47 || sis c 92 then go S_file_slash (S p) buf u
      else
        match base with
        | Some b =>
            if str_eqb (scheme b) $"file" then
              let u := set_query (query b) (set_path (path b) (set_host (uhost b) u)) in
              if sis c 63 then query_of u
              else if sis c 35 then fragment_of u
              else if eof then go S_file (S p) buf u
              else
                let u := set_query None u in
                go S_path p buf (if std_starts_drive_letter (skipn p inp) then set_path (PList []) u else std_shorten u)
            else go S_path p buf u
        | None => go S_path p buf u
        end
  | S_file_slash =>
      if sis c 47 || sis c 92 then go S_file_host (S p) buf u
      else
        match base with
        | Some b =>
            if str_eqb (scheme b) $"file" then
              let u := set_host (uhost b) u in
              go S_path p buf
                (match path b with
                 | PList (s :: _) =>
                     if negb (std_starts_drive_letter (skipn p inp)) && std_drive_letter s
                     then std_append s u else u
                 | _ => u
                 end)
            else go S_path p buf u
        | None => go S_path p buf u
        end
  | S_file_host =>
      if eof || sis c 47 || sis c 92 || sis c 63 || sis c 35 then
        if std_any_drive_letter buf then go S_path p buf u
        else if (length buf =? 0)%nat then go S_path_start p [] (set_host (Some (HStr [])) u)
        else match hp buf (negb sp) with
             | None => None
             | Some h =>
                 let h := match h with HStr s => if str_eqb s $"localhost" then HStr [] else h | _ => h end in
                 go S_path_start p [] (set_host (Some h) u)
             end
      else match c with Some x => add [x] | None => None end
  | S_path_start =>
      if sp then go S_path (if sis c 47 || sis c 92 then S p else p) buf u
      else if sis c 63 then query_of u
      else if sis c 35 then fragment_of u
      else if eof then skip
      else go S_path (if sis c 47 then S p else p) buf u
  | S_path =>
      let slash := sis c 47 || (sp && sis c 92) in
      if eof || slash || sis c 63 || sis c 35 then
        let u := std_end_segment slash buf u in
        if sis c 63 then go S_query (S p) [] (set_query (Some []) u)
        else if sis c 35 then go S_fragment (S p) [] (set_fragment (Some []) u)
        else go S_path (S p) [] u
      else match c with Some x => add (enc1 path_set x) | None => None end
  | S_opaque_path =>
      if sis c 63 then query_of u
      else if sis c 35 then fragment_of u
      else match c with
           | Some x => go S_opaque_path (S p) buf
                         (match path u with
                          | POpaque s => set_path (POpaque (s ++ enc1 c0_control_set x)) u
                          | PList _ => u
                          end)
           | None => skip
           end
  | S_query =>
      if eof || sis c 35 then
        let set := if sp then special_query_set else SpecText.query_set in
        let u := match query u with
                 | Some q => set_query (Some (q ++ std_percent_encode set false buf)) u
                 | None => u
                 end in
        if sis c 35 then go S_fragment (S p) [] (set_fragment (Some []) u) else go S_query (S p) [] u
      else match c with Some x => add [x] | None => None end
  | S_fragment =>
      match c with
      | Some x => go S_fragment (S p) buf
                    (match fragment u with
                     | Some f => set_fragment (Some (f ++ enc1 fragment_set x)) u
                     | None => u
                     end)
      | None => skip
      end
  end.

(** "Keep running the state machine [...]. If after a run pointer points to the EOF
    code point, go to the next step. Otherwise, increase pointer by 1 and continue."
    [None] is failure. *)
Inductive std_runs : cfg -> option urlrec -> Prop :=
| runs_end k : (length inp < k_ptr k)%nat -> std_runs k (Some (k_url k))
| runs_fail k : (k_ptr k <= length inp)%nat -> parser_step k = None -> std_runs k None
| runs_step k k' r : (k_ptr k <= length inp)%nat -> parser_step k = Some k' -> std_runs k' r -> std_runs k r.
End Standard.

(** the input without leading and trailing C0 controls and spaces, and without
    tabs and newlines *)
Fixpoint std_lstrip (s : list N) : list N :=
  match s with [] => [] | c :: t => if std_c0_space c then std_lstrip t else s end.
Definition std_input (s : list N) : list N := std_strip_tabs (std_rstrip (std_lstrip s)).
Definition std_basic_parse (hp : list N -> bool -> option host) (base : option urlrec) (s : list N) (r : option urlrec) : Prop :=
  std_runs hp base (std_input s) (mkcfg S_scheme_start 0 [] false false false new_url) r.

Lemma std_runs_det hp base inp k r1 r2 : std_runs hp base inp k r1 -> std_runs hp base inp k r2 -> r1 = r2.
Proof.
  intros H. revert r2. induction H as [k L|k L S|k k' r L S H IH]; intros r2 G; inversion G; subst; clear G.
  - reflexivity.
  - exfalso. apply (Nat.lt_irrefl (k_ptr k)). eapply Nat.le_lt_trans; eassumption.
  - exfalso. apply (Nat.lt_irrefl (k_ptr k)). eapply Nat.le_lt_trans; eassumption.
  - exfalso. apply (Nat.lt_irrefl (k_ptr k)). eapply Nat.le_lt_trans; eassumption.
  - reflexivity.
  - congruence.
  - exfalso. apply (Nat.lt_irrefl (k_ptr k)). eapply Nat.le_lt_trans; eassumption.
  - congruence.
  - apply IH. assert (k' = k'0) by congruence. subst. assumption.
Qed.

(** The standard is only defined for bases whose path is a list when their scheme is
    special (every base that a parser returned is one). *)
Definition std_good_base (base : option urlrec) : Prop :=
  match base with Some b => std_special (scheme b) -> exists l, path b = PList l | None => True end.
(** a file base, and nothing (or only "file:") in the input *)
Definition file_only (base : option urlrec) (s : list N) : bool :=
  match base with
  | Some b => str_eqb (scheme b) $"file" && existsb (str_eqb (std_lower (std_input s))) [[]; $"file:"]
  | None => false
  end.

(** a base given as a string is parsed first *)
Inductive std_url_parse (hp : list N -> bool -> option host) (s : list N) : base_arg -> option urlrec -> Prop :=
| sup_none r : std_basic_parse hp None s r -> std_url_parse hp s BNone r
| sup_rec b r : std_basic_parse hp (Some b) s r -> std_url_parse hp s (BRec b) r
| sup_str t b r : std_basic_parse hp None t (Some b) -> std_basic_parse hp (Some b) s r -> std_url_parse hp s (BStr t) r
| sup_fail t : std_basic_parse hp None t None -> std_url_parse hp s (BStr t) None.

(** scalar value strings that are not too long for int() *)
Definition scalar_string (s : list N) : Prop := is_pystr s /\ surrogate_free s.
Definition short_for (limit : option N) (s : list N) : Prop :=
  match limit with Some l => N.of_nat (length s) <= l | None => True end.

(** The host parser of the standard. [to_ascii] is "domain to ASCII" with beStrict
    false ([None]: failure). *)
Definition std_host_parse (to_ascii : list N -> option (list N)) (input : list N) (is_opaque : bool) : option host :=
  match input with
  | 91 :: t =>
      match rev t with
      | 93 :: r => match std_ipv6_parse (rev r) with Some a => Some (HIPv6 a) | None => None end
      | _ => None
      end
  | _ =>
      if is_opaque then
        if existsb std_forbidden_host input then None
        else Some (HStr (std_percent_encode c0_control_set false input))
      else
        match to_ascii (std_utf8_decode (std_percent_decode (std_utf8_encode input))) with
        | None => None
        | Some d =>
            if existsb std_forbidden_domain d then None
            else if std_ends_in_number d
                 then match std_ipv4_parse d with Some n => Some (HIPv4 n) | None => None end
                 else Some (HStr d)
        end
  end.

(** The run from [k] parses the host [h] (as an opaque host if [o]): at some step
    the outcome depends on whether the host parser fails. *)
Inductive std_asks (hp : list N -> bool -> option host) (base : option urlrec) (inp : list N) : cfg -> list N -> bool -> Prop :=
| asks_here k : (k_ptr k <= length inp)%nat ->
    parser_step (fun _ _ => None) base inp k = None -> parser_step (fun _ _ => Some (HStr [])) base inp k <> None ->
    std_asks hp base inp k (k_buf k) (negb (std_is_special (k_url k)))
| asks_later k k' h o : (k_ptr k <= length inp)%nat -> parser_step hp base inp k = Some k' ->
    std_asks hp base inp k' h o -> std_asks hp base inp k h o.
Definition std_host_of (hp : list N -> bool -> option host) (base : option urlrec) (s h : list N) (o : bool) : Prop :=
  std_asks hp base (std_input s) (mkcfg S_scheme_start 0 [] false false false new_url) h o.

(** the base argument is one the standard is defined for (a string is not too long for int()) *)
Definition good_base_arg (limit : option N) (base : base_arg) : Prop :=
  match base with
  | BNone => True
  | BRec b => std_good_base (Some b)
  | BStr t => scalar_string t /\ short_for limit t
  end.
(** not a file base with nothing or only "file:" in the input *)
Definition not_file_only (hp : list N -> bool -> option host) (base : base_arg) (s : list N) : Prop :=
  match base with
  | BNone => True
  | BRec b => file_only (Some b) s = false
  | BStr t => forall b, std_basic_parse hp None t (Some b) -> file_only (Some b) s = false
  end.
(** every host that is parsed has the property [P] *)
Definition hosts_satisfy (P : list N -> bool -> Prop) (hp : list N -> bool -> option host) (base : option urlrec) (s : list N) : Prop :=
  forall h o, std_host_of hp base s h o -> P h o.
Definition arg_hosts_satisfy (P : list N -> bool -> Prop) (hp : list N -> bool -> option host) (base : base_arg) (s : list N) : Prop :=
  match base with
  | BNone => hosts_satisfy P hp None s
  | BRec b => hosts_satisfy P hp (Some b) s
  | BStr t => hosts_satisfy P hp None t /\ forall b, std_basic_parse hp None t (Some b) -> hosts_satisfy P hp (Some b) s
  end.

(** The run from [k] reads the port text [b]: a non-empty buffer when the port ends. *)
Definition std_port_ends (inp : list N) (k : cfg) : bool :=
  match k_state k with
  | S_port =>
      negb (length (k_buf k) =? 0)%nat &&
      match nth_error inp (k_ptr k) with
      | None => true
      | Some c => (c =? 47) || (c =? 63) || (c =? 35) || (std_is_special (k_url k) && (c =? 92))
      end
  | _ => false
  end.
Inductive std_reads (hp : list N -> bool -> option host) (base : option urlrec) (inp : list N) : cfg -> list N -> Prop :=
| reads_here k : (k_ptr k <= length inp)%nat -> std_port_ends inp k = true -> std_reads hp base inp k (k_buf k)
| reads_later k k' b : (k_ptr k <= length inp)%nat -> parser_step hp base inp k = Some k' ->
    std_reads hp base inp k' b -> std_reads hp base inp k b.
Definition std_port_read (hp : list N -> bool -> option host) (base : option urlrec) (s b : list N) : Prop :=
  std_reads hp base (std_input s) (mkcfg S_scheme_start 0 [] false false false new_url) b.
(** the same for the parser with a base argument, which may have to be parsed too *)
Definition arg_port_read (hp : list N -> bool -> option host) (base : base_arg) (s b : list N) : Prop :=
  match base with
  | BNone => std_port_read hp None s b
  | BRec u => std_port_read hp (Some u) s b
  | BStr t => std_port_read hp None t b \/ exists u, std_basic_parse hp None t (Some u) /\ std_port_read hp (Some u) s b
  end.
Definition arg_host_of (hp : list N -> bool -> option host) (base : base_arg) (s h : list N) (o : bool) : Prop :=
  match base with
  | BNone => std_host_of hp None s h o
  | BRec u => std_host_of hp (Some u) s h o
  | BStr t => std_host_of hp None t h o \/ exists u, std_basic_parse hp None t (Some u) /\ std_host_of hp (Some u) s h o
  end.
