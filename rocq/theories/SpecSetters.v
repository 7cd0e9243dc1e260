(** The setters of the URL class in the URL Standard: the basic URL parser with a
    state override, transcribed for the states an override can reach, and the
    setter algorithms around it. Written from the standard; the record type and the
    names of the setters are those of the model. The standard is followed as of 2023:
    at the three places marked # later versions return failure instead of
    nothing, which the setters ignore. Validation errors are left out. *)
From Coq Require Import Ascii String.
From Coq Require Import NArith ZArith Bool Arith List.
From Verif Require Import PyStr HostModel UrlRecord Parser SearchParams UrlApi SpecText SpecHost SpecUrl SpecParser SpecApi.
Import ListNotations.
Open Scope N_scope.

Definition std_port_is_default (u : urlrec) : bool :=
  existsb (fun e => str_eqb (scheme u) (fst e) && match snd e, port u with Some d, Some p => d =? p | _, _ => false end) std_special_schemes.
Definition std_credentials (u : urlrec) : bool :=
  negb ((length (username u) =? 0)%nat && (length (password u) =? 0)%nat).
Definition std_has_port (u : urlrec) : bool := match port u with Some _ => true | None => false end.
Definition std_empty_host (u : urlrec) : bool := match uhost u with Some (HStr []) => true | _ => false end.

(** One run of the machine: it goes on, returns, or returns failure. What was
    written to the record before a failure stays written. *)
Inductive sres := SGo (k : cfg) | SRet (u : urlrec) | SFail (u : urlrec).

Section Override.
Variable hp : list N -> bool -> option host.
Variable hostname : bool.     (* the state override is "hostname state" *)
Variable inp : list N.

Definition override_step (k : cfg) : sres :=
  let p := k_ptr k in
  let c := nth_error inp p in
  let eof := match c with None => true | Some _ => false end in
  let u := k_url k in
  let buf := k_buf k in
  let sp := std_is_special u in
  let go st ptr buf u := SGo (mkcfg st ptr buf (k_at k) (k_br k) (k_pw k) u) in
  let add x := go (k_state k) (S p) (buf ++ x) u in
  match k_state k with
  | S_scheme_start =>
      match c with
      | Some x => if std_alpha x then go S_scheme (S p) (buf ++ [std_lower1 x]) u else SFail u
      | None => SFail u
      end
  | S_scheme =>
      match c with
      | Some x =>
          if std_scheme_char x then add [std_lower1 x]
          else if x =? 58 then
            let v := set_scheme buf u in
            if xorb sp (std_is_special v) then SRet u
            else if (std_credentials u || std_has_port u) && str_eqb buf $"file" then SRet u
            else if str_eqb (scheme u) $"file" && std_empty_host u then SRet u
            else SRet (if std_port_is_default v then set_port None v else v)
          else SFail u
      | None => SFail u
      end
  | S_host =>
      if str_eqb (scheme u) $"file" then go S_file_host p buf u
      else if sis c 58 && negb (k_br k) then
        if (length buf =? 0)%nat then SFail u
        else if hostname then SRet u                                          (* # *)
        else match hp buf (negb sp) with
             | None => SFail u
             | Some h => go S_port (S p) [] (set_host (Some h) u)
             end
      else if eof || sis c 47 || sis c 63 || sis c 35 || (sp && sis c 92) then
        if sp && (length buf =? 0)%nat then SFail u
        else if (length buf =? 0)%nat && (std_credentials u || std_has_port u) then SRet u   (* # *)
        else match hp buf (negb sp) with
             | None => SFail u
             | Some h => SRet (set_host (Some h) u)
             end
      else match c with
           | Some x => SGo (mkcfg S_host (S p) (buf ++ [x]) (k_at k)
                              (if x =? 91 then true else if x =? 93 then false else k_br k) (k_pw k) u)
           | None => SFail u
           end
  | S_file_host =>
      if eof || sis c 47 || sis c 92 || sis c 63 || sis c 35 then
        if (length buf =? 0)%nat then SRet (set_host (Some (HStr [])) u)
        else match hp buf (negb sp) with
             | None => SFail u
             | Some h =>
                 let h := match h with HStr s => if str_eqb s $"localhost" then HStr [] else h | _ => h end in
                 SRet (set_host (Some h) u)
             end
      else match c with Some x => add [x] | None => SFail u end
  | S_port =>
      if match c with Some x => std_digit x | None => false end
      then match c with Some x => add [x] | None => SFail u end
      else if (length buf =? 0)%nat then SRet u                               (* # *)
      else if 65535 <? std_decimal buf then SFail u
      else SRet (set_port (std_port_of (scheme u) (std_decimal buf)) u)
  | S_path_start =>
      if sp then go S_path (if sis c 47 || sis c 92 then S p else p) buf u
      else if eof then SRet (match uhost u with None => std_append [] u | Some _ => u end)
      else go S_path (if sis c 47 then S p else p) buf u
  | S_path =>
      let slash := sis c 47 || (sp && sis c 92) in
      if eof || slash then go S_path (S p) [] (std_end_segment slash buf u)
      else match c with Some x => add (enc1 path_set x) | None => SFail u end
  | S_query =>
      if eof then
        let set := if sp then special_query_set else SpecText.query_set in
        SRet (match query u with
              | Some q => set_query (Some (q ++ std_percent_encode set false buf)) u
              | None => u
              end)
      else match c with Some x => add [x] | None => SFail u end
  | S_fragment =>
      match c with
      | Some x => go S_fragment (S p) buf
                    (match fragment u with
                     | Some f => set_fragment (Some (f ++ enc1 fragment_set x)) u
                     | None => u
                     end)
      | None => SRet u
      end
  | _ => SFail u    (* not reachable with an override *)
  end.

(** the run ends with a record, [true] unless with failure *)
Inductive override_runs : cfg -> urlrec -> bool -> Prop :=
| or_end k : (length inp < k_ptr k)%nat -> override_runs k (k_url k) true
| or_ret k u : (k_ptr k <= length inp)%nat -> override_step k = SRet u -> override_runs k u true
| or_fail k u : (k_ptr k <= length inp)%nat -> override_step k = SFail u -> override_runs k u false
| or_step k k' u b : (k_ptr k <= length inp)%nat -> override_step k = SGo k' -> override_runs k' u b -> override_runs k u b.
End Override.

(** "basic URL parse value with url and a state override": only tabs and newlines
    are removed from the value *)
Definition std_override (hp : list N -> bool -> option host) (st : sstate) (hostname : bool) (value : list N) (u v : urlrec) (b : bool) : Prop :=
  override_runs hp hostname (std_strip_tabs value) (mkcfg st 0 [] false false false u) v b.

Fixpoint std_strip_spaces (s : list N) : list N :=
  match s with
  | [] => []
  | c :: t => match std_strip_spaces t with [] => if c =? 32 then [] else [c] | r => c :: r end
  end.
(** "potentially strip trailing spaces from an opaque path" *)
Definition std_potentially_strip (u : urlrec) : urlrec :=
  match path u, fragment u, query u with
  | POpaque s, None, None => set_path (POpaque (std_strip_spaces s)) u
  | _, _, _ => u
  end.
Definition drop_leading (c : N) (v : list N) : list N :=
  match v with x :: t => if x =? c then t else v | [] => [] end.

(** [std_set hp s u v b]: setter [s] turns the record [u] into [v]; [b] is false if
    a parse failed on the way (only the href setter tells its caller). *)
Inductive std_set (hp : list N -> bool -> option host) : setter -> urlrec -> urlrec -> bool -> Prop :=
| ss_href t u v : std_basic_parse hp None t (Some v) -> std_set hp (SetHref t) u v true
| ss_href_fail t u : std_basic_parse hp None t None -> std_set hp (SetHref t) u u false
| ss_protocol t u v b : std_override hp S_scheme_start false (t ++ $":") u v b -> std_set hp (SetProtocol t) u v b
| ss_username_no t u : std_no_authority u -> std_set hp (SetUsername t) u u true
| ss_username t u : ~ std_no_authority u -> std_set hp (SetUsername t) u (set_username (std_percent_encode userinfo_set false t) u) true
| ss_password_no t u : std_no_authority u -> std_set hp (SetPassword t) u u true
| ss_password t u : ~ std_no_authority u -> std_set hp (SetPassword t) u (set_password (std_percent_encode userinfo_set false t) u) true
| ss_host_no t u : std_opaque u -> std_set hp (SetHost t) u u true
| ss_host t u v b : ~ std_opaque u -> std_override hp S_host false t u v b -> std_set hp (SetHost t) u v b
| ss_hostname_no t u : std_opaque u -> std_set hp (SetHostname t) u u true
| ss_hostname t u v b : ~ std_opaque u -> std_override hp S_host true t u v b -> std_set hp (SetHostname t) u v b
| ss_port_no t u : std_no_authority u -> std_set hp (SetPort t) u u true
| ss_port_empty u : ~ std_no_authority u -> std_set hp (SetPort []) u (set_port None u) true
| ss_port t u v b : ~ std_no_authority u -> t <> [] -> std_override hp S_port false t u v b -> std_set hp (SetPort t) u v b
| ss_pathname_no t u : std_opaque u -> std_set hp (SetPathname t) u u true
| ss_pathname t u v b : ~ std_opaque u -> std_override hp S_path_start false t (set_path (PList []) u) v b -> std_set hp (SetPathname t) u v b
| ss_search_empty u : std_set hp (SetSearch []) u (std_potentially_strip (set_query None u)) true
| ss_search t u v b : t <> [] -> std_override hp S_query false (drop_leading 63 t) (set_query (Some []) u) v b -> std_set hp (SetSearch t) u v b
| ss_hash_empty u : std_set hp (SetHash []) u (std_potentially_strip (set_fragment None u)) true
| ss_hash t u v b : t <> [] -> std_override hp S_fragment false (drop_leading 35 t) (set_fragment (Some []) u) v b -> std_set hp (SetHash t) u v b.
