(** What the package did in a recorded test run (/repo/tests/wpt/report.html), as tables in Recorded*.v; here
    how a line is computed in the model and compared. A check of the model, not a proof.
    Made by tools/recorded.py. *)
From Coq Require Import Ascii String.
From Coq Require Import NArith ZArith Bool Arith List.
From Verif Require Import PyStr PyInt Codec Env HostModel UrlRecord Parser SearchParams UrlApi Repr Message MsgHost MsgParser MsgApi ExampleEnv.
Import ListNotations.
Open Scope N_scope.

(** properties of the characters above 127 that occur *)
Definition printables : list N := [169; 187; 194; 201; 223; 233; 241; 353; 769; 776; 946; 1554; 1575; 1605; 1606; 1607; 1610; 1740; 1908; 2509; 3515; 3521; 3530; 3539; 4448; 8217; 8224; 8229; 8800; 8814; 8815; 8995; 9352; 10083; 11535; 12290; 16988; 20013; 20320; 22909; 43305; 47345; 53292; 64259; 64975; 65008; 65042; 65285; 65294; 65296; 65297; 65298; 65300; 65301; 65319; 65336; 65347; 65359; 65532; 65533; 72765; 72767; 119808; 119815; 119819; 119848; 119852; 119853; 121366; 125247; 127752; 128169; 197480; 917776; 917862].
Definition decimals : list (N * N) := [(65296, 0); (65297, 1); (65298, 2); (65300, 4); (65301, 5)].
Definition spaces : list N := [160; 12288].
Definition lowered : list (N * list N) := [(194, [226]); (201, [233]); (65319, [65351]); (65336, [65368])].
Definition look {A} (l : list (N * A)) (c : N) : option A := option_map snd (find (fun p => fst p =? c) l).
Fixpoint infix (a b : list N) : bool := str_eqb a (firstn (length a) b) || match b with [] => false | _ :: t => infix a t end.
(** ICU: [answer] for a domain that is not ASCII or has a label in Punycode *)
Definition rec_env (answer : icu_result) : menv :=
  {| m_env :=
       {| icu_to_ascii := fun _ d => if forallb (fun c => c <? 128) d && negb (infix $"xn--" (lower d)) then IcuOk 0 (lower d) else answer;
          icu_to_unicode := fun _ d => IcuOk 0 d; codec := codec ascii_env;
          uni_decimal := look decimals; uni_space := fun c => existsb (N.eqb c) spaces;
          uni_lower := fun c => match look lowered c with Some l => l | None => [c] end;
          int_limit := Some 4300; has_validity := false |};
     m_print := fun c => existsb (N.eqb c) printables; m_icu_code := fun _ _ => $"<ErrorCode(<U_MEMORY_ALLOCATION_ERROR: 7>)>" |}.

Fixpoint lists {A B} (f : A -> B -> bool) (a : list A) (b : list B) : bool :=
  match a, b with [], [] => true | x :: a, y :: b => f x y && lists f a b | _, _ => false end.
Definition level_eqb (a b : level) : bool := match a, b with INFO, INFO | ERROR, ERROR => true | _, _ => false end.
Definition same_logs (l : list entry) (r : list (level * list N)) : bool :=
  lists (fun en p => level_eqb (e_level en) (fst p) && match e_text en with Some t => str_eqb t (snd p) | None => false end) l r.
(** None: not looked at *)
Definition same_attrs (o : list (list N)) (r : list (option (list N))) : bool :=
  lists (fun x y => match y with Some y => str_eqb x y | None => true end) o r.
Definition attrs (o : urlobj) : list (list N) :=
  [get_href o; get_protocol o; get_username o; get_password o; get_host o; get_hostname o; get_port o; get_pathname o; get_search o; get_hash o].

(** URL(input, base) and its attributes, str(url.search_params) and url.origin *)
Record rec_url := mkurl { r_input : list N; r_base : base_arg; r_attrs : option (list (option (list N))); r_logs : list (level * list N); r_icu : icu_result }.
Definition url_agrees (r : rec_url) : bool :=
  let X := rec_env (r_icu r) in
  let (l, o) := m_url_new X (r_input r) (r_base r) in
  same_logs l (r_logs r) &&
  match o, r_attrs r with
  | MOk o, Some want => same_attrs (attrs o ++ [sp_str (o_list o); match get_origin (m_env X) o with Ok t => t | Err _ => $"?" end]) want
  | MErr e _, None => is_url_error e
  | _, _ => false
  end.
(** setattr(URL(href), attribute, value), an exception of which is ignored, and the attributes afterwards *)
Record rec_set := mkset { s_href : list N; s_call : setter; s_attrs : list (option (list N)); s_logs : list (level * list N); s_icu : icu_result }.
Definition set_agrees (r : rec_set) : bool :=
  let X := rec_env (s_icu r) in
  let (l, o) := m_url_new X (s_href r) BNone in
  match o with
  | MOk o => let '(l', (o', e)) := m_set_attr X (s_call r) o in
             same_logs (l ++ l') (s_logs r) && same_attrs (attrs o') (s_attrs r) && match e with MErr e _ => is_url_error e | MOk _ => true end
  | MErr _ _ => false
  end.
