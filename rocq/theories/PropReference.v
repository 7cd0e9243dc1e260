(** Property theorems C89-C94: what a query, a fragment and a relative reference
    mean, stated by comparing results of the parser. *)
From Coq Require Import Ascii String.
From Coq Require Import NArith ZArith Bool Arith Lia List.
From Verif Require Import PyStr PyInt Codec Env HostModel UrlRecord Parser SpecText SpecHost.
From Verif Require Import LegacyProofs IPv4Proofs HostProofs WfProofs RoundTrip UrlProps ExampleEnv SuffixProofs RefLaws PropParser.
From Verif Require Import SpecUrl SpecReference.
Import ListNotations.
Open Scope N_scope.

(** the parser with a record as base, for the Examples *)
Definition p1 (s : str) (b : urlrec) : res urlrec := snd (parse_url ascii_env s (BRec b) UTF8).

(** C89 *)
Theorem C89_fragment_separate :
  forall E s f base enc, enc_ok E (normalize_encoding E enc) -> base_parsed E base -> is_pystr f -> ~ In 35 s ->
    snd (parse_url E (s ++ $"#" ++ f) base enc) =
    on_ok (set_fragment (Some (std_percent_encode fragment_set false (std_seen f)))) (snd (parse_url E (s ++ $"#") base enc)).
Proof. exact fragment_separate. Qed.
Print Assumptions C89_fragment_separate.
(** Leaving out the '#' as well: exactly the inputs [bare_reference] are
    exceptions. *)
Theorem C89_fragment_added :
  forall E s f base enc, enc_ok E (normalize_encoding E enc) -> base_parsed E base -> is_pystr f -> ~ In 35 s -> std_rstrip s = s ->
    (snd (parse_url E (s ++ $"#" ++ f) base enc) =
       on_ok (set_fragment (Some (std_percent_encode fragment_set false (std_seen f)))) (snd (parse_url E s base enc)) <->
     ~ bare_reference E base enc s).
Proof.
  exact (fun E s f base enc He Hb Hf H R => conj (fun Q N => fragment_bare E s f _ base enc He Hb R N Q) (fragment_added E s f base enc He Hb Hf H R)).
Qed.
Print Assumptions C89_fragment_added.
Example C89_case :
  hrefs (p1 $"x?y#a?b#c d " rec_http) = Ok $"http://us:p%40w@h:8080/a/x?y#a?b#c%20d" /\ hrefs (p1 $"x?y" rec_http) = Ok $"http://us:p%40w@h:8080/a/x?y" /\
  hrefs (p1 $"#f" rec_file) = Ok $"file:///C:/x/y#f" /\ hrefs (p1 [] rec_file) = Ok $"file:///C:/x/y/" /\
  hrefs (p1 $"#f" rec_opaque) = Ok $"mailto:a b?q#f" /\ p1 [] rec_opaque = Err EURLParse /\
  bare_reference ascii_env (BRec rec_file) UTF8 $" FiLe: " /\ ~ bare_reference ascii_env (BRec rec_http) UTF8 [].
Proof.
  do 6 (split; [vm_compute; reflexivity|]). split.
  - exists rec_file. split; [now left|]. left. split; [right; reflexivity|reflexivity].
  - intros (b & [B|(t & B & _)] & H); [|discriminate B]. injection B as <-. destruct H as [[_ H]|[_ (x & H)]]; discriminate H.
Qed.

(** C90 *)
Theorem C90_query_separate :
  forall E s q base enc, enc_ok E (normalize_encoding E enc) -> base_parsed E base -> is_pystr q -> ~ In 35 s -> ~ In 63 s -> ~ In 35 q ->
    query_replaced E enc (std_seen q) (snd (parse_url E (s ++ $"?") base enc)) (snd (parse_url E (s ++ $"?" ++ q) base enc)).
Proof. exact query_separate. Qed.
Print Assumptions C90_query_separate.
Theorem C90_query_added :
  forall E s q base enc, enc_ok E (normalize_encoding E enc) -> base_parsed E base -> is_pystr q -> ~ In 35 s -> ~ In 63 s -> ~ In 35 q -> std_rstrip s = s ->
    (forall b, base_record E base enc b -> scheme b = $"file" -> std_trim s <> [] /\ std_lower (std_trim s) <> $"file:") ->
    query_replaced E enc (std_seen q) (snd (parse_url E s base enc)) (snd (parse_url E (s ++ $"?" ++ q) base enc)).
Proof. exact query_added. Qed.
Print Assumptions C90_query_added.
Example C90_case :
  hrefs (p1 $"x/../y?a'?b " rec_http) = Ok $"http://us:p%40w@h:8080/a/y?a%27?b" /\ hrefs (p1 $"x/../y" rec_http) = Ok $"http://us:p%40w@h:8080/a/y" /\
  hrefs (p1 $"//k:99999/?a" rec_http) = Err EURLParse /\ hrefs (p1 $"//k:99999/" rec_http) = Err EURLParse.
Proof. repeat split; vm_compute; reflexivity. Qed.

(** C91 *)
Theorem C91_scheme_relative :
  forall E b c d t base enc l, enc_ok E (normalize_encoding E enc) -> parsed E b -> base_parsed E base -> usable E base enc -> path b = PList l ->
    std_slash (scheme b) c -> std_slash (scheme b) d ->
    snd (parse_url E (c :: d :: t) (BRec b) enc) = snd (parse_url E (scheme b ++ $"://" ++ t) base enc).
Proof. exact scheme_relative. Qed.
Print Assumptions C91_scheme_relative.
Example C91_case :
  hrefs (p1 $"/\k/../x" rec_http) = Ok $"http://k/x" /\ hrefs (p0 $"http://k/../x") = Ok $"http://k/x" /\
  hrefs (p1 $"//k/D|/x" rec_file) = Ok $"file://k/D:/x" /\ p1 $"//" rec_http = Err EURLParse /\ p0 $"http://" = Err EURLParse.
Proof. repeat split; vm_compute; reflexivity. Qed.

(** C92 *)
Theorem C92_absolute_path :
  forall E b c t base enc l, limit_ok E -> idna_ok E -> enc_ok E (normalize_encoding E enc) -> parsed E b -> url_v4_ok b -> base_parsed E base -> usable E base enc ->
    path b = PList l -> scheme b <> $"file" -> std_slash (scheme b) c -> ~ starts (std_slash (scheme b)) (std_seen t) ->
    snd (parse_url E (c :: t) (BRec b) enc) = snd (parse_url E (site b ++ $"/" ++ t) base enc).
Proof. exact absolute_path. Qed.
Print Assumptions C92_absolute_path.
Example C92_case :
  site rec_http = $"http://us:p%40w@h:8080" /\
  hrefs (p1 $"\x/../y\z?q" rec_http) = Ok $"http://us:p%40w@h:8080/y/z?q" /\ hrefs (p0 (site rec_http ++ $"/x/../y\z?q")) = Ok $"http://us:p%40w@h:8080/y/z?q".
Proof. repeat split; vm_compute; reflexivity. Qed.

(** C93 *)
Theorem C93_relative_path :
  forall E b r base enc l, limit_ok E -> idna_ok E -> enc_ok E (normalize_encoding E enc) -> parsed E b -> url_v4_ok b -> base_parsed E base -> usable E base enc ->
    path b = PList l -> scheme b <> $"file" -> std_lstrip r = r -> r <> [] -> ~ has_scheme (std_trim r) ->
    ~ starts (fun c => std_slash (scheme b) c \/ c = 63 \/ c = 35) r ->
    snd (parse_url E r (BRec b) enc) = snd (parse_url E (site b ++ $"/./" ++ directory l ++ r) base enc).
Proof. exact relative_path. Qed.
Print Assumptions C93_relative_path.
Example C93_case :
  site rec_http ++ $"/./" ++ directory [$"a"; $"b"] ++ $"../c\.%2e/d?x" = $"http://us:p%40w@h:8080/./a/../c\.%2e/d?x" /\
  hrefs (p1 $"../c\.%2e/d?x" rec_http) = Ok $"http://us:p%40w@h:8080/d?x" /\
  hrefs (p0 $"http://us:p%40w@h:8080/./a/../c\.%2e/d?x") = Ok $"http://us:p%40w@h:8080/d?x" /\
  has_scheme $"a.b+c:d" /\ ~ starts (fun c => std_slash $"http" c \/ c = 63 \/ c = 35) $"../c".
Proof.
  do 3 (split; [vm_compute; reflexivity|]). split.
  - exists $"a.b+c", $"d". split; reflexivity.
  - cbn [starts]. intros [[H|[_ H]]|[H|H]]; vm_compute in H; discriminate H.
Qed.

(** C94 *)
Theorem C94_relative_form :
  forall E u b x enc, limit_ok E -> idna_ok E -> enc_ok E (normalize_encoding E enc) -> parsed E u -> url_v4_ok u -> parsed E b ->
    scheme u = scheme b -> username u = username b -> password u = password b -> uhost u = uhost b -> port u = port b -> scheme u <> $"file" ->
    has_opaque_path u = false -> has_opaque_path b = false -> path u <> PList [] -> href u = site u ++ x ->
    snd (parse_url E ($"/." ++ x) (BRec b) enc) = Ok u /\
    ((forall t, x <> 47 :: 47 :: t) -> snd (parse_url E x (BRec b) enc) = Ok u).
Proof. exact relative_form. Qed.
Print Assumptions C94_relative_form.
Example C94_case :
  let u := mkurl $"http" $"us" $"p%40w" (Some (HStr $"h")) (Some 8080) (PList [[]; $"z"; []]) (Some []) None in
  href u = site u ++ $"//z/?" /\ p1 $"/.//z/?" rec_http = Ok u /\ hrefs (p1 $"//z/?" rec_http) = Ok $"http://z/?".
Proof. repeat split; vm_compute; reflexivity. Qed.
