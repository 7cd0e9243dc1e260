(** Property theorems C82-C84: algebraic laws of the setters. *)
From Coq Require Import Ascii String.
From Coq Require Import NArith ZArith Bool Arith List.
From Verif Require Import PyStr PyInt Codec Env HostModel UrlRecord Parser SearchParams UrlApi.
From Verif Require Import LegacyProofs IPv4Proofs HostProofs RoundTrip GetSet SetterLaws HostStandard GetSetExact PropApi ExampleEnv PyIntProofs SpecText SpecHost SpecUrl SpecApi SpecLaws SpecWriting.
Import ListNotations.
Open Scope N_scope.

(** C82 is false: the getters do not tell an empty fragment, query or host from an
    absent one, and the setters keep a "localhost" of a file URL no better than
    the parser does. *)
Theorem C82_get_set_refuted :
  (exists o, reached ascii_env o /\ fst (set_attr ascii_env (SetHash (get_hash o)) o) <> o) /\
  (exists o, reached ascii_env o /\ fst (set_attr ascii_env (SetSearch (get_search o)) o) <> o) /\
  (exists o, reached ascii_env o /\ fst (set_attr ascii_env (SetHostname (get_hostname o)) o) <> o) /\
  (exists o, reached ascii_env o /\ uhost (o_url o) = Some (HStr $"localhost") /\
     fst (set_attr ascii_env (SetHostname (get_hostname o)) o) <> o) /\
  (exists o, reached ascii_env o /\ scheme (o_url o) = $"file" /\ fst (set_attr ascii_env (SetPathname (get_pathname o)) o) <> o) /\
  (exists o e, reached ascii_env o /\ port (o_url o) = Some 0 /\ snd (set_attr ascii_env (SetHost (get_host o)) o) = Err e).
Proof.
  split; [exists (obj $"http://h/#"); split; [reach|vm_compute; discriminate]|].
  split; [exists (obj $"http://h/?"); split; [reach|vm_compute; discriminate]|].
  split; [exists (obj $"a:/x"); split; [reach|vm_compute; discriminate]|].
  split; [exists (do_call ascii_env (CSet (SetProtocol $"file")) (obj $"http://localhost/x")); split; [reach|split; [vm_compute; reflexivity|vm_compute; discriminate]]|].
  split; [exists (do_call ascii_env (CSet (SetProtocol $"file")) (obj $"http://h/C|/x")); split; [reach|split; [vm_compute; reflexivity|vm_compute; discriminate]]|].
  exists (do_call ascii_env (CSet (SetHost [])) (obj $"a://h:0")). eexists. split; [reach|]. split; vm_compute; reflexivity.
Qed.
Print Assumptions C82_get_set_refuted.
(** Missing: those objects, and IPv4 values of 2^32 or more (C14). *)
Theorem C82_get_set_partial :
  forall E o, reached E o ->
  set_attr E (SetProtocol (get_protocol o)) o = (o, Ok tt) /\
  set_attr E (SetUsername (get_username o)) o = (o, Ok tt) /\
  set_attr E (SetPassword (get_password o)) o = (o, Ok tt) /\
  (limit_ok E -> set_attr E (SetPort (get_port o)) o = (o, Ok tt)) /\
  (fragment (o_url o) <> Some [] -> set_attr E (SetHash (get_hash o)) o = (o, Ok tt)) /\
  (query (o_url o) <> Some [] -> set_attr E (SetSearch (get_search o)) o = (o, Ok tt)) /\
  ((scheme (o_url o) = $"file" -> forall c d l, path (o_url o) = PList ([c; d] :: l) -> std_alpha c = true -> d <> 124) ->
   set_attr E (SetPathname (get_pathname o)) o = (o, Ok tt)).
Proof. exact get_set. Qed.
Print Assumptions C82_get_set_partial.
Theorem C82_get_set_host_partial :
  forall E o, limit_ok E -> idna_ok E -> reached E o -> url_v4_ok (o_url o) ->
  (scheme (o_url o) = $"file" -> uhost (o_url o) <> Some (HStr $"localhost")) ->
  uhost (o_url o) <> None \/ has_opaque_path (o_url o) = true ->
  set_attr E (SetHostname (get_hostname o)) o = (o, Ok tt) /\
  ((port (o_url o) = Some 0 -> exists h, uhost (o_url o) = Some h /\ h <> HStr [] /\ scheme (o_url o) <> $"file") ->
   set_attr E (SetHost (get_host o)) o = (o, Ok tt)).
Proof. exact get_set_host. Qed.
Print Assumptions C82_get_set_host_partial.
(** the exact conditions; the last one assumes that ICU does not map away the ":" of a port that follows the host of a
    file URL (then the port is read as part of the host) *)
Theorem C82_get_set_exact :
  forall E o, reached E o ->
  (set_attr E (SetHash (get_hash o)) o = (o, Ok tt) <-> fragment (o_url o) <> Some []) /\
  (set_attr E (SetSearch (get_search o)) o = (o, Ok tt) <-> query (o_url o) <> Some []) /\
  (set_attr E (SetPathname (get_pathname o)) o = (o, Ok tt) <->
   (scheme (o_url o) = $"file" -> forall c d l, path (o_url o) = PList ([c; d] :: l) -> std_alpha c = true -> d <> 124)) /\
  (limit_ok E -> idna_ok E ->
   let kept := uhost (o_url o) <> None /\ url_v4_ok (o_url o) /\ (scheme (o_url o) = $"file" -> uhost (o_url o) <> Some (HStr $"localhost")) in
   (set_attr E (SetHostname (get_hostname o)) o = (o, Ok tt) <-> std_opaque (o_url o) \/ kept) /\
   (keeps_forbidden (code_to_ascii E) ->
    (set_attr E (SetHost (get_host o)) o = (o, Ok tt) <->
     std_opaque (o_url o) \/ kept /\ (port (o_url o) = Some 0 -> uhost (o_url o) <> Some (HStr []) /\ scheme (o_url o) <> $"file")))).
Proof. exact get_set_exact. Qed.
Print Assumptions C82_get_set_exact.
(** what happens to the empty and the absent components *)
Theorem C82_get_set_empty :
  forall E o, reached E o ->
  (fragment (o_url o) = Some [] -> set_attr E (SetHash (get_hash o)) o = (mkobj (potentially_rstrip E (set_fragment None (o_url o))) (o_list o), Ok tt)) /\
  (query (o_url o) = Some [] -> set_attr E (SetSearch (get_search o)) o = (mkobj (potentially_rstrip E (set_query None (o_url o))) [], Ok tt)) /\
  (uhost (o_url o) = None -> has_opaque_path (o_url o) = false ->
   set_attr E (SetHostname (get_hostname o)) o = (mkobj (set_host (Some (HStr [])) (o_url o)) (o_list o), Ok tt) /\
   set_attr E (SetHost (get_host o)) o = (mkobj (set_host (Some (HStr [])) (o_url o)) (o_list o), Ok tt)).
Proof. exact get_set_exceptions. Qed.
Print Assumptions C82_get_set_empty.
Example C82_case :
  let o := obj $"http://u%20:p@[::1]:99/a%2f/;b?x#y" in
  reached ascii_env o /\ get_host o = $"[::1]:99" /\ get_pathname o = $"/a%2f/;b" /\ uhost (o_url o) <> None /\
  Forall (fun s => set_attr ascii_env s o = (o, Ok tt))
    [SetProtocol (get_protocol o); SetUsername (get_username o); SetPassword (get_password o); SetHost (get_host o); SetHostname (get_hostname o);
     SetPort (get_port o); SetPathname (get_pathname o); SetSearch (get_search o); SetHash (get_hash o); SetHref (get_href o)].
Proof.
  split; [reach|]. split; [vm_compute; reflexivity|]. split; [vm_compute; reflexivity|]. split; [vm_compute; discriminate|].
  repeat (constructor; [vm_compute; reflexivity|]). constructor.
Qed.

(** C83 is false for host, whose value may or may not contain a port, for protocol,
    which may drop the port, and for hash and search on an opaque path, which may
    lose its trailing spaces. *)
Theorem C83_last_wins_refuted :
  Forall (fun x => let '(s, v, w) := x in reached ascii_env (obj s) /\
    fst (set_attr ascii_env w (fst (set_attr ascii_env v (obj s)))) <> fst (set_attr ascii_env w (obj s)))
    [($"http://g", SetHost $"h:1", SetHost $"i"); ($"http://g:443", SetProtocol $"https", SetProtocol $"ws");
     ($"a:x #f", SetHash [], SetHash $"g"); ($"a:x ?f", SetSearch [], SetSearch $"g")].
Proof. repeat (constructor; [split; [reach|vm_compute; discriminate]|]). constructor. Qed.
Print Assumptions C83_last_wins_refuted.
(** Missing: those. A port or host name that is ignored or refused leaves the
    value before it. *)
Theorem C83_last_wins_partial :
  forall E o v w,
  let after s := fst (set_attr E s o) in
  let ineffective t o1 := exists r, set_attr E t o = (o, r) /\ set_attr E t o1 = (o1, r) in
  set_attr E (SetUsername w) (after (SetUsername v)) = set_attr E (SetUsername w) o /\
  set_attr E (SetPassword w) (after (SetPassword v)) = set_attr E (SetPassword w) o /\
  set_attr E (SetPathname w) (after (SetPathname v)) = set_attr E (SetPathname w) o /\
  (has_opaque_path (o_url o) = false \/ v <> [] \/ w = [] ->
   set_attr E (SetHash w) (after (SetHash v)) = set_attr E (SetHash w) o /\
   set_attr E (SetSearch w) (after (SetSearch v)) = set_attr E (SetSearch w) o) /\
  (set_attr E (SetPort w) (after (SetPort v)) = set_attr E (SetPort w) o \/ ineffective (SetPort w) (after (SetPort v))) /\
  (set_attr E (SetHostname w) (after (SetHostname v)) = set_attr E (SetHostname w) o \/ ineffective (SetHostname w) (after (SetHostname v))) /\
  (forall c, snd (set_attr E (SetHref w) o) = Ok tt -> set_attr E (SetHref w) (do_call E c o) = set_attr E (SetHref w) o).
Proof. exact last_wins. Qed.
Print Assumptions C83_last_wins_partial.
(** hash and search, exactly *)
Theorem C83_last_wins_exact :
  forall E o v w, reached E o ->
  (set_attr E (SetHash w) (fst (set_attr E (SetHash v) o)) = set_attr E (SetHash w) o <->
   ~ (v = [] /\ w <> [] /\ query (o_url o) = None /\ exists p, path (o_url o) = POpaque (p ++ [32]))) /\
  (set_attr E (SetSearch w) (fst (set_attr E (SetSearch v) o)) = set_attr E (SetSearch w) o <->
   ~ (v = [] /\ w <> [] /\ fragment (o_url o) = None /\ exists p, path (o_url o) = POpaque (p ++ [32]))).
Proof. exact (fun E o v w H => conj (hash_wins_exact E o v w H) (search_wins_exact E o v w H)). Qed.
Print Assumptions C83_last_wins_exact.
Example C83_case :
  href_after [CSet (SetHostname $"a.b"); CSet (SetHostname $"c"); CSet (SetHostname $"d:9"); CSet (SetPort $"1"); CSet (SetPort $"x"); CSet (SetPort $"080x");
              CSet (SetPathname $"/q/.."); CSet (SetPathname $"r\s"); CSet (SetHash $"1"); CSet (SetHash [])] $"https://u@g:7/#z" = $"https://u@c:80/r/s".
Proof. vm_compute. reflexivity. Qed.

(** C84 *)
Theorem C84_independent_commute :
  forall E o c d, independent o c d ->
  do_call E d (do_call E c o) = do_call E c (do_call E d o) /\
  outcome E d (do_call E c o) = outcome E d o /\ outcome E c (do_call E d o) = outcome E c o.
Proof. exact (fun E o c d H => proj1 (independent_commute E o c d H)). Qed.
Print Assumptions C84_independent_commute.
(** No pair of calls on different components is missing from [independent]. *)
Theorem C84_no_others :
  Forall (fun x => let '(s, c, d) := x in reached ascii_env (obj s) /\
    do_call ascii_env d (do_call ascii_env c (obj s)) <> do_call ascii_env c (do_call ascii_env d (obj s)))
  ([($"http://h", CSet (SetUsername $"u"), CSet (SetProtocol $"file")); ($"http://h", CSet (SetPassword $"u"), CSet (SetProtocol $"file"));
    ($"http://h", CSet (SetPort $"80"), CSet (SetProtocol $"https"))] ++
   [($"a:/x", CSet (SetUsername $"u"), CSet (SetHost $"h")); ($"a:/x", CSet (SetPassword $"u"), CSet (SetHost $"h"));
    ($"a:/x", CSet (SetPort $"1"), CSet (SetHost $"h")); ($"a:/x", CSet (SetPathname []), CSet (SetHost $"h"))] ++
   [($"a:/x", CSet (SetUsername $"u"), CSet (SetHostname $"h")); ($"a:/x", CSet (SetPassword $"u"), CSet (SetHostname $"h"));
    ($"a:/x", CSet (SetPort $"1"), CSet (SetHostname $"h")); ($"a:/x", CSet (SetPathname []), CSet (SetHostname $"h"))] ++
   [($"http://h", CSet (SetPathname $"C|"), CSet (SetProtocol $"file")); ($"http://h", CSet (SetHost $"localhost"), CSet (SetProtocol $"file"));
    ($"http://h", CSet (SetHostname $"localhost"), CSet (SetProtocol $"file"))] ++
   [($"a:x ?q", CSet (SetSearch []), CSet (SetHash $"f")); ($"a:x ?q", CParams (OpDelete $"q" None), CSet (SetHash $"f"))]).
Proof. cbn [app]. repeat (constructor; [split; [reach|vm_compute; discriminate]|]). constructor. Qed.
Print Assumptions C84_no_others.
Example C84_case :
  let o := obj $"http://g/p?a=1#f" in
  independent o (CParams (OpAppend $"b" (PVStr $"2"))) (CSet (SetHash [])) /\ independent o (CSet (SetHost $"h:5")) (CSet (SetSearch $"x")) /\
  get_href (do_calls ascii_env [CParams (OpAppend $"b" (PVStr $"2")); CSet (SetHash [])] o) = $"http://g/p?a=1&b=2" /\
  get_href (do_calls ascii_env [CSet (SetSearch $"x"); CSet (SetHost $"h:5")] o) = $"http://h:5/p?x#f".
Proof.
  split; [apply ind_query_hash; [vm_compute; discriminate|constructor..]|]. split; [apply ind_scheme_host_query; constructor|].
  split; vm_compute; reflexivity.
Qed.
