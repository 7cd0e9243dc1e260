(** C128: the debug records of the parser. *)
From Coq Require Import Ascii String.
From Coq Require Import NArith ZArith Bool Arith List.
From Verif Require Import PyStr PyInt Codec Env HostModel UrlRecord Parser SearchParams UrlApi Repr Message MsgHost MsgParser MsgApi ExampleEnv Trace TraceProofs PropMessages PropValidity SpecUrl SpecParser SpecTrace.
Import ListNotations.
Open Scope N_scope.

(** C128: a call of BasicURLParser.parse writes at most 12 debug records, 3 for a setter. The first one has
    the start state as state before, every other one the state after of the previous one; each pair of states
    is an edge of the standard's state machine; the index never goes back and never leaves the input. The last
    state after is EOF if and only if the call returns, and the record shows the result then. The messages
    that a ValidityState gets, and the result, are those of MsgParser.v. *)
Theorem C128_trace :
  (forall X s base enc so u, match so with None => True | Some o => In o setter_states end ->
     let '(l, (u', r)) := t_parse_into X s base enc so u in
     let start := match so with None => SCHEME_START | Some o => o end in
     m_parse_into X s base enc so u = (recorded l, (u', r))
     /\ chain (match so with None => successors | Some _ => override_successors end) (length (std_strip_tabs s)) start 0 (steps l)
     /\ (length (steps l) <= match so with None => 12 | Some _ => 3 end)%nat
     /\ match r with MOk _ => last_state start (steps l) = EOF /\ last_url u l = u' | MErr _ _ => last_state start (steps l) <> EOF end) /\
  (forall X s base enc,
     let '(l, r) := t_parse_new X s base enc in
     m_parse_new X s base enc = (recorded l, r)
     /\ chain successors (length (std_input s)) SCHEME_START 0 (steps l)
     /\ (length (steps l) <= 12)%nat
     /\ match r with MOk u => last_state SCHEME_START (steps l) = EOF /\ last_url new_url l = u | MErr _ _ => last_state SCHEME_START (steps l) <> EOF end) /\
  (forall X s base enc, m_parse_url X s base enc = (recorded (fst (t_parse_url X s base enc)), snd (t_parse_url X s base enc))).
Proof. exact (conj trace_into (conj trace_new trace_url)). Qed.
Print Assumptions C128_trace.

Definition edges (l : list event) : list (pstate * pstate) := map fst (steps l).
Definition example_base (s : list N) : option urlrec := match snd (t_parse_new plain_menv s None UTF8) with MOk u => Some u | MErr _ _ => None end.
Definition seen (sb : list N * list N) : list (pstate * pstate) := edges (fst (t_parse_new plain_menv (fst sb) (example_base (snd sb)) UTF8)).
Definition example_inputs : list (list N * list N) :=
  [($"//u@h:80/p?q#f", $"http://b"); ($"http:x", $"http://b"); ($"http://b", $"http://b"); ($"ws:x?#", []); ($"a://x?q", []); ($"a:x?q#f", []); ($"a:x#f", []); ($"a:/x", []); ($"a:", []); ($"a://", []); ($"a://h#", []);
   ($"#f", $"a:x"); ($"x", $"http://b"); ($"?", $"http://b"); ($"#", $"http://b"); ([], $"http://b"); ($"/x", $"http://b"); ($"//x", $"a://b"); ($"?", $"file:///b"); ($"#", $"file:///b");
   ($"file:x", []); ($"file:///x#", []); ($"file:/x", []); ($"file://c:/", []); ($"file://h/x?", [])].
Definition some_record (s : list N) : urlrec := match example_base s with Some u => u | None => new_url end.
Definition override_seen (x : list N * pstate * list N) : list (pstate * pstate) :=
  let '(s, so, b) := x in edges (fst (t_parse_into plain_menv s None UTF8 (Some so) (some_record b))).
Definition override_inputs : list (list N * pstate * list N) :=
  [($"ws:", SCHEME_START, $"http://b"); ($"c", HOST, $"file:///x"); ($"c:80", HOST, $"http://b"); ($"c", HOST, $"http://b"); ($"c", HOSTNAME, $"file:///x"); ($"c", HOSTNAME, $"http://b");
   ($"/x", PATH_START, $"http://b"); ([], PATH_START, $"a://b"); ($"q", QUERY, $"http://b?#"); ($"80", PORT, $"http://b")].

(** every edge of the two graphs occurs *)
Theorem C128_every_edge :
  (forall st next, In next (successors st) ->
     exists s base, In (st, next) (edges (fst (t_parse_new plain_menv s base UTF8)))) /\
  (forall st next, In next (override_successors st) ->
     exists s so u, In so setter_states /\ In (st, next) (edges (fst (t_parse_into plain_menv s None UTF8 (Some so) u)))).
Proof.
  split.
  - intros st next H. assert (K : exists sb, In sb example_inputs /\ In (st, next) (seen sb)).
    { apply in_flat_map. change (In (st, next) (flat_map seen example_inputs)).
      let v := eval vm_compute in (flat_map seen example_inputs) in assert (V : flat_map seen example_inputs = v) by (vm_compute; reflexivity). rewrite V. clear V.
      destruct st; cbn [successors In] in H; repeat (destruct H as [<-|H]; [cbn [In]; repeat first [left; reflexivity | right]|]); try contradiction. }
    destruct K as ([s b] & _ & K). exists s, (example_base b). exact K.
  - intros st next H. assert (K : exists x, In x override_inputs /\ In (st, next) (override_seen x)).
    { apply in_flat_map. change (In (st, next) (flat_map override_seen override_inputs)).
      let v := eval vm_compute in (flat_map override_seen override_inputs) in assert (V : flat_map override_seen override_inputs = v) by (vm_compute; reflexivity). rewrite V. clear V.
      destruct st; cbn [override_successors In] in H; repeat (destruct H as [<-|H]; [cbn [In]; repeat first [left; reflexivity | right]|]); try contradiction. }
    destruct K as ([[s so] b] & I & K). exists s, so, (some_record b). split; [|exact K].
    unfold override_inputs in I. cbn [In] in I. repeat (destruct I as [I|I]; [injection I as _ <- _; cbn [setter_states In]; tauto|]). destruct I.
Qed.
Print Assumptions C128_every_edge.

(** the text of a record *)
Theorem C128_text :
  forall X s base so prev next i u b r,
    match base with None => b = $"None" | Some v => record_repr (m_env X) (m_print X) v = Ok b end ->
    record_repr (m_env X) (m_print X) u = Ok r -> repr_fails (m_env X) (N.of_nat i) = false ->
    step_text X s base so prev next i u =
    Ok ($"input=" ++ repr_str (m_print X) s ++ $", base=" ++ b ++ $", state_override=" ++ match so with None => $"None" | Some st => state_repr st end
        ++ $", state=" ++ state_repr prev ++ [32; 8594; 32] ++ state_repr next ++ $", index=" ++ dec_str (N.of_nat i) ++ $", url=" ++ r).
Proof. exact step_text_ok. Qed.
Print Assumptions C128_text.

(** The states in these texts: their names are those of the standard, numbered as in the enumeration; the end
    has the number -1. No two states have the same text. *)
Theorem C128_states :
  state_repr EOF = $"<URLParserState.EOF: -1>" /\
  (forall st, st <> EOF -> exists i name, nth_error standard_states i = Some (st, name) /\
     state_repr st = $"<URLParserState." ++ constant_name name ++ $": " ++ dec_str (N.of_nat (S i)) ++ $">") /\
  (forall st st', state_repr st = state_repr st' -> st = st').
Proof.
  split; [vm_compute; reflexivity|]. split.
  - intros st H. assert (K : In st (map fst standard_states)) by (destruct st; try congruence; cbn; tauto). apply in_map_iff in K as ((st' & name) & K & I). cbn [fst] in K. subst st'.
    apply In_nth_error in I as (i & I). exists i, name. split; [exact I|]. clear H.
    do 21 (destruct i as [|i]; [cbn [standard_states nth_error] in I; injection I as <- <-; vm_compute; reflexivity|]). destruct i; discriminate I.
  - intros st st' H. destruct st; destruct st'; try reflexivity; vm_compute in H; discriminate H.
Qed.
Print Assumptions C128_states.
Example C128_states_case : state_repr NO_SCHEME = $"<URLParserState.NO_SCHEME_STATE: 8>" /\ constant_name $"no scheme" = $"NO_SCHEME_STATE".
Proof. split; vm_compute; reflexivity. Qed.

(** the bounds are reached *)
Example C128_longest :
  steps (fst (t_parse_new plain_menv $"//u@h:80/p?q#f" (example_base $"http://b") UTF8)) =
    [(SCHEME_START, NO_SCHEME, 0); (NO_SCHEME, RELATIVE, 0); (RELATIVE, RELATIVE_SLASH, 1); (RELATIVE_SLASH, SPECIAL_AUTHORITY_IGNORE_SLASHES, 2);
     (SPECIAL_AUTHORITY_IGNORE_SLASHES, AUTHORITY, 2); (AUTHORITY, HOST, 4); (HOST, PORT, 6); (PORT, PATH_START, 8); (PATH_START, PATH, 9); (PATH, QUERY, 11); (QUERY, FRAGMENT, 13); (FRAGMENT, EOF, 14)]%nat /\
  steps (fst (t_parse_into plain_menv $"/x" None UTF8 (Some PATH_START) (some_record $"http://b"))) = [(PATH_START, PATH, 1); (PATH, OPAQUE_PATH, 2); (OPAQUE_PATH, EOF, 2)]%nat /\
  steps (fst (t_parse_new plain_menv $"http://u@h:x" None UTF8)) =
    [(SCHEME_START, SPECIAL_AUTHORITY_SLASHES, 5); (SPECIAL_AUTHORITY_SLASHES, SPECIAL_AUTHORITY_IGNORE_SLASHES, 7); (SPECIAL_AUTHORITY_IGNORE_SLASHES, AUTHORITY, 7); (AUTHORITY, HOST, 9); (HOST, PORT, 11)]%nat.
Proof. repeat split; vm_compute; reflexivity. Qed.
Example C128_debug :
  map (fun ev => match ev with Note en => e_text en | Step a b i u => match step_text ascii_menv $"a:^" None None a b i u with Ok t => Some t | Err _ => None end end)
    (fst (t_parse_new ascii_menv $"a:^" None UTF8)) =
  map (@Some (list N))
    [$"input='a:^', base=None, state_override=None, state=<URLParserState.SCHEME_START_STATE: 17> " ++ [8594] ++ $" <URLParserState.OPAQUE_PATH_STATE: 9>, index=2, url=URLRecord(scheme='a', username='', password='', host=None, port=None, path='', query=None, fragment=None)";
     $"invalid-URL-unit: code point is found that is not a URL unit: U+005E (^) in 'a:^' at position 2";
     $"input='a:^', base=None, state_override=None, state=<URLParserState.OPAQUE_PATH_STATE: 9> " ++ [8594] ++ $" <URLParserState.EOF: -1>, index=3, url=URLRecord(scheme='a', username='', password='', host=None, port=None, path='^', query=None, fragment=None)"].
Proof. vm_compute. reflexivity. Qed.
