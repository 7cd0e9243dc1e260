(** C139: [BasicURLParser.parse(s, base=u, url=u)], one object as [url] and as [base]
    (the heap model of HeapParser.v, where [hparse_into E i s (Some i)] is this call). *)
From Coq Require Import Ascii String.
From Coq Require Import NArith ZArith Bool Arith Lia List.
From Verif Require Import PyStr PyInt Codec Env HostModel UrlRecord Parser HeapParser HeapProofs AliasProofs AliasOverride ExampleEnv SpecText SpecUrl SpecParser SpecWriting.
Import ListNotations.
Open Scope N_scope.

(** the heap with the record of one URL, the call, and the call with a copy as the base *)
Definition heap_of (s : string) : heap := hexec ascii_env (OpParse (s2l s) HBNone UTF8) (mkheap [] []).
Definition same_object (u s : string) : res str :=
  let r := hparse_into ascii_env 0 (s2l s) (Some 0%nat) UTF8 None (heap_of u) in
  match snd (snd r) with Ok _ => Ok (href (read (fst (snd r)) 0)) | Err e => Err e end.
Definition a_copy (u s : string) : res str :=
  let r := parse_into ascii_env (s2l s) (Some (read (heap_of u) 0)) UTF8 None (read (heap_of u) 0) in
  match snd (snd r) with Ok _ => Ok (href (fst (snd r))) | Err e => Err e end.
Lemma heap_of_reached s : heap_reached ascii_env (heap_of s).
Proof. exact (hr_op _ _ (OpParse (s2l s) HBNone UTF8) (hr_empty _) I). Qed.

(** It is not the same as the call with a copy of u as the base: the scheme of the input
    is stored in u, and an empty host in a file URL, before the base is looked at. *)
Theorem C139_copy_refuted :
  (same_object "http://h/a/b?q#f" "https:c" = Ok $"https://h/a/c#f" /\ a_copy "http://h/a/b?q#f" "https:c" = Ok $"https://c/a/b/?q#f") /\
  (same_object "file://h/a/b?q#f" "c" = Ok $"file:///a/c#f" /\ a_copy "file://h/a/b?q#f" "c" = Ok $"file://h/a/c#f") /\
  (same_object "http://h/a/b?q#f" "file:c" = Ok $"file:///a/c#f" /\ a_copy "http://h/a/b?q#f" "file:c" = Ok $"file:///a/b/c?q#f").
Proof. vm_compute. repeat split. Qed.
Print Assumptions C139_copy_refuted.
(** It is the call with a copy in which just these two fields are changed, for every
    record, input and encoding: the same reports, the same outcome, and the same record
    afterwards. *)
Theorem C139_copy_partial :
  forall E h i s enc, heap_reached E h -> (i < length (objs h))%nat ->
  let u := read h i in
  let out := hparse_into E i s (Some i) enc None h in
  (forall sch t, std_strip_tabs s = sch ++ 58 :: t -> std_scheme sch = true ->
     (fst out, (read (fst (snd out)) i, snd (snd out))) =
     parse_into E s (Some (let v := set_scheme (std_lower sch) u in if str_eqb (std_lower sch) $"file" then set_host (Some (HStr [])) v else v)) enc None u) /\
  (scheme_less (std_strip_tabs s) ->
     (fst out, (read (fst (snd out)) i, snd (snd out))) =
     parse_into E s (Some (if str_eqb (scheme u) $"file" then set_host (Some (HStr [])) u else u)) enc None u).
Proof. exact alias_exact. Qed.
Print Assumptions C139_copy_partial.
(** No other record changes, with any state override. *)
Theorem C139_others :
  forall E h i s enc so j, heap_reached E h -> (i < length (objs h))%nat -> (j < length (objs h))%nat -> j <> i ->
    read (fst (snd (hparse_into E i s (Some i) enc so h))) j = read h j.
Proof. exact (fun E h i s enc so j R L J N => proj1 (self_call E h i s enc so R L) j J N). Qed.
Print Assumptions C139_others.
(** With a state override: the call with a copy, in which two fields are changed if the parser starts in
    the file state, or in the no scheme state and u is a file URL. Every state can be the override. *)
Theorem C139_override :
  forall E h i s enc o, heap_reached E h -> (i < length (objs h))%nat ->
  let u := read h i in
  let out := hparse_into E i s (Some i) enc (Some o) h in
  let copy := match o with
              | FILE => set_host (Some (HStr [])) (set_scheme $"file" u)
              | NO_SCHEME => if str_eqb (scheme u) $"file" then set_host (Some (HStr [])) u else u
              | _ => u
              end in
  (fst out, (read (fst (snd out)) i, snd (snd out))) = parse_into E s (Some copy) enc (Some o) u.
Proof. exact alias_override. Qed.
Print Assumptions C139_override.
(** Only six states look at the base under an override, and no setter uses one of these. *)
Theorem C139_base_unused :
  forall E s base base' enc o u, ~ In o [NO_SCHEME; RELATIVE; RELATIVE_SLASH; SPECIAL_RELATIVE_OR_AUTHORITY; FILE; FILE_SLASH] ->
  parse_into E s base enc (Some o) u = parse_into E s base' enc (Some o) u.
Proof.
  intros E s base base' enc o u H. assert (D : o = SCHEME \/ In o (SCHEME_START :: clear)).
  { unfold clear, free. destruct o; cbn [In] in *; tauto. }
  destruct D as [->|D]; [reflexivity|now apply override_base].
Qed.
Print Assumptions C139_base_unused.
(** the six do *)
Theorem C139_base_used :
  forall o, In o [NO_SCHEME; RELATIVE; RELATIVE_SLASH; SPECIAL_RELATIVE_OR_AUTHORITY; FILE; FILE_SLASH] ->
  exists s b b' u, parse_into ascii_env s (Some b) UTF8 (Some o) u <> parse_into ascii_env s (Some b') UTF8 (Some o) u.
Proof.
  set (b := read (heap_of "http://k/a") 0). set (f := read (heap_of "file://h/a") 0). intros o H. cbn [In] in H. repeat destruct H as [<-|H]; try contradiction; exists $"x", b, f, new_url; vm_compute; discriminate.
Qed.
Print Assumptions C139_base_used.
Example C139_override_case :
  let r := hparse_into ascii_env 0 $"c" (Some 0%nat) UTF8 (Some FILE) (heap_of "file://h/a/b?q#f") in
  snd (snd r) = Ok tt /\ href (read (fst (snd r)) 0) = $"file:///a/c#f" /\
  (let p := parse_into ascii_env $"c" (Some (read (heap_of "file://h/a/b?q#f") 0)) UTF8 (Some FILE) (read (heap_of "file://h/a/b?q#f") 0) in href (fst (snd p)) = $"file://h/a/c#f").
Proof. vm_compute. repeat split. Qed.
(** For references without scheme and leading slash it resolves in place: u becomes the
    record that [parse(s, base=u)] returns, with the old fragment if that has none. (For
    a file URL the host must be empty.) *)
Theorem C139_resolves_partial :
  forall E h i s enc, heap_reached E h -> (i < length (objs h))%nat -> std_rstrip (std_lstrip s) = s ->
  let u := read h i in
  let out := hparse_into E i s (Some i) enc None h in
  scheme_less (std_strip_tabs s) -> (forall c t, std_strip_tabs s = c :: t -> c <> 47 /\ (std_special (scheme u) -> c <> 92)) ->
  (std_opaque_path u = true -> username u = [] /\ password u = [] /\ uhost u = None /\ port u = None) ->
  (std_opaque_path u = false -> scheme u = $"file" -> username u = [] /\ password u = [] /\ uhost u = Some (HStr []) /\ port u = None) ->
  fst out = fst (parse_new E s (Some u) enc) /\
  match snd (parse_new E s (Some u) enc) with
  | Ok v => snd (snd out) = Ok tt /\ read (fst (snd out)) i = match fragment v with None => set_fragment (fragment u) v | Some _ => v end
  | Err e => snd (snd out) = Err e
  end.
Proof. exact alias_resolves. Qed.
Print Assumptions C139_resolves_partial.
(** It does not for references with a leading slash, whose path is added to that of u. *)
Theorem C139_resolves_refuted :
  same_object "http://h/a/b?q#f" "/c" = Ok $"http://h/a/b/c?q#f" /\
  match snd (parse_url ascii_env $"/c" (BStr $"http://h/a/b?q#f") UTF8) with Ok v => href v | Err _ => [] end = $"http://h/c".
Proof. vm_compute. repeat split. Qed.
Print Assumptions C139_resolves_refuted.
Example C139_case :
  heap_reached ascii_env (heap_of "http://h/a/b?q#f") /\ length (objs (heap_of "http://h/a/b?q#f")) = 1%nat /\
  same_object "http://h/a/b?q#f" "../c" = Ok $"http://h/c#f" /\ same_object "http://h/a/b?q#f" "?c#g" = Ok $"http://h/a/b?c#g" /\
  same_object "mailto:x" "#g" = Ok $"mailto:x#g" /\ same_object "mailto:x" "y" = Err EURLParse /\ same_object "file:///a/b" "c" = Ok $"file:///a/c" /\
  same_object "http://h/a/b" "http:c" = Ok $"http://h/a/c".
Proof. split; [apply heap_of_reached|]. vm_compute. repeat split. Qed.
