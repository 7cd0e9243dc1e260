(** Property theorems C86 - C88: programs with any number of URL, URLSearchParams, URL
    record and iterator objects. *)
From Coq Require Import Ascii String.
From Coq Require Import NArith ZArith Bool Arith Lia List.
From Verif Require Import PyStr PyInt Codec Env HostModel UrlRecord Parser SearchParams UrlApi HeapParser World SpecText SpecApi SpecWorld.
From Verif Require Import WorldProofs AttachProofs ExampleEnv.
Import ListNotations.
Open Scope N_scope.

Lemma seen_at (x : option pairs) (f : pairs -> Prop) : (forall l, x = Some l -> f l) -> match x with Some l => f l | None => True end.
Proof. destruct x; auto. Qed.
Lemma shows_url_at w i : shows_url w i -> match see_url w i with Some o => o_list o = pairs_of_query (o_url o) | None => True end.
Proof. unfold shows_url. destruct (see_url w i); auto. Qed.
Lemma shows_record_at w p : shows_record w p -> match nth_error (w_params w) p with
  | Some (mkpobj _ (Some r)) => see_params w p = Some (pairs_of_query (read (w_heap w) r))
  | _ => True end.
Proof. unfold shows_record. intros H. destruct (nth_error (w_params w) p) as [[l [r|]]|]; [exact (H _ r eq_refl eq_refl)|exact I|exact I]. Qed.

(** C86. [wrun] runs a program on the heap of World.v, where objects refer to each
    other; [lone_run] runs it on separate values: URL objects changed one at a time by
    the setters of UrlApi.v, lists, and records that never change. *)
Theorem C86_objects_isolated :
  forall E prog, Forall unattached prog ->
  let w := fst (wrun E prog empty_world) in let a := lone_run E prog (mklone [] [] []) in
  (forall i, see_url w i = nth_error (a_urls a) i) /\ (forall p, see_params w p = lone_params a p) /\ (forall k, see_rec w k = nth_error (a_recs a) k) /\
  (forall o, unattached o -> ~ is_next o -> snd (wstep E o w) = snd (lone_step E o a)).
Proof. exact programs. Qed.
Print Assumptions C86_objects_isolated.
(** so what is proved of the URL objects of one-object histories holds of all of them *)
Theorem C86_all_reached :
  forall E prog i o, Forall unattached prog -> Forall wop_ok prog -> see_url (fst (wrun E prog empty_world)) i = Some o -> reached E o.
Proof. exact programs_reached. Qed.
Print Assumptions C86_all_reached.
(** only its own setters and the calls on its own search_params change a URL object *)
Theorem C86_others_unchanged :
  forall E prog c i, Forall unattached prog -> unattached c ->
  let w := fst (wrun E prog empty_world) in
  ~ concerns w c i -> see_url w i <> None -> see_url (fst (wstep E c w)) i = see_url w i.
Proof. exact programs_frame. Qed.
Print Assumptions C86_others_unchanged.
Definition href_at (prog : list wop) (i : nat) : option str := option_map get_href (see_url (fst (wrun ascii_env prog empty_world)) i).
Definition demo : list wop :=
  [WUrl $"http://h/a/b?x=1" WBNone; WUrl $"../c?y=2" (WBUrl 0); WCopy 0; WParams (InitStr $"?k=v");
   WCall 0 (OpAppend $"z" (PVStr $"3")); WSet 1 (SetHref $"file:///d?e"); WCall 1 (OpSet $"e" (PVNum $"5"));
   WCall 2 (OpDelete $"x" None); WCall 3 OpSort; WSet 0 (SetPathname $"/q"); WSet 0 (SetPort $"99999"); WRecord $"http://r" RBNone; WRecord $"s" (RBRec 0)].
Example C86_case :
  Forall unattached demo /\ Forall wop_ok demo /\
  href_at demo 0 = Some $"http://h/q?x=1&z=3" /\ href_at demo 1 = Some $"file:///d?e=5" /\
  see_params (fst (wrun ascii_env demo empty_world)) 2 = Some [] /\
  see_params (fst (wrun ascii_env demo empty_world)) 1 = Some [($"e", $"5")] /\
  option_map href (see_rec (fst (wrun ascii_env demo empty_world)) 1) = Some $"http://r/s" /\
  ~ concerns (fst (wrun ascii_env demo empty_world)) (WCall 2 OpSort) 0 /\
  concerns (fst (wrun ascii_env demo empty_world)) (WCall 1 OpSort) 1.
Proof.
  split; [repeat constructor|]. split; [repeat constructor; vm_compute; intuition congruence|].
  repeat split; try (vm_compute; reflexivity).
  - intros (u & H & K). vm_compute in H. injection H as <-. discriminate K.
  - eexists. split; vm_compute; reflexivity.
Qed.

(** C87: false. url.search_params.attach(record) takes the object away from its URL
    object, and of two objects on one record only one follows. *)
Theorem C87_always_shown_refuted :
  ~ (forall E prog, Forall wop_ok prog -> forall i, shows_url (fst (wrun E prog empty_world)) i) /\
  ~ (forall E prog, Forall wop_ok prog -> forall p, shows_record (fst (wrun E prog empty_world)) p).
Proof.
  split; intros H.
  - specialize (H ascii_env [WUrl $"http://h?a=1" WBNone; WRecord $"http://r?b=2" RBNone; WAttach 0 0; WCall 0 (OpAppend $"c" (PVStr $"3"))]
      ltac:(repeat constructor; vm_compute; intuition congruence) 0%nat).
    apply shows_url_at in H. vm_compute in H. discriminate H.
  - specialize (H ascii_env [WRecord $"http://r?b=2" RBNone; WOf 0; WOf 0; WCall 0 (OpAppend $"c" (PVStr $"3"))]
      ltac:(repeat constructor; vm_compute; intuition congruence) 1%nat).
    apply shows_record_at in H. vm_compute in H. discriminate H.
Qed.
Print Assumptions C87_always_shown_refuted.
(** ... proved for all programs, attach included, in which nobody else writes the query
    of the record of [p] ... *)
Theorem C87_record_shown_partial :
  forall E prog p, Forall wop_ok prog -> unshared E p prog empty_world -> shows_record (fst (wrun E prog empty_world)) p.
Proof. exact unshared_shows. Qed.
Print Assumptions C87_record_shown_partial.
(** ... and for the URL objects of programs that do not call attach. *)
Theorem C87_url_shown_partial :
  forall E prog i, Forall unattached prog -> Forall wop_ok prog -> shows_url (fst (wrun E prog empty_world)) i.
Proof. exact unattached_shows. Qed.
Print Assumptions C87_url_shown_partial.
Definition attached : list wop :=
  [WUrl $"http://h?a=1" WBNone; WRecord $"http://r?b=2" RBNone; WAttach 0 0; WCall 0 (OpAppend $"c" (PVStr $"+ 3")); WOf 0; WSet 0 (SetHash $"f")].
Example C87_case :
  Forall wop_ok attached /\ unshared ascii_env 0 attached empty_world /\
  option_map href (see_rec (fst (wrun ascii_env attached empty_world)) 0) = Some $"http://r/?b=2&c=%2B+3" /\
  see_params (fst (wrun ascii_env attached empty_world)) 0 = Some [($"b", $"2"); ($"c", $"+ 3")].
Proof.
  split; [repeat constructor; vm_compute; intuition congruence|]. split; [|split; vm_compute; reflexivity].
  cbn [unshared attached]. repeat split; try (intros (q & r & _ & _ & []); fail).
  intros (q & r & _ & _ & K & _). now apply K.
Qed.

(** C88: false. An iterator from entries() or iter() that has ended stays at its end, and
    goes on over the old list after an assignment to search or href; those of keys() and
    values() show the list of the time of the call. *)
Theorem C88_live_refuted :
  ~ (forall E prog, let w := fst (wrun E prog empty_world) in forall p prog2 l, let w1 := fst (wstep E (WEntries p) w) in
     let k := length (w_iters w) in let w2 := fst (wrun E prog2 w1) in
     see_params w2 p = Some l -> snd (wstep E (WNext k) w2) = live_next l (got E k prog2 w1)) /\
  ~ (forall E prog, let w := fst (wrun E prog empty_world) in forall p prog2 l, let w1 := fst (wstep E (WKeys p) w) in
     let k := length (w_iters w) in let w2 := fst (wrun E prog2 w1) in
     see_params w2 p = Some l -> snd (wstep E (WNext k) w2) = live_name fst l (got E k prog2 w1)).
Proof.
  split.
  - intros H. specialize (H ascii_env [WUrl $"http://h?a=1" WBNone]). cbv zeta in H. specialize (H 0%nat [WSet 0 (SetSearch $"b=2")]).
    apply seen_at in H. vm_compute in H. discriminate H.
  - intros H. specialize (H ascii_env [WUrl $"http://h?a=1" WBNone]). cbv zeta in H. specialize (H 0%nat [WCall 0 (OpDelete $"a" None)]).
    apply seen_at in H. vm_compute in H. discriminate H.
Qed.
Print Assumptions C88_live_refuted.
Theorem C88_ended_refuted :
  ~ (forall E prog, let w := fst (wrun E prog empty_world) in forall p prog2 l, let w1 := fst (wstep E (WEntries p) w) in
     let k := length (w_iters w) in let w2 := fst (wrun E prog2 w1) in
     (forall o, In o prog2 -> ~ rebinds w o p) ->
     see_params w2 p = Some l -> snd (wstep E (WNext k) w2) = live_next l (got E k prog2 w1)).
Proof.
  intros H. specialize (H ascii_env [WParams (InitStr $"a=1")]). cbv zeta in H. specialize (H 0%nat [WNext 0; WNext 0; WCall 0 (OpAppend $"b" (PVStr $"2"))]).
  assert (K : forall (A : Prop) (x : option pairs) (f : pairs -> Prop), A -> (forall l, A -> x = Some l -> f l) -> match x with Some l => f l | None => True end)
    by (intros A [l|] f HA G; auto).
  eapply K in H; [|intros o [<-|[<-|[<-|[]]]]; intros []]. vm_compute in H. discriminate H.
Qed.
Print Assumptions C88_ended_refuted.
(** [w] is any state of a program. The iterator of entries() is WebIDL's as long as the
    object keeps its list and the end has not been reached ... *)
Theorem C88_entries_partial :
  forall E w p prog, let k := length (w_iters w) in let w1 := fst (wstep E (WEntries p) w) in let w2 := fst (wrun E prog w1) in
  see_params w p <> None -> undisturbed E p k prog w1 ->
  exists l, see_params w2 p = Some l /\ snd (wstep E (WNext k) w2) = live_next l (got E k prog w1).
Proof. exact entries_got. Qed.
Print Assumptions C88_entries_partial.
(** ... an iterator that has ended does not go on, whatever happens to its list ... *)
Theorem C88_ended :
  forall E w k prog, snd (wstep E (WNext k) w) = AStop -> snd (wstep E (WNext k) (fst (wrun E prog (fst (wstep E (WNext k) w))))) = AStop.
Proof. exact ended. Qed.
Print Assumptions C88_ended.
(** ... and keys() and values() give the names and values of the time of the call. *)
Theorem C88_names_snapshot :
  forall E w p l prog, see_params w p = Some l -> let k := length (w_iters w) in
  snd (wstep E (WNext k) (fst (wrun E prog (fst (wstep E (WKeys p) w))))) = live_name fst l (nexts k prog) /\
  snd (wstep E (WNext k) (fst (wrun E prog (fst (wstep E (WValues p) w))))) = live_name snd l (nexts k prog).
Proof. exact names_snapshot. Qed.
Print Assumptions C88_names_snapshot.
Definition two : world := fst (wrun ascii_env [WUrl $"http://h?a=1&b=2" WBNone] empty_world).
Example C88_case :
  let prog := [WNext 0; WCall 0 (OpAppend $"c" (PVStr $"3")); WCall 0 (OpDelete $"a" None); WSet 0 (SetHash $"x")] in
  undisturbed ascii_env 0 0 prog (fst (wstep ascii_env (WEntries 0) two)) /\
  snd (wrun ascii_env (WEntries 0 :: prog ++ [WNext 0; WNext 0; WNext 0]) two) =
    [ANone; APair ($"a", $"1"); ANone; ANone; ANone; APair ($"c", $"3"); AStop; AStop] /\
  snd (wrun ascii_env (WKeys 0 :: prog ++ [WNext 0; WNext 0]) two) = [ANone; AName $"a"; ANone; ANone; ANone; AName $"b"; AStop].
Proof.
  cbv zeta. split; [|split; vm_compute; reflexivity]. cbn [undisturbed].
  split; [intros []|]. split; [intros _; vm_compute; discriminate|]. split; [intros []|]. split; [intros K; exfalso; discriminate K|].
  split; [intros []|]. split; [intros K; exfalso; discriminate K|]. split; [intros []|]. split; [intros K; exfalso; discriminate K|exact I].
Qed.
