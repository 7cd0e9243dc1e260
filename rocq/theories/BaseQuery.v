(** What the query and the fragment of the base have to do with the result. *)
From Coq Require Import Ascii String.
From Coq Require Import NArith ZArith Bool Arith Lia List.
From Verif Require Import PyStr PyInt Codec Env HostModel UrlRecord Parser.
Import ListNotations.
Open Scope N_scope.

(** * The query *)
Section Query.
Context (E : env) (b : urlrec) (q : option str).
Let b' := set_query q b.

Definition twin (u u' : urlrec) : Prop := u = u' \/ (query u = query b /\ u' = set_query q u).
(** the states that can follow a copied query, with their inputs *)
Definition after (st : pstate) (rest : str) : Prop :=
  st = FRAGMENT \/ st = EOF \/ ((st = PATH \/ st = OPAQUE_PATH) /\ rest = []).
Definition paired {A} (ok : A -> Prop) (x y : list verr * (urlrec * res A)) : Prop :=
  fst x = fst y /\ snd (snd x) = snd (snd y) /\
  (fst (snd x) = fst (snd y) \/
   ((query (fst (snd x)) = query b /\ fst (snd y) = set_query q (fst (snd x))) /\ match snd (snd x) with Ok a => ok a | Err _ => True end)).

Lemma paired_refl {A} (ok : A -> Prop) x : paired ok x x.
Proof. unfold paired. auto. Qed.

Lemma check_blind c t u : exists l r, check_unit c t u = (l, (u, r)) /\ check_unit c t (set_query q u) = (l, (set_query q u, r)).
Proof.
  unfold check_unit, when, logm, ret, bind. repeat match goal with |- context[if ?x then _ else _] => destruct x end; eauto.
Qed.
Lemma fragment_blind rest : forall i buffer u, exists l w r,
  fragment_loop rest i buffer u = (l, (w, r)) /\ fragment_loop rest i buffer (set_query q u) = (l, (set_query q w, r)) /\
  query w = query u /\ match r with Ok (st, _) => st = EOF | Err _ => True end.
Proof.
  induction rest as [|c t IH]; intros i buffer u; cbn [fragment_loop].
  - unfold when, fragment_append, bind, get, modify, ret, raise. destruct (length buffer =? 0)%nat; cbn [negb].
    + exists [], u, (Ok (EOF, i)). auto.
    + destruct u as [s us pw h p pt qu [f|]]; cbn [fragment set_query]; [|eauto 10].
      eexists _, _, _. split; [reflexivity|]. split; [reflexivity|]. auto.
  - destruct (check_blind c t u) as (l & r & C1 & C2). unfold bind. rewrite C1, C2. destruct r as [[]|e].
    + destruct (IH (S i) (buffer ++ [c]) u) as (l' & w & r' & F1 & F2 & F3). rewrite F1, F2. eauto 10.
    + exists l, u, (Err e). auto.
Qed.
Lemma flush_empty u : path_flush None [] u = path_append [] u.
Proof.
  unfold path_flush, bind at 1, get at 1.
  assert (Q : utf8_percent_encode [] SAFE_PATH false = []) by (vm_compute; reflexivity). rewrite Q. cbv zeta.
  assert (D : str_in [] DOUBLE_DOT = false) by (vm_compute; reflexivity). rewrite D.
  assert (S' : str_in [] SINGLE_DOT = false) by (vm_compute; reflexivity). rewrite S'.
  assert (W' : is_windows_drive_letter [] = false) by (vm_compute; reflexivity). rewrite W', andb_false_r.
  destruct (path_append [] u) as [l r]. reflexivity.
Qed.
Lemma path_blind u : exists l w r,
  path_loop None [] 0 [] u = (l, (w, r)) /\ path_loop None [] 0 [] (set_query q u) = (l, (set_query q w, r)) /\
  query w = query u /\ match r with Ok (st, k) => st = OPAQUE_PATH | Err _ => True end.
Proof.
  cbn [path_loop]. unfold bind at 1 2. rewrite !flush_empty. destruct u as [s us pw h p [x|x] qu f]; unfold path_append, bind, get, modify, ret, raise; cbn [path set_query];
    eexists _, _, _; (split; [reflexivity|]); (split; [reflexivity|]); auto.
Qed.

Lemma has_opaque_set : has_opaque_path b' = has_opaque_path b.
Proof. unfold b'. now destruct b. Qed.
Lemma scheme_set : scheme b' = scheme b.
Proof. unfold b'. now destruct b. Qed.
Lemma path_set : path b' = path b.
Proof. unfold b'. now destruct b. Qed.
Lemma host_set : uhost b' = uhost b.
Proof. unfold b'. now destruct b. Qed.
Lemma step_paired enc st rest u :
  paired (fun r => after (fst r) (skipn (snd r) rest)) (step E (Some b) enc None st rest u) (step E (Some b') enc None st rest u).
Proof.
  assert (HB := has_opaque_set). assert (HS := scheme_set). assert (HP := path_set). assert (HH := host_set).
  destruct st; cbn [step]; try (apply paired_refl).
  - (* FILE *) unfold parse_file. rewrite HS, HP, HH. unfold bind, modify, ret, when, logm.
    destruct (iscp (cur rest) $"/\"); [apply paired_refl|]. destruct (str_eqb (scheme b) $"file"); [|apply paired_refl].
    destruct (isc (cur rest) 63); [unfold paired; destruct u; cbn; auto|].
    destruct (isc (cur rest) 35); [unfold paired, after, b'; destruct u, b; cbn; auto 10|].
    destruct (iseof (cur rest)) eqn:EO; cbn [negb].
    + destruct rest; [|discriminate EO]. unfold paired, after, b'; destruct u, b; cbn; auto 10.
    + destruct u. cbn [set_scheme set_host set_path set_query]. apply paired_refl.
  - (* NO_SCHEME *) unfold parse_no_scheme. rewrite HB, HS, HP. unfold bind, modify, ret, fail.
    destruct (has_opaque_path b && negb (isc (cur rest) 35)); [apply paired_refl|].
    destruct (has_opaque_path b && isc (cur rest) 35); [unfold paired, after, b'; destruct u, b; cbn; auto 10|].
    apply paired_refl.
  - (* RELATIVE *) unfold parse_relative. rewrite HS, HP, HH. replace (username b') with (username b) by (unfold b'; now destruct b).
    replace (password b') with (password b) by (unfold b'; now destruct b). replace (port b') with (port b) by (unfold b'; now destruct b).
    destruct (str_eqb (scheme b) $"file"); [apply paired_refl|]. unfold bind, modify, ret, logm, get.
    destruct (isc (cur rest) 47); [apply paired_refl|]. destruct (is_special (set_scheme (scheme b) u) && isc (cur rest) 92); [apply paired_refl|].
    destruct (isc (cur rest) 63); [unfold paired; destruct u; cbn; auto|].
    destruct (isc (cur rest) 35); [unfold paired, after, b'; destruct u, b; cbn; auto 10|].
    destruct (iseof (cur rest)) eqn:EO; cbn [negb].
    + destruct rest; [|discriminate EO]. unfold paired, after, b'; destruct u, b; cbn; auto 10.
    + destruct u. cbn [set_scheme set_username set_password set_port set_host set_path set_query]. apply paired_refl.
  - (* SCHEME_START *)
    assert (SC : forall t i buffer, scheme_colon (Some b') None t i buffer = scheme_colon (Some b) None t i buffer) by (intros; unfold scheme_colon; unfold b'; destruct b; reflexivity).
    assert (SL : forall t i buffer, scheme_loop (Some b') None t i buffer = scheme_loop (Some b) None t i buffer).
    { induction t as [|c t IH]; intros; cbn [scheme_loop]; [reflexivity|]. now rewrite IH, SC. }
    unfold parse_scheme. destruct rest; [apply paired_refl|]. rewrite SL. apply paired_refl.
Qed.

Lemma run_after enc fuel : forall st rest u, query u = query b -> after st rest ->
  paired (fun _ : unit => True) (run_fsm fuel E (Some b) enc None st rest u) (run_fsm fuel E (Some b') enc None st rest (set_query q u)).
Proof.
  induction fuel as [|fuel IH]; intros st rest u Q A.
  - destruct st; cbn [run_fsm]; unfold paired, raise, ret; cbn [fst snd]; auto 8.
  - destruct A as [-> | [-> | ([-> | ->] & ->)]].
    + cbn [run_fsm step]. unfold parse_fragment, bind. destruct (fragment_blind rest 0 [] u) as (l & w & r & F1 & F2 & F3 & F4). rewrite F1, F2.
      destruct r as [[st k]|e]; [|unfold paired; cbn [fst snd]; rewrite F3; auto 8]. subst st.
      assert (K := IH EOF (skipn k rest) w ltac:(congruence) ltac:(unfold after; auto)). cbn [fst snd]. revert K.
      destruct (run_fsm fuel E (Some b) enc None EOF (skipn k rest) w) as [l1 r1], (run_fsm fuel E (Some b') enc None EOF (skipn k rest) (set_query q w)) as [l2 r2].
      unfold paired. cbn [fst snd]. intros (-> & K). split; [reflexivity|exact K].
    + cbn [run_fsm]. unfold paired, ret. cbn [fst snd]. auto 8.
    + cbn [run_fsm step]. unfold parse_path, bind. destruct (path_blind u) as (l & w & r & F1 & F2 & F3 & F4). rewrite F1, F2.
      destruct r as [[st k]|e]; [|unfold paired; cbn [fst snd]; rewrite F3; auto 8]. subst st.
      assert (K := IH OPAQUE_PATH (skipn k []) w ltac:(congruence) ltac:(unfold after; rewrite skipn_nil; auto 6)). cbn [fst snd]. revert K.
      destruct (run_fsm fuel E (Some b) enc None OPAQUE_PATH (skipn k []) w) as [l1 r1], (run_fsm fuel E (Some b') enc None OPAQUE_PATH (skipn k []) (set_query q w)) as [l2 r2].
      unfold paired. cbn [fst snd]. intros (-> & K). split; [reflexivity|exact K].
    + cbn [run_fsm step]. unfold parse_opaque_path, bind, ret. cbn [opaque_path_loop]. unfold ret. cbn [fst snd].
      destruct fuel; cbn [run_fsm]; unfold paired, ret, raise; cbn [fst snd app]; auto 8.
Qed.
Lemma run_paired enc fuel : forall st rest u,
  paired (fun _ : unit => True) (run_fsm fuel E (Some b) enc None st rest u) (run_fsm fuel E (Some b') enc None st rest u).
Proof.
  induction fuel as [|fuel IH]; intros st rest u; [destruct st; apply paired_refl|].
  assert (K : paired (fun _ : unit => True)
    ((r <- step E (Some b) enc None st rest ;; run_fsm fuel E (Some b) enc None (fst r) (skipn (snd r) rest)) u)
    ((r <- step E (Some b') enc None st rest ;; run_fsm fuel E (Some b') enc None (fst r) (skipn (snd r) rest)) u)).
  { pose proof (step_paired enc st rest u) as P. unfold bind. revert P.
    destruct (step E (Some b) enc None st rest u) as [l [w r]], (step E (Some b') enc None st rest u) as [l' [w' r']].
    unfold paired at 1. cbn [fst snd]. intros (<- & <- & P). destruct r as [[st' k]|e].
    - cbn [fst snd] in *. destruct P as [<- | ((P1 & ->) & P2)].
      + pose proof (IH st' (skipn k rest) w) as K. revert K.
        destruct (run_fsm fuel E (Some b) enc None st' (skipn k rest) w) as [l1 r1], (run_fsm fuel E (Some b') enc None st' (skipn k rest) w) as [l2 r2].
        unfold paired. cbn [fst snd]. intros (-> & K). split; [reflexivity|exact K].
      + pose proof (run_after enc fuel st' (skipn k rest) w P1 P2) as K. revert K.
        destruct (run_fsm fuel E (Some b) enc None st' (skipn k rest) w) as [l1 r1], (run_fsm fuel E (Some b') enc None st' (skipn k rest) (set_query q w)) as [l2 r2].
        unfold paired. cbn [fst snd]. intros (-> & K). split; [reflexivity|exact K].
    - unfold paired. cbn [fst snd]. split; [reflexivity|]. split; [reflexivity|]. destruct P as [P|(P & _)]; auto. }
  destruct st; try exact K. apply paired_refl.
Qed.

Lemma base_query s enc :
  fst (parse_new E s (Some b') enc) = fst (parse_new E s (Some b) enc) /\
  match snd (parse_new E s (Some b) enc) with
  | Err e => snd (parse_new E s (Some b') enc) = Err e
  | Ok u => snd (parse_new E s (Some b') enc) = Ok u \/ (query u = query b /\ snd (parse_new E s (Some b') enc) = Ok (set_query q u))
  end.
Proof.
  unfold parse_new, parse_into. generalize FSM_FUEL. intros fuel. set (t := remove_tabs (strip_c0 s)). clearbody t.
  set (n1 := needs_strip s). set (n2 := existsb is_tab_newline (strip_c0 s)). clearbody n1 n2.
  pose proof (run_paired (normalize_encoding E enc) fuel SCHEME_START t new_url) as K.
  unfold bind, when, logm, ret. revert K.
  destruct n1, n2;
  destruct (run_fsm fuel E (Some b) (normalize_encoding E enc) None SCHEME_START t new_url) as [l1 [u1 r1]], (run_fsm fuel E (Some b') (normalize_encoding E enc) None SCHEME_START t new_url) as [l2 [u2 r2]];
  unfold paired; cbn [fst snd]; intros (<- & <- & K); destruct r1 as [[]|e]; cbn [fst snd]; (split; [reflexivity|]); try reflexivity;
  destruct K as [<- | (K & _)]; auto; destruct K as (K & ->); auto 8.
Qed.
End Query.

(** * The fragment *)
Lemma step_fragment E b f enc st rest u : step E (Some (set_fragment f b)) enc None st rest u = step E (Some b) enc None st rest u.
Proof.
  destruct st; cbn [step]; try reflexivity; try (destruct b; reflexivity).
  assert (SL : forall t i buffer, scheme_loop (Some (set_fragment f b)) None t i buffer = scheme_loop (Some b) None t i buffer).
  { induction t as [|c t IH]; intros; cbn [scheme_loop]; [reflexivity|]. rewrite IH. destruct b. reflexivity. }
  unfold parse_scheme. destruct rest; [reflexivity|]. now rewrite SL.
Qed.
Lemma run_fragment E b f enc fuel : forall st rest u, run_fsm fuel E (Some (set_fragment f b)) enc None st rest u = run_fsm fuel E (Some b) enc None st rest u.
Proof.
  induction fuel as [|fuel IH]; intros st rest u; [destruct st; reflexivity|].
  assert (K : (r <- step E (Some (set_fragment f b)) enc None st rest ;; run_fsm fuel E (Some (set_fragment f b)) enc None (fst r) (skipn (snd r) rest)) u
    = (r <- step E (Some b) enc None st rest ;; run_fsm fuel E (Some b) enc None (fst r) (skipn (snd r) rest)) u).
  { unfold bind. rewrite step_fragment. destruct (step E (Some b) enc None st rest u) as [l [w [r|e]]]; [|reflexivity]. now rewrite IH. }
  destruct st; try exact K. reflexivity.
Qed.
Lemma base_fragment E b f s enc : parse_new E s (Some (set_fragment f b)) enc = parse_new E s (Some b) enc.
Proof.
  unfold parse_new, parse_into. generalize FSM_FUEL. intros fuel. unfold bind, when, logm, ret.
  destruct (needs_strip s), (existsb is_tab_newline (strip_c0 s)); cbn [fst snd]; now rewrite run_fragment.
Qed.
