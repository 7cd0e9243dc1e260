(** One object as [url] and [base], with a state override (C139). *)
From Coq Require Import Ascii String.
From Coq Require Import NArith ZArith Bool Arith Lia List.
From Verif Require Import PyStr PyInt Codec Env HostModel UrlRecord Parser HeapParser.
From Verif Require Import Lemmas LoopProofs HeapProofs AliasProofs.
Import ListNotations.
Open Scope N_scope.

(** states after which the base is not looked at *)
Definition clear : list pstate := HOSTNAME :: free.
Local Ltac inn := unfold clear, free; cbn [In]; tauto.
Local Ltac nxs := repeat first
  [ apply nx_ret; inn | apply nx_raise | apply nx_fail | assumption | apply nx_bind; intros ?
  | match goal with |- nx _ (if ?b then _ else _) => destruct b | |- nx _ (match ?x with _ => _ end) => destruct x end ].
Lemma nx_clear E base enc so st rest : In st clear -> nx clear (step E base enc so st rest).
Proof.
  assert (H0 : nx clear (parse_host E rest so)).
  { unfold parse_host. apply nx_bind; intros u. destruct (_ && _); [nxs|]. generalize 0%nat, (@nil N), false. induction rest as [|c t IH]; intros i b x; cbn [host_loop]; unfold Parser.host_end; nxs. apply IH. }
  intros H. unfold clear, free in H. cbn [In] in H. repeat destruct H as [<-|H]; try contradiction; cbn [step].
  - exact H0.
  - unfold parse_special_authority_slashes. nxs.
  - unfold parse_ignore_slashes. generalize 0%nat. clear H0. induction rest as [|c t IH]; intros i; cbn [ignore_slashes_loop]; nxs. apply IH.
  - unfold parse_path_or_authority. nxs.
  - unfold parse_authority. nxs.
  - exact H0.
  - unfold parse_port. generalize 0%nat, (@nil N). clear H0. induction rest as [|c t IH]; intros i b; cbn [port_loop]; unfold Parser.port_end; nxs; try apply IH.
  - unfold parse_file_host. generalize 0%nat, (@nil N). clear H0. induction rest as [|c t IH]; intros i b; cbn [file_host_loop]; unfold file_host_end; nxs; try apply IH.
  - unfold parse_path_start. nxs.
  - unfold parse_path. generalize 0%nat, (@nil N). clear H0. induction rest as [|c t IH]; intros i b; cbn [path_loop]; nxs; try apply IH.
  - unfold parse_opaque_path. generalize 0%nat. clear H0. induction rest as [|c t IH]; intros i; cbn [opaque_path_loop]; nxs; try apply IH.
  - unfold parse_query. generalize 0%nat, (@nil N). clear H0. induction rest as [|c t IH]; intros i b; cbn [query_loop]; nxs; try apply IH.
  - unfold parse_fragment. generalize 0%nat, (@nil N). clear H0. induction rest as [|c t IH]; intros i b; cbn [fragment_loop]; nxs; try apply IH.
  - apply nx_ret. inn.
Qed.

Section Exact.
Context (E : env) (enc : str) (o : pstate) (b : urlrec).
Local Notation so := (Some o).
Notation A n st rest := (self_fsm n E enc so st rest).
Notation B n st rest := (run_fsm n E (Some b) enc so st rest).
Lemma over_step n st rest u : (self_step E enc so st rest u = step E (Some b) enc so st rest u) ->
  (forall st' k, snd (snd (step E (Some b) enc so st rest u)) = Ok (st', k) ->
     A n st' (skipn k rest) (fst (snd (step E (Some b) enc so st rest u))) = B n st' (skipn k rest) (fst (snd (step E (Some b) enc so st rest u)))) ->
  A (S n) st rest u = B (S n) st rest u.
Proof.
  intros Q K. assert (X : bind (self_step E enc so st rest) (fun r => A n (fst r) (skipn (snd r) rest)) u = bind (step E (Some b) enc so st rest) (fun r => B n (fst r) (skipn (snd r) rest)) u).
  { unfold bind. rewrite Q. destruct (step E (Some b) enc so st rest u) as [l [v [[st' k]|e]]]; cbn [fst snd] in *; [|reflexivity]. now rewrite (K st' k eq_refl). }
  destruct st; try exact X. reflexivity.
Qed.
Lemma over_zero st rest u : A 0%nat st rest u = B 0%nat st rest u. Proof. destruct st; reflexivity. Qed.
Lemma over_clear n : forall st rest u, In st clear -> A n st rest u = B n st rest u.
Proof.
  induction n as [|n IH]; intros st rest u H; [apply over_zero|]. apply over_step.
  - unfold self_step. unfold clear, free in H. cbn [In] in H. repeat destruct H as [<-|H]; try contradiction; reflexivity.
  - intros st' k Q. apply IH. exact (nx_clear E (Some b) enc so st rest H u st' k Q).
Qed.
Lemma over_relative_slash n rest : A n RELATIVE_SLASH rest b = B n RELATIVE_SLASH rest b.
Proof.
  destruct n; [apply over_zero|]. apply over_step; [reflexivity|]. intros st' k Q. apply over_clear. revert Q. cbn [step]. apply (next_or clear rest). unfold parse_relative_slash. nxs.
Qed.
Lemma over_relative n rest : A n RELATIVE rest b = B n RELATIVE rest b.
Proof.
  destruct n; [apply over_zero|]. apply over_step; [reflexivity|]. intros st' k. cbn [step].
  assert (X : forall st' k, snd (snd (parse_relative rest (Some b) b)) = Ok (st', k) -> (st' = RELATIVE_SLASH /\ fst (snd (parse_relative rest (Some b) b)) = b) \/ In st' clear).
  { clear. intros st' k. unfold parse_relative. destruct (str_eqb _ _); [discriminate|]. cbv zeta. bs. assert (Z : set_scheme (scheme b) b = b) by (destruct b; reflexivity). rewrite Z.
    destruct (isc _ 47); [cbn; intros Q; injection Q as <- <-; auto|]. destruct (_ && _); [cbn; intros Q; injection Q as <- <-; auto|]. intros Q. right. revert Q. bs.
    assert (NX : nx clear (rel_prog rest)) by (unfold rel_prog; nxs). apply NX. }
  intros Q. destruct (X st' k Q) as [[-> ->]|H]; [apply over_relative_slash|now apply over_clear].
Qed.
Lemma over_file_slash n rest : A n FILE_SLASH rest b = B n FILE_SLASH rest b.
Proof.
  destruct n; [apply over_zero|]. apply over_step; [reflexivity|]. intros st' k Q. apply over_clear. revert Q. cbn [step]. apply (next_or clear rest). unfold parse_file_slash. nxs.
Qed.
Lemma over_file n rest u : b = set_host (Some (HStr [])) (set_scheme $"file" u) -> A n FILE rest u = B n FILE rest u.
Proof.
  intros Hb. destruct n; [apply over_zero|]. apply over_step; [unfold self_step; cbn [alias_base]; now rewrite <- Hb|]. intros st' k. cbn [step].
  assert (X : forall st' k, snd (snd (parse_file rest (Some b) u)) = Ok (st', k) -> (st' = FILE_SLASH /\ fst (snd (parse_file rest (Some b) u)) = b) \/ In st' clear).
  { intros st1 k1. unfold parse_file. cbv zeta. bs. rewrite <- Hb. destruct (iscp _ _).
    - unfold bind. destruct (isc _ 92); cbn; intros Q; injection Q as <- <-; auto.
    - intros Q. right. revert Q. match goal with |- snd (snd (?m b)) = _ -> _ => assert (NX : nx clear m) by nxs end. apply NX. }
  intros Q. destruct (X st' k Q) as [[-> ->]|H]; [apply over_file_slash|now apply over_clear].
Qed.
Lemma over_no_scheme n rest u : (scheme u <> $"file" -> b = u) -> (scheme u = $"file" -> b = set_host (Some (HStr [])) u) -> A n NO_SCHEME rest u = B n NO_SCHEME rest u.
Proof.
  intros H1 H2. destruct n; [apply over_zero|].
  assert (F : {scheme u = $"file"} + {scheme u <> $"file"}) by apply (list_eq_dec N.eq_dec).
  assert (SM : scheme b = scheme u /\ path b = path u /\ query b = query u) by (destruct F as [F|F]; [rewrite (H2 F)|rewrite (H1 F)]; destruct u; auto).
  destruct SM as (S1 & S2 & S3).
  apply over_step; unfold self_step; cbn [alias_base step]; unfold parse_no_scheme; cbv zeta; unfold has_opaque_path; rewrite S1, S2, S3; [reflexivity|].
  intros st' k. destruct (_ && negb _); [discriminate|]. destruct (_ && _).
  - intros Q. apply over_clear. injection Q as <- <-. inn.
  - destruct (str_eqb (scheme u) $"file") eqn:FE; cbn [negb ret fst snd]; intros Q; injection Q as <- <-.
    + apply str_eqb_eq in FE. apply over_file. rewrite (H2 FE). rewrite <- FE. destruct u; reflexivity.
    + destruct F as [F|F]; [rewrite F in FE; discriminate FE|]. rewrite <- (H1 F). apply over_relative.
Qed.
Lemma over_sra n rest : A n SPECIAL_RELATIVE_OR_AUTHORITY rest b = B n SPECIAL_RELATIVE_OR_AUTHORITY rest b.
Proof.
  destruct n; [apply over_zero|]. apply over_step; [reflexivity|]. intros st' k. cbn [step]. unfold parse_special_relative_or_authority.
  destruct (starts_with _ rest); cbn; intros Q; injection Q as <- <-; [apply over_clear; inn|apply over_relative].
Qed.
Lemma scheme_any base base' rest u : parse_scheme rest base so u = parse_scheme rest base' so u.
Proof.
  unfold parse_scheme. destruct rest as [|c t]; [reflexivity|]. destruct (mem c ASCII_ALPHA); [|reflexivity]. generalize 1%nat, [c].
  induction t as [|d t IH]; intros i bf; cbn [scheme_loop]; [reflexivity|]. destruct (_ || _); [apply IH|]. destruct (d =? 58); [|reflexivity].
  unfold scheme_colon. cbv zeta. cbn [overridden andb]. reflexivity.
Qed.
Lemma scheme_stops base rest : nx [EOF] (parse_scheme rest base so).
Proof.
  unfold parse_scheme. destruct rest as [|c t]; [apply nx_raise|]. destruct (mem c ASCII_ALPHA); [|apply nx_raise]. generalize 1%nat, [c].
  induction t as [|d t IH]; intros i bf; cbn [scheme_loop]; [apply nx_raise|]. destruct (_ || _); [apply IH|]. destruct (d =? 58); [|apply nx_raise].
  unfold scheme_colon. cbv zeta. cbn [overridden andb]. apply nx_bind; intros u. destruct (scheme_blocked _ _); [apply nx_ret; now left|]. apply nx_bind; intros _. apply nx_bind; intros _. apply nx_ret. now left.
Qed.
Lemma over_scheme n rest u : A n SCHEME_START rest u = B n SCHEME_START rest u.
Proof.
  destruct n; [apply over_zero|]. apply over_step; [apply scheme_any|]. intros st' k Q. apply over_clear. cbn [step] in Q. destruct (scheme_stops (Some b) rest u st' k Q) as [<-|[]]. inn.
Qed.
End Exact.

Definition seen_base (o : pstate) (u : urlrec) : urlrec :=
  match o with
  | FILE => set_host (Some (HStr [])) (set_scheme $"file" u)
  | NO_SCHEME => if str_eqb (scheme u) $"file" then set_host (Some (HStr [])) u else u
  | _ => u
  end.
Theorem alias_override E h i s enc o : heap_reached E h -> (i < length (objs h))%nat ->
  let u := read h i in
  let out := hparse_into E i s (Some i) enc (Some o) h in
  (fst out, (read (fst (snd out)) i, snd (snd out))) = parse_into E s (Some (seen_base o u)) enc (Some o) u.
Proof.
  intros R L u out. destruct (self_call E h i s enc (Some o) R L) as [_ C]. fold out in C. fold u in C. rewrite C. clear C out.
  unfold self_into, parse_into. set (rest := remove_tabs s) in *. set (e := normalize_encoding E enc).
  assert (G : self_fsm FSM_FUEL E e (Some o) o rest u = run_fsm FSM_FUEL E (Some (seen_base o u)) e (Some o) o rest u).
  { generalize FSM_FUEL. intros n. destruct o; cbn [seen_base];
    try (apply over_clear; inn); try apply over_file_slash; try apply over_relative_slash; try apply over_relative; try apply over_sra; try apply over_scheme.
    - now apply over_file.
    - apply over_no_scheme.
      + intros F. destruct (str_eqb (scheme u) $"file") eqn:Q; [apply str_eqb_eq in Q; contradiction|reflexivity].
      + intros F. rewrite F. reflexivity.
    - destruct n; reflexivity. }
  unfold bind. destruct (existsb _ s); cbn [when logm ret]; now rewrite G.
Qed.
(** the setters do not look at the base *)
Theorem override_base E s base base' enc o u : In o (SCHEME_START :: clear) -> parse_into E s base enc (Some o) u = parse_into E s base' enc (Some o) u.
Proof.
  intros H. unfold parse_into. set (rest := remove_tabs s). set (e := normalize_encoding E enc).
  assert (G : forall n st rest u, In st clear -> run_fsm n E base e (Some o) st rest u = run_fsm n E base' e (Some o) st rest u).
  { induction n as [|n IH]; intros st r v K; [destruct st; reflexivity|].
    assert (Q : step E base e (Some o) st r v = step E base' e (Some o) st r v) by (unfold clear, free in K; cbn [In] in K; repeat destruct K as [<-|K]; try contradiction; reflexivity).
    pose proof (nx_clear E base' e (Some o) st r K v) as X.
    assert (Y : bind (step E base e (Some o) st r) (fun x => run_fsm n E base e (Some o) (fst x) (skipn (snd x) r)) v = bind (step E base' e (Some o) st r) (fun x => run_fsm n E base' e (Some o) (fst x) (skipn (snd x) r)) v).
    { unfold bind. rewrite Q. destruct (step E base' e (Some o) st r v) as [l [w [[st' k]|x]]]; cbn [fst snd] in *; [|reflexivity]. rewrite IH by (apply (X st' k); reflexivity). reflexivity. }
    destruct st; try exact Y. reflexivity. }
  assert (W : run_fsm FSM_FUEL E base e (Some o) o rest u = run_fsm FSM_FUEL E base' e (Some o) o rest u).
  { destruct H as [<-|H]; [|now apply G]. change FSM_FUEL with (S (pred FSM_FUEL)). generalize (pred FSM_FUEL). intros n. cbn [run_fsm step]. unfold bind. rewrite (scheme_any SCHEME_START base base' rest u).
    pose proof (scheme_stops SCHEME_START base' rest u) as X. destruct (parse_scheme rest base' (Some SCHEME_START) u) as [l [w [[st' k]|x]]]; cbn [fst snd] in *; [|reflexivity].
    rewrite G; [reflexivity|]. destruct (X st' k eq_refl) as [<-|[]]. inn. }
  unfold bind. destruct (existsb _ s); cbn [when logm ret]; now rewrite W.
Qed.
