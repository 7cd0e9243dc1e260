(** The setters that raise ValueError, in terms of SpecRaise.v. *)
From Coq Require Import Ascii String.
From Coq Require Import NArith ZArith Bool Arith Lia List.
From Verif Require Import PyStr PyInt Codec Env HostModel UrlRecord Parser SearchParams UrlApi SpecText SpecHost SpecUrl SpecParser SpecApi SpecSetters.
From Verif Require Import Lemmas IPv4Proofs HostProofs StandardProofs HostStandard SetterStandard SetterWhole RaiseProofs SpecWhole SpecRaise SpecApi SpecUrl SpecParser SpecSetters.
Import ListNotations.
Open Scope N_scope.

Lemma override_scalar hp hn t u h o : scalar_string t ->
  override_asks hp hn (std_strip_tabs t) (mkcfg S_host 0 [] false false false u) h o -> scalar_string h.
Proof.
  intros [H1 H2] H. destruct (oasked hn (std_strip_tabs t) _ _ h o H) as [(x & y & I) _]; [intros _; exists []; reflexivity|].
  assert (F : forall P : N -> Prop, Forall P t -> Forall P (std_strip_tabs t)).
  { intros P F. unfold std_strip_tabs. apply Forall_forall. intros c Hc. apply filter_In in Hc as [Hc _]. rewrite Forall_forall in F. auto. }
  split; [apply (infix_forall _ h _ x y (F _ H1) I)|apply (infix_forall _ h _ x y (F _ H2) I)].
Qed.
Lemma setter_scalar hp s u h o : scalar_string (text_of s) -> setter_asks hp s u h o -> scalar_string h.
Proof.
  intros HS A. destruct s as [t|t|t|t|t|t|t|t|t|t]; cbn [setter_asks text_of] in *; try contradiction.
  - destruct A as [_ A]. eapply override_scalar; eassumption.
  - destruct A as [_ A]. eapply override_scalar; eassumption.
  - now apply asked_host in A.
Qed.
Theorem setter_value_error E s o : limit_ok E -> scalar_string (text_of s) ->
  (snd (set_attr E s o) = Err EValue <->
   (exists b, setter_reads (code_host (with_validity E false)) s (o_url o) b /\ ~ short_for (int_limit E) b) \/
   (exists h op, setter_asks (code_host (with_validity E false)) s (o_url o) h op /\ code_value_error (with_validity E false) h op)).
Proof.
  intros HE HS. rewrite (setters_raise E s o HS). split.
  - intros [H|(h & op & A & H)]; [now left|]. right. exists h, op. split; [exact A|]. apply host_raise; auto. eapply setter_scalar; eauto.
  - intros [H|(h & op & A & H)]; [now left|]. right. exists h, op. split; [exact A|]. apply host_raise; auto. eapply setter_scalar; eauto.
Qed.

(** the port texts of a run, computed *)
Fixpoint oreads_list (fuel : nat) (hp : str -> bool -> option host) (hn : bool) (inp : str) (k : cfg) : list str :=
  match fuel with
  | O => []
  | Datatypes.S n =>
      if (length inp <? k_ptr k)%nat then []
      else (if override_port_ends inp k then [k_buf k] else []) ++
        match override_step hp hn inp k with SGo k' => oreads_list n hp hn inp k' | _ => [] end
  end.
Lemma oreads_list_sound fuel hp hn inp : forall k b, In b (oreads_list fuel hp hn inp k) -> override_reads hp hn inp k b.
Proof.
  induction fuel as [|n IH]; intros k b H; [contradiction|]. cbn [oreads_list] in H. destruct (length inp <? k_ptr k)%nat eqn:L; [contradiction|]. apply Nat.ltb_ge in L.
  apply in_app_or in H as [H|H].
  - destruct (override_port_ends inp k) eqn:Q; [|contradiction]. destruct H as [<-|[]]. now apply ord_here.
  - destruct (override_step hp hn inp k) as [k'|v|v] eqn:Q; try contradiction. eapply ord_later; eauto.
Qed.
