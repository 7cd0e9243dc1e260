(** The setters against the standard's setters with the standard's host parser
    plugged in. *)
From Coq Require Import Ascii String.
From Coq Require Import NArith ZArith Bool Arith Lia List.
From Verif Require Import PyStr PyInt Codec Env HostModel UrlRecord Parser SearchParams UrlApi SpecText SpecHost SpecUrl SpecParser SpecApi SpecSetters.
From Verif Require Import Lemmas IPv4Proofs HostProofs StandardProofs HostStandard SetterStandard SpecWhole SpecApi SpecUrl SpecParser SpecSetters.
Import ListNotations.
Open Scope N_scope.
Notation EE E := (with_validity E false).

Section Ask.
Variable hn : bool.
Variable inp : str.
Definition no_host_state (k : cfg) : Prop := k_state k <> S_host /\ k_state k <> S_file_host.
Ltac crush :=
  repeat match goal with
    | H : context [match ?x with _ => _ end] |- _ =>
        lazymatch x with context [match _ with _ => _ end] => fail | _ => destruct x eqn:? end; try discriminate H
    end.
Lemma no_host_step hp1 hp2 k : no_host_state k -> override_step hp1 hn inp k = override_step hp2 hn inp k.
Proof. destruct k as [st p buf a br pw u]. intros [A B]. destruct st; try reflexivity; cbn [k_state] in *; congruence. Qed.
Lemma no_host_keep hp k k' : no_host_state k -> override_step hp hn inp k = SGo k' -> no_host_state k'.
Proof.
  destruct k as [st p buf a br pw u]. intros [A B] H. unfold override_step in H. cbn [k_state k_ptr k_buf k_at k_br k_pw k_url] in *.
  destruct st; try congruence; crush; injection H as <-; split; discriminate.
Qed.
Lemma no_host_runs hp1 hp2 k u b : no_host_state k -> override_runs hp1 hn inp k u b -> override_runs hp2 hn inp k u b.
Proof.
  intros N R. induction R as [k L|k v L S|k v L S|k k' v b L S R IH].
  - now apply or_end.
  - apply or_ret; [exact L|]. now rewrite (no_host_step hp2 hp1).
  - apply or_fail; [exact L|]. now rewrite (no_host_step hp2 hp1).
  - eapply or_step; [exact L| |apply IH; eapply no_host_keep; eassumption]. now rewrite (no_host_step hp2 hp1).
Qed.
Lemma ostep_ask hp1 hp2 k :
  (forall u, override_step (fun _ _ => None) hn inp k = SFail u -> override_step (fun _ _ => Some (HStr [])) hn inp k <> SFail u ->
   hp1 (k_buf k) (negb (std_is_special (k_url k))) = hp2 (k_buf k) (negb (std_is_special (k_url k)))) ->
  override_step hp1 hn inp k = override_step hp2 hn inp k.
Proof.
  destruct k as [st p buf a br pw u]. unfold override_step. cbn [k_state k_ptr k_buf k_at k_br k_pw k_url]. intros H.
  destruct st; try reflexivity.
  - destruct (str_eqb (scheme u) $"file"); [reflexivity|]. destruct (sis (nth_error inp p) 58 && negb br).
    + destruct (length buf =? 0)%nat; [reflexivity|]. destruct hn; [reflexivity|]. erewrite H; [reflexivity|reflexivity|discriminate].
    + destruct (_ || _ || _ || _ || _); [|reflexivity]. destruct (std_is_special u && (length buf =? 0)%nat) eqn:Q; [reflexivity|].
      destruct ((length buf =? 0)%nat && (std_credentials u || std_has_port u)); [reflexivity|]. erewrite H; [reflexivity|reflexivity|discriminate].
  - destruct (_ || _ || _ || _ || _); [|reflexivity]. destruct (length buf =? 0)%nat; [reflexivity|]. erewrite H; [reflexivity|reflexivity|discriminate].
Qed.
Lemma ohere_shape k v : override_step (fun _ _ => None) hn inp k = SFail v -> override_step (fun _ _ => Some (HStr [])) hn inp k <> SFail v ->
  (k_state k = S_host \/ k_state k = S_file_host) /\ (k_buf k = [] -> std_is_special (k_url k) = false).
Proof.
  destruct k as [st p buf a br pw u]. unfold override_step. cbn [k_state k_ptr k_buf k_at k_br k_pw k_url]. intros H G.
  destruct st; try (exfalso; apply G; exact H).
  - split; [now left|]. intros ->. cbn [length Nat.eqb] in *. destruct (str_eqb (scheme u) $"file"); [discriminate H|]. destruct (sis (nth_error inp p) 58 && negb br); [now elim G|].
    destruct (_ || _ || _ || _ || _); [|elim G; exact H]. destruct (std_is_special u); [now elim G|reflexivity].
  - split; [now right|]. intros ->. cbn [length Nat.eqb] in *.
    destruct (_ || _ || _ || _ || _); [discriminate H|]. elim G; exact H.
Qed.
(** in the host states the buffer is a piece of the input *)
Definition oinv (k : cfg) : Prop := k_state k = S_host \/ k_state k = S_file_host -> exists pre, firstn (k_ptr k) inp = pre ++ k_buf k.
Lemma ostep_inv hp k k' : override_step hp hn inp k = SGo k' -> oinv k -> oinv k'.
Proof.
  destruct k as [st p buf a br pw u]. unfold override_step. cbn [k_state k_ptr k_buf k_at k_br k_pw k_url]. intros H I.
  destruct st; unfold oinv in *; cbn [k_state k_ptr k_buf] in *; crush; try discriminate H; injection H as <-; cbn [k_state k_ptr k_buf]; intros [X|X]; try discriminate X.
  all: try (apply I; auto; fail).
  all: destruct I as (pre & I); [auto|]; exists pre; rewrite app_assoc, <- I; now apply firstn_step.
Qed.
Lemma oasked hp k h o : override_asks hp hn inp k h o -> oinv k -> (exists a b, inp = a ++ h ++ b) /\ (h = [] -> o = true).
Proof.
  intros A. induction A as [k v L H G|k k' h o L S A IH]; intros I.
  - destruct (ohere_shape k v H G) as [T Z]. split; [|intros B; now rewrite (Z B)].
    destruct (I T) as (pre & I'). exists pre, (skipn (k_ptr k) inp). now rewrite app_assoc, <- I', firstn_skipn.
  - apply IH. eapply ostep_inv; eassumption.
Qed.
Lemma oruns_swap1 hp1 hp2 k u b : override_runs hp1 hn inp k u b -> (forall h o, override_asks hp2 hn inp k h o -> hp1 h o = hp2 h o) -> override_runs hp2 hn inp k u b.
Proof.
  intros R. induction R as [k L|k v L S|k v L S|k k' v b L S R IH]; intros A.
  - now apply or_end.
  - apply or_ret; [exact L|]. rewrite <- S. symmetry. apply ostep_ask. intros; apply A; eapply oa_here; eauto.
  - apply or_fail; [exact L|]. rewrite <- S. symmetry. apply ostep_ask. intros; apply A; eapply oa_here; eauto.
  - assert (S2 : override_step hp2 hn inp k = SGo k') by (rewrite <- S; symmetry; apply ostep_ask; intros; apply A; eapply oa_here; eauto).
    eapply or_step; [exact L|exact S2|]. apply IH. intros h o B. apply A. eapply oa_later; eassumption.
Qed.
Lemma oruns_swap2 hp1 hp2 k u b : override_runs hp2 hn inp k u b -> (forall h o, override_asks hp2 hn inp k h o -> hp1 h o = hp2 h o) -> override_runs hp1 hn inp k u b.
Proof.
  intros R. induction R as [k L|k v L S|k v L S|k k' v b L S R IH]; intros A.
  - now apply or_end.
  - apply or_ret; [exact L|]. rewrite <- S. apply ostep_ask. intros; apply A; eapply oa_here; eauto.
  - apply or_fail; [exact L|]. rewrite <- S. apply ostep_ask. intros; apply A; eapply oa_here; eauto.
  - assert (S2 : override_step hp1 hn inp k = SGo k') by (rewrite <- S; apply ostep_ask; intros; apply A; eapply oa_here; eauto).
    eapply or_step; [exact L|exact S2|]. apply IH. intros h o B. apply A. eapply oa_later; eassumption.
Qed.
Lemma oreads_swap hp1 hp2 k x : override_reads hp1 hn inp k x -> (forall h o, override_asks hp2 hn inp k h o -> hp1 h o = hp2 h o) -> override_reads hp2 hn inp k x.
Proof.
  intros R. induction R as [k L Q|k k' x L S R IH]; intros A; [now apply ord_here|].
  assert (S2 : override_step hp2 hn inp k = SGo k') by (rewrite <- S; symmetry; apply ostep_ask; intros; apply A; eapply oa_here; eauto).
  eapply ord_later; [exact L|exact S2|]. apply IH. intros h o B. apply A. eapply oa_later; eassumption.
Qed.
Lemma no_host_reads hp1 hp2 k x : no_host_state k -> override_reads hp1 hn inp k x -> override_reads hp2 hn inp k x.
Proof.
  intros N R. induction R as [k L Q|k k' x L S R IH]; [now apply ord_here|].
  eapply ord_later; [exact L| |apply IH; eapply no_host_keep; eassumption]. now rewrite (no_host_step hp2 hp1).
Qed.
End Ask.

Lemma host_override_swap E hn t u v b : limit_ok E -> scalar_string t ->
  (forall h o, override_asks (std_host_parse (code_to_ascii E)) hn (std_strip_tabs t) (mkcfg S_host 0 [] false false false u) h o -> regular_host E h o) ->
  (std_override (std_host_parse (code_to_ascii E)) S_host hn t u v b <-> std_override (code_host E) S_host hn t u v b) /\
  (forall x, override_reads (code_host E) hn (std_strip_tabs t) (mkcfg S_host 0 [] false false false u) x ->
     override_reads (std_host_parse (code_to_ascii E)) hn (std_strip_tabs t) (mkcfg S_host 0 [] false false false u) x).
Proof.
  intros HE [H1 H2] R. assert (A : forall h o, override_asks (std_host_parse (code_to_ascii E)) hn (std_strip_tabs t) (mkcfg S_host 0 [] false false false u) h o ->
    code_host E h o = std_host_parse (code_to_ascii E) h o).
  { intros h o H. destruct (oasked hn (std_strip_tabs t) _ _ h o H) as [(x & y & I) Z].
    - intros _. exists []. reflexivity.
    - assert (F : forall P : N -> Prop, Forall P t -> Forall P (std_strip_tabs t)).
      { intros P F. unfold std_strip_tabs. apply Forall_forall. intros c Hc. apply filter_In in Hc as [Hc _]. rewrite Forall_forall in F. auto. }
      apply host_std; auto. split; [apply (infix_forall _ h _ x y (F _ H1) I)|apply (infix_forall _ h _ x y (F _ H2) I)]. }
  split; [|intros x X; eapply oreads_swap; [exact X|exact A]]. unfold std_override. split; intros H; [eapply oruns_swap2|eapply oruns_swap1]; eauto.
Qed.
Lemma other_override hp1 hp2 st hn t u v b : st <> S_host -> st <> S_file_host -> std_override hp1 st hn t u v b -> std_override hp2 st hn t u v b.
Proof. intros A B. apply no_host_runs. split; assumption. Qed.

Theorem setters_whole E s o : limit_ok E -> reached E o -> scalar_string (text_of s) ->
  (forall b, setter_reads (std_host_parse (code_to_ascii (EE E))) s (o_url o) b -> short_for (int_limit E) b) -> ~ port_zero_case s (o_url o) ->
  (forall h op, setter_asks (std_host_parse (code_to_ascii (EE E))) s (o_url o) h op -> regular_host (EE E) h op) ->
  forall v b, std_set (std_host_parse (code_to_ascii (EE E))) s (o_url o) v b <-> v = o_url (fst (set_attr E s o)) /\ b = okb (snd (set_attr E s o)).
Proof.
  intros HE HR HS HL HP HH v b. set (hp := std_host_parse (code_to_ascii (EE E))) in *.
  assert (HE' : limit_ok (EE E)) by exact HE.
  assert (B : forall t, s = SetHref t -> forall r, std_basic_parse hp None t r <-> std_basic_parse (code_host (EE E)) None t r).
  { intros t -> r. apply basic_swap; auto. }
  assert (HO : forall hn t, (s = SetHost t /\ hn = false) \/ (s = SetHostname t /\ hn = true) -> ~ std_opaque (o_url o) ->
    (std_override hp S_host hn t (o_url o) v b <-> std_override (code_host (EE E)) S_host hn t (o_url o) v b) /\
    (forall x, override_reads (code_host (EE E)) hn (std_strip_tabs t) (mkcfg S_host 0 [] false false false (o_url o)) x ->
       override_reads hp hn (std_strip_tabs t) (mkcfg S_host 0 [] false false false (o_url o)) x)).
  { intros hn t Q NO. apply host_override_swap; auto; intros; destruct Q as [[-> ->]|[-> ->]]; auto; apply HH; split; auto. }
  rewrite <- (setters_conform E s o HR HS); [|intros x X; apply HL; destruct s as [t|t|t|t|t|t|t|t|t|t]; cbn [setter_reads] in X |- *; try contradiction|exact HP].
  - split; intros H; inversion H; subst;
    try (constructor; auto; fail);
    try (constructor; auto; apply (B _ eq_refl); assumption);
    try (constructor; auto; apply HO; auto; fail);
    try (constructor; auto; eapply other_override; [discriminate|discriminate|eassumption]).
  - destruct X as [O X]. split; [exact O|]. apply HO; auto.
  - destruct X as [O X]. split; [exact O|]. apply HO; auto.
  - eapply read_swap; eauto.
  - destruct X as [O X]. split; [exact O|]. eapply no_host_reads; [|exact X]. split; discriminate.
Qed.

(** the hosts of a run, computed *)
Fixpoint oasks_list (fuel : nat) (hp : str -> bool -> option host) (hn : bool) (inp : str) (k : cfg) : option (list (str * bool)) :=
  match fuel with
  | O => None
  | Datatypes.S n =>
      if (length inp <? k_ptr k)%nat then Some []
      else
        let here := match override_step (fun _ _ => None) hn inp k, override_step (fun _ _ => Some (HStr [])) hn inp k with
                    | SFail _, SFail _ => [] | SFail _, _ => [(k_buf k, negb (std_is_special (k_url k)))] | _, _ => [] end in
        match override_step hp hn inp k with
        | SGo k' => match oasks_list n hp hn inp k' with Some l => Some (here ++ l) | None => None end
        | _ => Some here
        end
  end.
Lemma oasks_list_all fuel hp hn inp : forall k l h o, oasks_list fuel hp hn inp k = Some l -> override_asks hp hn inp k h o -> In (h, o) l.
Proof.
  induction fuel as [|n IH]; intros k l h o H A; [discriminate|]. cbn [oasks_list] in H.
  inversion A as [k0 v L S1 S2 | k0 k' h0 o0 L S1 A']; subst.
  - replace (length inp <? k_ptr k)%nat with false in H by (symmetry; apply Nat.ltb_ge; lia). rewrite S1 in H.
    assert (Q : forall w, override_step (fun _ _ => Some (HStr [])) hn inp k <> SFail w).
    { intros w X. pose proof (fail_same _ _ _ _ _ S1 X). congruence. }
    destruct (override_step (fun _ _ => Some (HStr [])) hn inp k) as [x|x|x]; [| |now elim (Q x)];
      (destruct (override_step hp hn inp k) as [k'|x'|x']; [|injection H as <-; now left..]);
      (destruct (oasks_list n hp hn inp k') as [l'|]; [|discriminate]); injection H as <-; now left.
  - replace (length inp <? k_ptr k)%nat with false in H by (symmetry; apply Nat.ltb_ge; lia). rewrite S1 in H.
    destruct (oasks_list n hp hn inp k') as [l'|] eqn:Q; [|discriminate]. injection H as <-. apply in_or_app. right. eapply IH; eassumption.
Qed.
