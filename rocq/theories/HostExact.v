(** C78 and C85 as equivalences: where an odd host is parsed, the records differ unless both fail. *)
From Coq Require Import Ascii String.
From Coq Require Import NArith ZArith Bool Arith Lia ZifyBool ZifyN ZifyNat List.
From Verif Require Import PyStr PyInt Codec Env HostModel UrlRecord Parser FlatParser Lemmas CodecProofs QuoteProofs
  IPv4Proofs IPv6Proofs IPv6Conf SpecIPv6 IPv6Grammar HostProofs ParserProofs ParamProofs QueryProofs StandardProofs SpecPyInt IntGrammar HostStandard.
From Verif Require Import SpecText SpecHost SpecUrl SpecParser.
Import ListNotations.
Open Scope N_scope.

Section Machine.
Context (base : option urlrec) (inp : str).

(** after the host has been parsed *)
Definition after (k : cfg) : Prop :=
  match k_state k with S_port | S_path_start | S_path | S_query | S_fragment => True | _ => False end.
Ltac crush :=
  repeat match goal with
    | H : context [match ?x with _ => _ end] |- _ =>
        lazymatch x with context [match _ with _ => _ end] => fail | _ => destruct x eqn:? end; try discriminate H
    end.
Lemma after_any hp hp' k : after k -> parser_step hp base inp k = parser_step hp' base inp k.
Proof. destruct k as [st p buf a br pw u]. unfold after. cbn [k_state]. destruct st; intros []; reflexivity. Qed.
Lemma end_segment_host b buf u : uhost (std_end_segment b buf u) = uhost u.
Proof.
  unfold std_end_segment, std_append, std_shorten. repeat match goal with |- context [match ?x with _ => _ end] => destruct x end; reflexivity.
Qed.
Lemma after_step hp k k' : after k -> parser_step hp base inp k = Some k' -> after k' /\ uhost (k_url k') = uhost (k_url k).
Proof.
  destruct k as [st p buf a br pw u]. unfold after, parser_step. cbn [k_state k_ptr k_buf k_at k_br k_pw k_url]. intros A H.
  destruct st; try contradiction; crush; injection H as <-; cbn [k_state k_url]; (split; [exact I|]);
    repeat match goal with |- context [match ?x with _ => _ end] => destruct x end; cbn [uhost set_port set_query set_fragment]; rewrite ?end_segment_host; reflexivity.
Qed.
Lemma after_runs hp k r : std_runs hp base inp k r -> after k -> forall u, r = Some u -> uhost u = uhost (k_url k).
Proof.
  induction 1 as [k L|k L S|k k' r L S R IH]; intros A u E.
  - injection E as <-. reflexivity.
  - discriminate.
  - destruct (after_step hp k k' A S) as [A' H]. rewrite <- H. now apply IH.
Qed.
Lemma after_asks hp k h o : after k -> ~ std_asks hp base inp k h o.
Proof.
  intros A Q. induction Q as [k L H G|k k' h o L S Q IH].
  - rewrite (after_any _ (fun _ _ => Some (HStr [])) k A) in H. contradiction.
  - apply IH. apply (after_step hp k k' A S).
Qed.
Definition here (k : cfg) : Prop :=
  parser_step (fun _ _ => None) base inp k = None /\ parser_step (fun _ _ => Some (HStr [])) base inp k <> None.
Lemma here_step hp k k' : here k -> parser_step hp base inp k = Some k' ->
  after k' /\ exists a, hp (k_buf k) (negb (std_is_special (k_url k))) = Some a /\
    (uhost (k_url k') = Some a \/ exists t, a = HStr t /\ uhost (k_url k') = Some (HStr [])).
Proof.
  intros [H G]. destruct k as [st p buf a br pw u]. unfold after. unfold parser_step in *. cbn [k_state k_ptr k_buf k_at k_br k_pw k_url] in *. intros S.
  destruct st; try (exfalso; apply G; exact H).
  - destruct (sis (nth_error inp p) 58 && negb br).
    + destruct (length buf =? 0)%nat; [now elim G|]. destruct (hp buf (negb (std_is_special u))) as [x|]; [|discriminate]. injection S as <-.
      split; [exact I|]. exists x. split; [reflexivity|now left].
    + destruct (_ || _ || _ || _ || _); [|elim G; exact H]. destruct (std_is_special u && (length buf =? 0)%nat); [now elim G|].
      destruct (hp buf (negb (std_is_special u))) as [x|]; [|discriminate]. injection S as <-. split; [exact I|]. exists x. split; [reflexivity|now left].
  - destruct (_ || _ || _ || _ || _); [|elim G; exact H]. destruct (std_any_drive_letter buf); [discriminate H|].
    destruct (length buf =? 0)%nat; [discriminate H|].
    destruct (hp buf (negb (std_is_special u))) as [x|]; [|discriminate]. injection S as <-. split; [exact I|]. exists x. split; [reflexivity|].
    destruct x as [t|n|l]; [|now left|now left]. destruct (str_eqb t $"localhost"); [right; exists t; now split|now left].
Qed.
Lemma step_same hp hp' k : ~ here k -> parser_step hp base inp k = parser_step hp' base inp k.
Proof. intros N. apply step_ask. intros H G. exfalso. apply N. now split. Qed.
Lemma here_dec k : here k \/ ~ here k.
Proof.
  unfold here. destruct (parser_step (fun _ _ => None) base inp k); [right; intros [H _]; discriminate|].
  destruct (parser_step (fun _ _ => Some (HStr [])) base inp k); [left; split; [reflexivity|discriminate]|right; intros [_ H]; now apply H].
Qed.
(** two runs that end with the same record gave the host the same value, or two strings *)
Lemma same_end hp hp' k h o : std_asks hp base inp k h o -> forall u,
  std_runs hp base inp k (Some u) -> std_runs hp' base inp k (Some u) ->
  exists a b, hp h o = Some a /\ hp' h o = Some b /\ (a = b \/ exists s t, a = HStr s /\ b = HStr t).
Proof.
  induction 1 as [k L H G|k k' h o L S Q IH]; intros u R R'.
  - assert (K : here k) by now split.
    inversion R as [? L1|? L1 S1|? k1 ? L1 S1 R1]; subst; [lia|]. inversion R' as [? L2|? L2 S2|? k2 ? L2 S2 R2]; subst; [lia|].
    destruct (here_step hp k k1 K S1) as (A1 & a & -> & H1). destruct (here_step hp' k k2 K S2) as (A2 & b & -> & H2).
    exists a, b. split; [reflexivity|]. split; [reflexivity|].
    pose proof (after_runs _ _ _ R1 A1 u eq_refl) as U1. pose proof (after_runs _ _ _ R2 A2 u eq_refl) as U2.
    assert (U : uhost (k_url k1) = uhost (k_url k2)) by congruence.
    destruct H1 as [H1|(s & -> & H1)], H2 as [H2|(t & -> & H2)]; rewrite H1, H2 in U.
    + left. congruence.
    + right. injection U as ->. eauto.
    + right. injection U as <-. eauto.
    + right. eauto.
  - inversion R as [? L1|? L1 S1|? k1 ? L1 S1 R1]; subst; [lia|]. inversion R' as [? L2|? L2 S2|? k2 ? L2 S2 R2]; subst; [lia|].
    destruct (here_dec k) as [K|K].
    + exfalso. apply (after_asks hp k' h o); [|exact Q]. apply (here_step hp k k' K S).
    + rewrite (step_same hp' hp k K) in S2. replace k1 with k' in R1 by congruence. replace k2 with k' in R2 by congruence. now apply (IH u).
Qed.
End Machine.

(** on an odd host the parsers do not both return strings *)
Lemma odd_not_names E h o s t : limit_ok E -> scalar_string h -> (h = [] -> o = true) -> odd_host E h o ->
  std_host_parse (code_to_ascii E) h o = Some (HStr s) -> code_host E h o = Some (HStr t) -> False.
Proof.
  intros HE [Hp Hs] H0 O A B. unfold code_host, std_host_parse, host_parse in *.
  destruct h as [|c h]; [destruct O as [O _]; rewrite (H0 eq_refl) in O; discriminate|]. destruct (c =? 91) eqn:C.
  - destruct (ends_with_char _ _) in B; [|cbn [snd wfail] in B; discriminate]. rewrite snd_wbind' in B.
    destruct (snd (ipv6_parse E _)); cbn in B; discriminate.
  - rewrite odd_bare in O by (now apply N.eqb_neq). destruct O as (-> & d & D & F & O).
    cbv zeta in B. rewrite snd_wbind' in B. rewrite utf8_decode_spec, string_percent_decode_spec, svs_free in B by assumption.
    unfold code_to_ascii in D. destruct (snd (domain_to_ascii E false _)) as [x|]; [|discriminate]. injection D as ->.
    rewrite (existsb_ext' _ std_forbidden_domain) in B by (intros; apply forbidden_domain_eq). rewrite F in B.
    assert (EN : is_ends_in_a_number E d = true) by (apply ends_exact'; tauto).
    rewrite EN, snd_wbind' in B. destruct (snd (ipv4_parse E d)); cbn in B; discriminate.
Qed.

(** with a record (or nothing) as base *)
Definition opt_base (b : option urlrec) : base_arg := match b with Some u => BRec u | None => BNone end.
Lemma url_basic hp s b r : std_url_parse hp s (opt_base b) r <-> std_basic_parse hp b s r.
Proof. destruct b; cbn [opt_base]; (split; [now inversion 1|now constructor]). Qed.
Theorem whole_exact E s b enc : limit_ok E -> normalize_encoding E enc = $"utf-8" -> scalar_string s -> good_base_arg None (opt_base b) ->
  (forall p, std_port_read (code_host E) b s p -> short_for (int_limit E) p) -> not_file_only (code_host E) (opt_base b) s ->
  ((forall r, std_url_parse (std_host_parse (code_to_ascii E)) s (opt_base b) r <-> r = outcome (snd (parse_url E s (opt_base b) enc))) <->
   hosts_satisfy (regular_host E) (std_host_parse (code_to_ascii E)) b s \/
   (std_url_parse (std_host_parse (code_to_ascii E)) s (opt_base b) None /\ outcome (snd (parse_url E s (opt_base b) enc)) = None)).
Proof.
  intros HE He Hs HB HL HF. set (hs := std_host_parse (code_to_ascii E)).
  assert (C : forall r, std_basic_parse (code_host E) b s r <-> r = outcome (snd (parse_url E s (opt_base b) enc))).
  { intros r. rewrite <- (conforms_url_ports E s (opt_base b) enc); try assumption; [symmetry; apply url_basic|]. intros p A. apply HL. destruct b; exact A. }
  split.
  - intros A. destruct (outcome (snd (parse_url E s (opt_base b) enc))) as [u|] eqn:Q; [left|right; split; [now apply A|reflexivity]].
    assert (S1 : std_basic_parse hs b s (Some u)) by (apply url_basic; now apply A). assert (C1 : std_basic_parse (code_host E) b s (Some u)) by now apply C.
    intros h o K O. destruct (asked_host _ _ _ _ _ K Hs) as [P Z].
    destruct (same_end b (std_input s) hs (code_host E) _ h o K u S1 C1) as (x & y & X & Y & [<-|(p & q & -> & ->)]).
    + apply (proj1 (host_same E h o HE P Z)); [|exact O]. unfold hs in X. congruence.
    + exact (odd_not_names E h o p q HE P Z O X Y).
  - intros [R|[N Q]] r.
    + rewrite url_basic. unfold hs. rewrite basic_swap by assumption. apply C.
    + rewrite Q. split; [|intros ->; exact N]. intros K. apply url_basic in K, N. eapply std_runs_det; eassumption.
Qed.
(** the hosts in the computed list are parsed *)
Lemma asks_list_in fuel hp base inp : forall k l h o, asks_list fuel hp base inp k = Some l -> In (h, o) l -> std_asks hp base inp k h o.
Proof.
  induction fuel as [|n IH]; intros k l h o H A; [discriminate|]. cbn [asks_list] in H.
  destruct (length inp <? k_ptr k)%nat eqn:L; [injection H as <-; destruct A|]. apply Nat.ltb_ge in L.
  assert (K : forall x, In x (match parser_step (fun _ _ => None) base inp k, parser_step (fun _ _ => Some (HStr [])) base inp k with
      | None, Some _ => [(k_buf k, negb (std_is_special (k_url k)))] | _, _ => [] end) -> std_asks hp base inp k (fst x) (snd x)).
  { intros x. destruct (parser_step (fun _ _ => None) base inp k) eqn:P; [intros []|].
    destruct (parser_step (fun _ _ => Some (HStr [])) base inp k) eqn:Q; intros []; [subst x|contradiction]. cbn [fst snd]. apply asks_here; [exact L|exact P|congruence]. }
  destruct (parser_step hp base inp k) as [k'|] eqn:S.
  - destruct (asks_list n hp base inp k') as [l'|] eqn:Q; [|discriminate]. injection H as <-. apply in_app_or in A as [A|A].
    + exact (K (h, o) A).
    + eapply asks_later; [exact L|exact S|]. eapply IH; eassumption.
  - injection H as <-. exact (K (h, o) A).
Qed.
