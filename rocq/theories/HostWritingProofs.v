(** Proofs about HostValidator: exactly which hosts are valid. *)
From Coq Require Import Ascii String.
From Coq Require Import NArith ZArith Bool Arith Lia ZifyBool ZifyN ZifyNat List.
From Verif Require Import PyStr PyInt Codec Env HostModel UrlRecord Parser Schemes Validators.
From Verif Require Import Lemmas CodecProofs QuoteProofs PyIntProofs IPv4Proofs IntGrammar IPv6Proofs IPv6Grammar HostProofs ValidatorProofs RaiseProofs.
From Verif Require Import SpecText SpecHost SpecPyInt SpecIPv6 SpecRaise SpecWriting SpecHostWriting.
Import ListNotations.
Open Scope N_scope.

(** error sets *)
Lemma within_ldiff (l : list N) e : (forall i, N.testbit e i = true -> In i l) <-> N.ldiff e (fold_right N.lor 0 (map (N.pow 2) l)) = 0.
Proof.
  assert (T : forall i, N.testbit (fold_right N.lor 0 (map (N.pow 2) l)) i = true <-> In i l).
  { intros i. induction l as [|x t IH]; cbn [map fold_right In]; [rewrite N.bits_0; split; [discriminate|contradiction]|].
    rewrite N.lor_spec, orb_true_iff, IH, N.pow2_bits_eqb, N.eqb_eq. reflexivity. }
  split.
  - intros H. apply N.bits_inj. intros i. rewrite N.bits_0, N.ldiff_spec. destruct (N.testbit e i) eqn:B; [|reflexivity].
    apply H, T in B. now rewrite B.
  - intros H i B. apply (f_equal (fun n => N.testbit n i)) in H. rewrite N.bits_0, N.ldiff_spec, B in H. apply T. now destruct (N.testbit _ i).
Qed.
Lemma hyphens e : (forall i, N.testbit e i = true -> In i hyphen_bits) <-> N.ldiff e CHECK_HYPHENS_ERRORS = 0.
Proof. apply within_ldiff. Qed.
Lemma lengths e : (forall i, N.testbit e i = true -> In i (hyphen_bits ++ length_bits)) <-> N.ldiff e (N.lor CHECK_HYPHENS_ERRORS VERIFY_DNS_LENGTH_ERRORS) = 0.
Proof. apply within_ldiff. Qed.


Lemma within_iff allowed n r d : (forall e, (forall i, N.testbit e i = true -> In i allowed) <-> N.ldiff e n = 0) ->
  icu_within allowed r d <-> exists e, r = IcuOk e d /\ N.ldiff e n = 0.
Proof. intros H. unfold icu_within. split; intros (e & Q & B); exists e; (split; [exact Q|]); now apply H. Qed.

Lemma start_zero v : (vs_count (vs_start v) =? 0)%nat = true.
Proof. now rewrite vs_start_count. Qed.
Lemma domain_exact E d v : (fst (is_valid_domain E d v) = Ok true <-> code_valid_domain E d) /\
  (fst (is_valid_domain E d v) = Ok true \/ fst (is_valid_domain E d v) = Ok false).
Proof.
  unfold is_valid_domain, valid_if_clean, code_valid_domain, strict_to_ascii, strict_to_unicode.
  unfold domain_to_ascii, domain_to_unicode. cbv zeta. change (icu_to_ascii (with_validity E true)) with (icu_to_ascii E). change (icu_to_unicode (with_validity E true)) with (icu_to_unicode E).
  change (4 + 8 + 16 + 2) with 30. change (4 + 8 + 32 + 2) with 46.
  assert (FF : forall b : bool, Ok b = Ok true \/ Ok b = Ok false) by (intros []; auto).
  destruct (icu_to_ascii E 30 d) as [e a|e] eqn:A.
  2: { cbn. split; [|auto]. split; [discriminate|]. intros [(x & _ & e' & Q & _) _]. discriminate Q. }
  destruct (N.ldiff e CHECK_HYPHENS_ERRORS =? 0) eqn:H; cbn [negb].
  2: { cbn. split; [|auto]. split; [discriminate|]. intros [(x & _ & W) _]. apply (within_iff _ _ _ _ hyphens) in W as (e' & Q & W). injection Q as <- <-. apply N.eqb_neq in H. contradiction. }
  destruct a as [|c t].
  { cbn. split; [|auto]. split; [discriminate|]. intros [(x & X & e' & Q & _) _]. injection Q as _ <-. now destruct X. }
  assert (TA : exists a, a <> [] /\ icu_within hyphen_bits (IcuOk e (c :: t)) a).
  { exists (c :: t). split; [discriminate|]. apply (within_iff _ _ _ _ hyphens). exists e. split; [reflexivity|]. now apply N.eqb_eq. }
  destruct (icu_to_unicode E 46 d) as [e' u|e'] eqn:U.
  2: { cbn. split; [|auto]. split; [discriminate|]. intros [_ (u & e0 & Q & _)]. discriminate Q. }
  destruct (N.ldiff e' (N.lor CHECK_HYPHENS_ERRORS VERIFY_DNS_LENGTH_ERRORS) =? 0) eqn:L; cbn [negb wbind wret wlog fst snd app].
  - cbn [vs_apply fold_left]. rewrite start_zero. split; [|auto]. split; [intros _; split; [exact TA|]|reflexivity].
    exists u. apply (within_iff _ _ _ _ lengths). exists e'. split; [reflexivity|]. now apply N.eqb_eq.
  - cbn [vs_apply fold_left vs_log vs_prepend vs_count]. rewrite vs_start_count. cbn [Nat.eqb]. split; [|auto]. split; [discriminate|].
    intros [_ (x & W)]. apply (within_iff _ _ _ _ lengths) in W as (e0 & Q & W). injection Q as <- <-. apply N.eqb_neq in L. contradiction.
Qed.

Lemma bracket_dec h : (exists t, bracketed h t /\ starts_with $"[" h && ends_with_char h 93 = true /\ removelast (tl h) = t) \/
  (not_bracketed h /\ starts_with $"[" h && ends_with_char h 93 = false).
Proof.
  unfold bracketed, not_bracketed. change ($"[") with [91]. destruct h as [|c t]; [right; split; [intros t Q; discriminate Q|reflexivity]|].
  cbn [starts_with]. rewrite andb_true_r. destruct (N.eqb_spec 91 c) as [<-|C]; [|right; split; [intros u Q; injection Q as -> _; now apply C|reflexivity]].
  cbn [andb tl]. unfold ends_with_char. destruct (rev_ind_inv t) as [->|(u & x & ->)].
  - right. split; [|reflexivity]. intros u Q. injection Q as Q. destruct u; discriminate Q.
  - cbn [rev]. rewrite rev_app_distr. cbn [rev app]. destruct (N.eqb_spec x 93) as [->|X].
    + left. exists u. split; [reflexivity|]. split; [reflexivity|apply removelast_last].
    + right. split; [|reflexivity]. intros v Q. injection Q as Q. apply app_inj_tail in Q as [_ Q]. contradiction.
Qed.
Lemma bracketed_tl h t : bracketed h t -> removelast (tl h) = t.
Proof. intros ->. cbn [tl]. apply removelast_last. Qed.

Lemma numeric_exact E h : is_ends_in_a_number E h = true <-> code_numeric E h.
Proof.
  unfold code_numeric. split.
  - intros H. apply ends_exact' in H as [H|[_ H]]; auto.
  - intros [H|(n & H)]; [apply ends_exact'; now left|]. rewrite last_label_eq in H.
    rewrite ends_eq. cbv zeta. apply orb_true_iff. right. apply (number_exact E) in H. lia.
Qed.
Lemma v6_exact E t v : limit_ok E -> (fst (is_valid_ipv6_address E t v) = Ok true <-> exists a, code_v6_text t a).
Proof. intros HE. rewrite valid_ipv6. split; intros (a & H); exists a; now apply (code_v6_exact E). Qed.
Lemma quad_numeric E h : int_quad E h -> code_numeric E h.
Proof.
  intros (p1 & p2 & p3 & p4 & -> & P). apply numeric_exact. rewrite ends_eq. cbv zeta.
  assert (N4 : forall p, In p [p1; p2; p3; p4] -> mem 46 p = false) by (intros p Hp; apply mem_not_In; now apply P).
  assert (O4 : int_octet (int_limit E) (uni_decimal E) (uni_space E) p4) by (apply P; cbn; auto).
  assert (S4 : split 46 (p1 ++ [46] ++ p2 ++ [46] ++ p3 ++ [46] ++ p4) = [p1; p2; p3; p4]).
  { cbn [app]. rewrite split_app by (apply N4; cbn; auto). rewrite split_app by (apply N4; cbn; auto). rewrite split_app by (apply N4; cbn; auto).
    rewrite split_no_sep by (apply N4; cbn; auto). reflexivity. }
  apply part_ok_exact in O4. unfold part_ok in O4. cbv zeta in O4.
  apply andb_true_iff in O4 as [O4 _]. apply andb_true_iff in O4 as [O4 _].
  assert (P4 : p4 <> []) by (intros ->; discriminate O4).
  unfold last_label, drop_last_empty. rewrite S4. cbn [last]. destruct p4 as [|c t]; [congruence|]. cbn [removelast last].
  apply orb_true_iff. right. lia.
Qed.

Lemma host_exact E h v : limit_ok E -> (fst (host_is_valid E h v) = Ok true <-> code_valid_host E h).
Proof.
  intros HE. unfold host_is_valid, code_valid_host. cbv zeta.
  destruct (bracket_dec h) as [(t & B & -> & ->)|[B ->]].
  - rewrite v6_exact by exact HE. split.
    + intros (a & A). left. eauto.
    + intros [(t' & a & B' & A)|[[NB _]|[NB _]]]; try (now apply NB in B). exists a. apply bracketed_tl in B, B'. congruence.
  - destruct (is_ends_in_a_number E h) eqn:Q.
    + apply numeric_exact in Q. pose proof (valid_ipv4_exact E h (Some (vs_start v))) as V. destruct (is_valid_ipv4_address E h (Some (vs_start v))) as [b v']. cbn [fst] in *.
      split.
      * intros X. injection X as ->. right. left. split; [exact B|]. now apply V.
      * intros [(t' & a & B' & A)|[[_ D]|(_ & NQ & _)]]; [now apply B in B'| |contradiction]. f_equal. now apply V.
    + assert (NQ : ~ code_numeric E h) by (intros X; apply numeric_exact in X; congruence). destruct (domain_exact E h (Some (vs_start v))) as [-> _]. split.
      * intros D. right. right. auto.
      * intros [(t' & a & B' & A)|[[_ D]|(_ & _ & D)]]; [now apply B in B'| |exact D]. now apply quad_numeric in D.
Qed.
Lemma host_verdict E h v : limit_ok E -> (fst (host_is_valid E h v) = Err EValue <-> exists t, bracketed h t /\ v6_value_error (int_limit E) t) /\
  forall e, fst (host_is_valid E h v) = Err e -> e = EValue.
Proof.
  intros HE. unfold host_is_valid. cbv zeta.
  destruct (bracket_dec h) as [(t & B & -> & ->)|[B ->]].
  - assert (V : forall e, fst (is_valid_ipv6_address E t (Some (vs_start v))) = Err e <-> e = EValue /\ snd (ipv6_parse E t) = Err EValue).
    { intros e. unfold is_valid_ipv6_address, valid_if_clean. rewrite ipv6_validity. pose proof (ipv6_parse_total E t) as T.
      destruct (ipv6_parse E t) as [l [a|e']]; cbn [fst snd] in *; [split; [discriminate|intros [_ X]; discriminate X]|].
      destruct T as [->|[-> _]]; cbn; (split; [intros X|intros [-> X]]); try discriminate X; [injection X as <-; auto|reflexivity]. }
    split.
    + rewrite V. rewrite (ipv6_raise E HE t). split; [intros [_ X]; eauto|]. intros (t' & B' & X). apply bracketed_tl in B, B'. subst. auto.
    + intros e X. now apply V in X.
  - assert (V : forall e, fst (if is_ends_in_a_number E h then let (b, v') := is_valid_ipv4_address E h (Some (vs_start v)) in (Ok b, match v' with Some s => s | None => vs_start v end) else is_valid_domain E h (Some (vs_start v))) <> Err e).
    { intros e. destruct (is_ends_in_a_number E h).
      - destruct (is_valid_ipv4_address E h (Some (vs_start v))). discriminate.
      - destruct (domain_exact E h (Some (vs_start v))) as [_ [X|X]]; rewrite X; discriminate. }
    split; [split|].
    + intros X. now apply V in X.
    + intros (t & B' & _). now apply B in B'.
    + intros e X. now apply V in X.
Qed.
Lemma opaque_exact E h v : limit_ok E -> (fst (is_valid_opaque_host E h v) = Ok true <-> code_valid_opaque h).
Proof.
  intros HE. unfold code_valid_opaque.
  assert (U : is_url_units $"%" FORBIDDEN_HOST_CODE_POINT h = None <-> url_units (fun c => std_url_code_point c = true /\ std_forbidden_host c = false) h).
  { rewrite url_units_spec; [|reflexivity|].
    - assert (M : forall P Q : N -> Prop, (forall c, P c -> Q c) -> forall s, url_units P s -> url_units Q s).
      { intros P Q PQ s X. induction X; [apply uu_nil|apply uu_cp; auto|apply uu_esc; auto]. }
      split; apply M; (intros c [A B]; split; [exact A|]).
      + rewrite <- forbidden_host_eq. now apply mem_not_In.
      + rewrite <- forbidden_host_eq in B. now apply mem_not_In.
    - intros c Hc. destruct (mem c FORBIDDEN_HOST_CODE_POINT) eqn:X; [|reflexivity]. exfalso. apply Hc. apply mem_In in X. revert X. clear.
      intros X. vm_compute in X. repeat (destruct X as [<-|X]; [reflexivity|]). contradiction. }
  unfold is_valid_opaque_host. cbv zeta. destruct (bracket_dec h) as [(t & B & E1 & E2)|[B E1]].
  - rewrite E1, E2. destruct h as [|c h']; [discriminate B|]. rewrite v6_exact by exact HE. split.
    + intros (a & A). left. eauto.
    + intros [(t' & a & B' & A)|[_ D]]; [exists a; apply bracketed_tl in B'; congruence|].
      exfalso. inversion B; subst. inversion D as [|x y [_ Z] _|]; subst. discriminate Z.
  - rewrite E1. destruct h as [|c h'].
    + split; [discriminate|]. intros [(t' & a & B' & A)|[D _]]; [now apply B in B'|now destruct D].
    + destruct (is_url_units $"%" FORBIDDEN_HOST_CODE_POINT (c :: h')) as [x|] eqn:Q.
      * split; [discriminate|]. intros [(t' & a & B' & A)|[_ D]]; [now apply B in B'|]. apply U in D. discriminate D.
      * split; [|reflexivity]. intros _. right. split; [discriminate|]. now apply U.
Qed.

(** against the standard *)
Lemma std_code_domain E d : unicode_agrees E -> (code_valid_domain E d <-> std_valid_domain E d).
Proof.
  intros U. unfold code_valid_domain, std_valid_domain. split.
  - intros [(a & A) D]. exists a. split; [exact A|]. now apply (U d a A).
  - intros (a & A & D). split; [eauto|]. now apply (U d a A).
Qed.
Lemma address_code E t : limit_ok E -> ~ odd_v6 t -> ((exists a, code_v6_text t a) <-> std_address t).
Proof.
  intros HE O. apply (ipv6_same E t HE) in O. unfold std_address. split; intros (a & A).
  - apply (code_v6_exact E t a HE) in A. destruct (std_ipv6_parse t) as [b|] eqn:Q; [exists b; now apply std_v6_iff|]. destruct O as (e & O). congruence.
  - apply std_v6_iff in A. rewrite A in O. exists a. now apply (code_v6_exact E t a HE).
Qed.
Lemma host_standard E h v : limit_ok E ->
  (forall t, bracketed h t -> ~ odd_v6 t -> (fst (host_is_valid E h v) = Ok true <-> std_address t)) /\
  (not_bracketed h -> ~ code_numeric E h -> unicode_agrees E -> (fst (host_is_valid E h v) = Ok true <-> std_valid_host E h)) /\
  (not_bracketed h -> std_quad h -> fst (host_is_valid E h v) = Ok true) /\
  (not_bracketed h -> code_numeric E h -> forallb plain_char h = true -> (fst (host_is_valid E h v) = Ok true <-> std_quad h)).
Proof.
  intros HE. pose proof (host_exact E h v HE) as X. unfold code_valid_host in X.
  assert (Q4 : std_quad h -> int_quad E h).
  { intros Q. apply (valid_ipv4_exact E h None). now apply valid_ipv4_complete. }
  split; [|split; [|split]].
  - intros t H O. rewrite X. split.
    + intros [(t' & a & B & A)|[[NB _]|[NB _]]]; try (now apply NB in H). apply (address_code E t HE O). apply bracketed_tl in H, B. exists a. congruence.
    + intros A. left. apply (address_code E t HE O) in A as (a & A). eauto.
  - intros H NQ U. rewrite X. split.
    + intros [(t' & a & B & A)|[[_ D]|[_ [_ D]]]]; [now apply H in B|now apply quad_numeric in D|]. left. now apply std_code_domain.
    + intros [D|[D|(t & B & _)]]; [| |now apply H in B].
      * right. right. split; [exact H|]. split; [exact NQ|]. now apply std_code_domain.
      * apply Q4, quad_numeric in D. contradiction.
  - intros NB D. rewrite X. right. left. auto.
  - intros H NQ P. rewrite X. split.
    + intros [(t' & a & B & A)|[[_ D]|[_ [D _]]]]; [now apply H in B| |contradiction].
      apply (valid_ipv4_sound E h None P). now apply valid_ipv4_exact.
    + intros D. right. left. auto.
Qed.
Lemma opaque_standard E h v : limit_ok E -> (forall t, bracketed h t -> ~ odd_v6 t) ->
  (fst (is_valid_opaque_host E h v) = Ok true <-> opaque_host_string std_address h).
Proof.
  intros HE O. rewrite opaque_exact by exact HE. unfold code_valid_opaque, opaque_host_string. split.
  - intros [(t & a & B & A)|D]; [|now left]. right. exists t. split; [exact B|]. apply (address_code E t HE (O t B)). eauto.
  - intros [D|(t & B & A)]; [now right|]. left. apply (address_code E t HE (O t B)) in A as (a & A). eauto.
Qed.
