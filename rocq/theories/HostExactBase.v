(** C78 as an equivalence for base strings. *)
From Coq Require Import Ascii String.
From Coq Require Import NArith ZArith Bool Arith Lia ZifyBool ZifyN ZifyNat List.
From Verif Require Import PyStr PyInt Codec Env HostModel UrlRecord Parser FlatParser Lemmas
  IPv4Proofs HostProofs ParserProofs StandardProofs HostStandard HostExact.
From Verif Require Import SpecText SpecHost SpecUrl SpecParser.
Import ListNotations.
Open Scope N_scope.

Lemma url_basic_str hp s t r : std_url_parse hp s (BStr t) r <->
  (exists b, std_basic_parse hp None t (Some b) /\ std_basic_parse hp (Some b) s r) \/ (std_basic_parse hp None t None /\ r = None).
Proof.
  split.
  - inversion 1; subst; [left; eauto|right; auto].
  - intros [(b & B & S)|[B ->]]; [exact (sup_str hp s t b r B S)|exact (sup_fail hp s t B)].
Qed.
Theorem whole_exact_string E s t enc : limit_ok E -> normalize_encoding E enc = $"utf-8" -> scalar_string s -> scalar_string t ->
  (forall p, arg_port_read (code_host E) (BStr t) s p -> short_for (int_limit E) p) -> not_file_only (code_host E) (BStr t) s ->
  hosts_satisfy (regular_host E) (std_host_parse (code_to_ascii E)) None t ->
  ((forall r, std_url_parse (std_host_parse (code_to_ascii E)) s (BStr t) r <-> r = outcome (snd (parse_url E s (BStr t) enc))) <->
   (forall b, std_basic_parse (std_host_parse (code_to_ascii E)) None t (Some b) ->
      hosts_satisfy (regular_host E) (std_host_parse (code_to_ascii E)) (Some b) s) \/
   (std_url_parse (std_host_parse (code_to_ascii E)) s (BStr t) None /\ outcome (snd (parse_url E s (BStr t) enc)) = None)).
Proof.
  intros HE He Hs Ht HL HF HR. set (hs := std_host_parse (code_to_ascii E)) in *.
  assert (HB : good_base_arg None (BStr t)) by (split; [exact Ht|exact I]).
  pose proof (conforms_url_ports E s (BStr t) enc He Hs HB HL HF) as C.
  assert (B : forall r, std_basic_parse hs None t r <-> std_basic_parse (code_host E) None t r) by (intros r; now apply basic_swap).
  split.
  - intros A. destruct (outcome (snd (parse_url E s (BStr t) enc))) as [u|] eqn:Q; [left|right; split; [now apply A|reflexivity]].
    intros b Hb h o K O. destruct (asked_host _ _ _ _ _ K Hs) as [P Z].
    assert (S1 : std_basic_parse hs (Some b) s (Some u)).
    { destruct (proj1 (url_basic_str _ _ _ _) (proj2 (A (Some u)) eq_refl)) as [(b' & X & Y)|[_ X]]; [|discriminate].
      pose proof (std_runs_det _ _ _ _ _ _ X Hb) as J. injection J as ->. exact Y. }
    assert (C1 : std_basic_parse (code_host E) (Some b) s (Some u)).
    { destruct (proj1 (url_basic_str _ _ _ _) (proj2 (C (Some u)) eq_refl)) as [(b' & X & Y)|[_ X]]; [|discriminate].
      apply B in X. pose proof (std_runs_det _ _ _ _ _ _ X Hb) as J. injection J as ->. exact Y. }
    destruct (same_end (Some b) (std_input s) hs (code_host E) _ h o K u S1 C1) as (x & y & X & Y & [<-|(p & q & -> & ->)]).
    + apply (proj1 (host_same E h o HE P Z)); [|exact O]. unfold hs in X. congruence.
    + exact (odd_not_names E h o p q HE P Z O X Y).
  - intros [R|[N Q]] r.
    + rewrite <- C, !url_basic_str. split; (intros [(b & X & Y)|[X Y]]; [left; exists b|right; split; [now apply B|exact Y]]).
      * split; [now apply B|]. unfold hs in Y. apply basic_swap in Y; try assumption. now apply R.
      * apply B in X. split; [exact X|]. unfold hs. apply basic_swap; try assumption. now apply R.
    + rewrite Q. split; [|intros ->; exact N]. intros K. apply url_basic_str in K, N.
      destruct K as [(b & X & Y)|[X ->]]; [|reflexivity]. destruct N as [(b' & X' & Y')|[X' _]].
      * pose proof (std_runs_det _ _ _ _ _ _ X X') as J. injection J as ->. eapply std_runs_det; eassumption.
      * pose proof (std_runs_det _ _ _ _ _ _ X X') as J. discriminate J.
Qed.
