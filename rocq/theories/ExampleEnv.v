(** A concrete environment for the Examples: IDNA lower-cases ASCII and
    rejects everything else, CPython's default int/str limit, latin-1 as the only
    legacy codec. *)
From Coq Require Import Ascii String.
From Coq Require Import NArith ZArith Bool Arith Lia ZifyBool ZifyN ZifyNat List.
From Verif Require Import PyStr PyInt Codec Env HostModel UrlRecord Parser SpecText SpecHost.
From Verif Require Import Lemmas CodecProofs QuoteProofs LegacyProofs PyIntProofs IPv4Proofs HostProofs ValidatorProofs.
Import ListNotations.
Open Scope N_scope.

Definition ascii_env : env :=
  {| icu_to_ascii := fun _ d => if forallb (fun c => c <? 128) d then IcuOk 0 (lower d) else IcuFail 1;
     icu_to_unicode := fun _ d => IcuOk 0 d;
     codec := fun _ => latin1;
     uni_decimal := fun _ => None; uni_space := fun _ => false; uni_lower := fun c => [c];
     int_limit := Some 4300; has_validity := false |}.

(** the same with the smallest int/str limit CPython accepts (sys.set_int_max_str_digits) *)
Definition low_env : env :=
  {| icu_to_ascii := icu_to_ascii ascii_env; icu_to_unicode := icu_to_unicode ascii_env; codec := codec ascii_env;
     uni_decimal := uni_decimal ascii_env; uni_space := uni_space ascii_env; uni_lower := uni_lower ascii_env;
     int_limit := Some 640; has_validity := false |}.

Lemma ascii_env_limit : limit_ok ascii_env.
Proof. unfold limit_ok. cbn. lia. Qed.
Lemma lower_ascii d : ascii_str d -> ascii_str (lower d).
Proof.
  intros H. unfold lower. apply Forall_map. eapply Forall_impl; [|exact H]. cbv beta. intros c Hc. unfold lower1.
  destruct ((65 <=? c) && (c <=? 90)) eqn:Q; lia.
Qed.
Lemma forallb_ascii d : forallb (fun c => c <? 128) d = true <-> ascii_str d.
Proof.
  rewrite forallb_forall. unfold ascii_str. rewrite Forall_forall. split; intros H c Hc; specialize (H c Hc); cbv beta in *; lia.
Qed.
Lemma ascii_env_dta d : snd (domain_to_ascii ascii_env false d) =
  if forallb (fun c => c <? 128) d then match lower d with [] => Err EHostParse | o => Ok o end else Err EIDNA.
Proof.
  unfold domain_to_ascii. cbv zeta. cbn [ascii_env icu_to_ascii]. destruct (forallb _ d); [|reflexivity].
  change (negb (N.ldiff 0 _ =? 0)) with false. cbv iota. now destruct (lower d).
Qed.
Lemma ascii_env_idna : idna_ok ascii_env.
Proof.
  constructor.
  - intros d o H. rewrite ascii_env_dta in H |- *. destruct (forallb _ d) eqn:Q; [|discriminate].
    apply forallb_ascii in Q. destruct (lower d) as [|c t] eqn:L; [discriminate|]. injection H as <-.
    pose proof (lower_ascii d Q) as A. rewrite L in A. split; auto.
    apply forallb_ascii in A. rewrite A. rewrite <- L, lower_idem, L. reflexivity.
  - intros n. rewrite ascii_env_dta. pose proof (ipv4_ascii n) as A. apply forallb_ascii in A. rewrite A.
    assert (Q : lower (ipv4_serialize n) = ipv4_serialize n).
    { pose proof (ipv4_chars n) as C. induction (ipv4_serialize n) as [|c t IH]; [reflexivity|]. cbn [lower map].
      f_equal; [|apply IH].
      - destruct (C c (or_introl eq_refl)); unfold lower1; replace ((65 <=? c) && (c <=? 90)) with false by lia; reflexivity.
      - apply forallb_ascii. apply forallb_ascii in A. now inversion A.
      - intros x Hx. apply C. now right. }
    rewrite Q. pose proof (ipv4_nonempty n). destruct (ipv4_serialize n); congruence.
Qed.
