(** The exact form of C66: a ValidityState after operations some of which raised. *)
From Coq Require Import Ascii String.
From Coq Require Import NArith ZArith Bool Arith Lia List.
From Verif Require Import PyStr Codec Env HostModel UrlRecord Parser Validators.
Import ListNotations.

(** [vs_raised n s]: [s] is what operations have made of a fresh state, and [n] of the
    calls of prepend that are recorded in it raised while they formatted the description *)
Inductive vs_raised : nat -> vstate -> Prop :=
| vr_fresh : vs_raised 0 vs_fresh
| vr_prepend n s v : vs_raised n s -> vs_raised n (vs_prepend v s)
| vr_raise n s v : vs_raised n s -> vs_raised (S n) (vs_prepend_raising v s)
| vr_reset n s : vs_raised n s -> vs_raised 0 (vs_reset s)
| vr_iadd n s m o : vs_raised n s -> vs_raised m o -> vs_raised (n + m) (vs_iadd s o).

Definition raising (l : log) : nat := length (filter (fun v => match v with VIPv4OutOfRangeRaised => true | _ => false end) l).

Lemma vs_raised_spec n s : vs_raised n s ->
  length (vs_types s) = (vs_count s + n)%nat /\ vs_descs s = vs_count s /\ (vs_valid s = true <-> vs_types s = []).
Proof.
  induction 1 as [|n s v H IH|n s v H IH|n s H IH|n s m o H1 IH1 H2 IH2]; cbn [vs_fresh vs_prepend vs_prepend_raising vs_reset vs_iadd vs_types vs_count vs_descs vs_valid length].
  - repeat split; reflexivity.
  - destruct IH as (A & B & C). repeat split; [lia|lia|discriminate|discriminate].
  - destruct IH as (A & B & C). repeat split; [lia|lia|discriminate|discriminate].
  - repeat split; reflexivity.
  - destruct IH1 as (A1 & B1 & C1), IH2 as (A2 & B2 & C2). rewrite app_length. repeat split; [lia|lia| |].
    + intros K. apply andb_true_iff in K as [K1 K2]. apply C1 in K1. apply C2 in K2. now rewrite K1, K2.
    + intros K. apply app_eq_nil in K as [K1 K2]. apply C1 in K1. apply C2 in K2. now rewrite K1, K2.
Qed.
Lemma vs_raised_apply l : forall n s, vs_raised n s -> vs_raised (n + raising l) (vs_apply l s).
Proof.
  unfold vs_apply, raising. induction l as [|v l IH]; intros n s H; cbn [fold_left filter].
  - cbn [length]. now rewrite Nat.add_0_r.
  - destruct v; cbn [vs_log length]; try (apply IH; constructor; exact H). rewrite Nat.add_succ_r, <- Nat.add_succ_l. apply IH. now constructor.
Qed.
Lemma url_valid_raised E s base enc v : vs_raised (raising (fst (parse_url (with_validity E true) s base enc))) (snd (url_is_valid E s base enc v)).
Proof.
  unfold url_is_valid. cbv zeta. assert (ST : vs_raised 0 (vs_start v)) by (destruct v; [apply (vr_reset 0 vs_fresh vr_fresh)|apply vr_fresh]).
  destruct (parse_url (with_validity E true) s base enc) as [l r]. cbn [fst]. pose proof (vs_raised_apply l 0 _ ST) as A. cbn [Nat.add] in A. destruct r as [u|e]; [|exact A].
  unfold is_valid_url_scheme. cbv zeta. destruct (_ && _); cbn [snd]; apply (vr_iadd 0); auto; cbn [vs_start].
  - apply (vr_reset 0 vs_fresh vr_fresh).
  - apply vr_prepend, (vr_reset 0 vs_fresh vr_fresh).
Qed.
