(** Facts about [str(n)], [f"{n:x}"] and [int(s, base)] (model: PyInt.v). *)
From Coq Require Import Ascii String.
From Coq Require Import NArith ZArith Bool Arith Lia ZifyBool ZifyN ZifyNat List.
From Verif Require Import PyStr PyInt SpecText Lemmas CodecProofs.
Import ListNotations.
Open Scope N_scope.

Definition value (b : N) (ds : list N) : N := fold_left (fun a d => a * b + d) ds 0.

Lemma value_acc b ds a : fold_left (fun a d => a * b + d) ds a = a * b ^ N.of_nat (length ds) + value b ds.
Proof.
  unfold value. revert a; induction ds as [|d t IH]; intros a; cbn [fold_left length].
  - rewrite N.pow_0_r. lia.
  - rewrite IH. rewrite (IH (0 * b + d)). rewrite Nat2N.inj_succ, N.pow_succ_r'. lia.
Qed.
Lemma value_app b x y : value b (x ++ y) = value b x * b ^ N.of_nat (length y) + value b y.
Proof. unfold value. rewrite fold_left_app. apply value_acc. Qed.
Lemma value_cons b d t : value b (d :: t) = d * b ^ N.of_nat (length t) + value b t.
Proof. unfold value at 1. cbn [fold_left]. rewrite value_acc. lia. Qed.
Lemma value_lt b ds : b <> 0 -> Forall (fun d => d < b) ds -> value b ds < b ^ N.of_nat (length ds).
Proof.
  intros Hb. induction 1 as [|d t Hd Ht IH].
  - cbn. lia.
  - rewrite value_cons. cbn [length]. rewrite Nat2N.inj_succ, N.pow_succ_r'. nia.
Qed.

(** no superfluous leading zero *)
Definition shortest (ds : list N) : Prop := ds <> [] /\ (forall t, ds = 0 :: t -> t = []).

Lemma digits_fuel_spec b (Hb : 2 <= b) f : forall n acc, n < b ^ N.of_nat f -> f <> O ->
  exists D, digits_fuel f b n acc = D ++ acc /\ value b D = n /\ Forall (fun d => d < b) D /\ shortest D
    /\ (n <> 0 -> forall t, D <> 0 :: t).
Proof.
  induction f as [|f IH]; intros n acc Hn Hf; [congruence|]. cbn [digits_fuel].
  destruct (n / b =? 0) eqn:Q.
  - exists [n mod b]. apply N.eqb_eq in Q. apply N.div_small_iff in Q; [|lia].
    rewrite N.mod_small by auto. cbn [app]. unfold value. cbn [fold_left].
    split; [reflexivity|]. split; [lia|]. split; [constructor; auto|]. split.
    + split; [discriminate|]. intros t E. congruence.
    + intros H0 t E. congruence.
  - assert (Hn' : n / b <> 0) by lia.
    assert (Hlt : n / b < b ^ N.of_nat f).
    { rewrite Nat2N.inj_succ, N.pow_succ_r' in Hn. apply N.div_lt_upper_bound; lia. }
    assert (Hf' : f <> O).
    { intros ->. change (N.of_nat 0) with 0 in Hlt. rewrite N.pow_0_r in Hlt. apply N.lt_1_r in Hlt. contradiction. }
    destruct (IH (n / b) (n mod b :: acc) Hlt Hf') as (D & E & V & F & [S1 S2] & Z).
    exists (D ++ [n mod b]). rewrite E, <- app_assoc. split; [reflexivity|].
    split. { rewrite value_app, V. unfold value. cbn [fold_left length]. change (N.of_nat 1) with 1.
             rewrite N.pow_1_r. pose proof (N.div_mod n b). lia. }
    split. { apply Forall_app. split; auto. constructor; auto. apply N.mod_lt. lia. }
    specialize (Z Hn').
    split.
    + split; [destruct D; discriminate|]. intros t Et. destruct D as [|d D]; [congruence|].
      cbn in Et. injection Et as -> _. now destruct (Z D).
    + intros _ t Et. destruct D as [|d D]; [congruence|]. cbn in Et. injection Et as -> _. now destruct (Z D).
Qed.

Lemma digits_spec b n : 2 <= b ->
  value b (digits b n) = n /\ Forall (fun d => d < b) (digits b n) /\ shortest (digits b n)
  /\ (n <> 0 -> forall t, digits b n <> 0 :: t).
Proof.
  intros Hb. unfold digits.
  assert (Hn : n < b ^ N.of_nat (S (N.to_nat (N.log2 n)))).
  { destruct (N.eq_dec n 0) as [->|N0].
    - apply N.neq_0_lt_0. apply N.pow_nonzero. lia.
    - rewrite Nat2N.inj_succ, N2Nat.id. apply N.lt_le_trans with (2 ^ N.succ (N.log2 n)).
      + apply N.log2_spec. lia.
      + apply N.pow_le_mono_l. lia. }
  destruct (digits_fuel_spec b Hb _ n [] Hn ltac:(lia)) as (D & E & V & F & S & Z).
  rewrite E, app_nil_r. auto.
Qed.

(** a shortest digit string is determined by its value *)
Lemma shortest_unique b x y : 2 <= b ->
  Forall (fun d => d < b) x -> Forall (fun d => d < b) y -> shortest x -> shortest y ->
  value b x = value b y -> x = y.
Proof.
  intros Hb Hx Hy [Nx Sx] [Ny Sy] V.
  assert (L : length x = length y).
  { assert (G : forall x, x <> [] -> (forall t, x = 0 :: t -> t = []) -> Forall (fun d => d < b) x ->
        (length x <= 1)%nat \/ b ^ (N.of_nat (length x) - 1) <= value b x).
    { intros z Nz Sz Fz. destruct z as [|d [|d2 t]]; [congruence|left; cbn; lia|]. right.
      rewrite value_cons. assert (d <> 0). { intros ->. now specialize (Sz _ eq_refl). }
      cbn [length]. replace (N.of_nat (S (S (length t))) - 1) with (N.of_nat (S (length t))) by lia. nia. }
    pose proof (value_lt b x ltac:(lia) Hx). pose proof (value_lt b y ltac:(lia) Hy).
    destruct (Nat.lt_trichotomy (length x) (length y)) as [C|[C|C]]; auto; exfalso.
    - destruct (G y Ny Sy Hy) as [?|K]; [destruct x; [congruence|cbn in *; lia]|].
      assert (b ^ N.of_nat (length x) <= b ^ (N.of_nat (length y) - 1)) by (apply N.pow_le_mono_r; lia). lia.
    - destruct (G x Nx Sx Hx) as [?|K]; [destruct y; [congruence|cbn in *; lia]|].
      assert (b ^ N.of_nat (length y) <= b ^ (N.of_nat (length x) - 1)) by (apply N.pow_le_mono_r; lia). lia. }
  clear Nx Sx Ny Sy. revert y Hy V L; induction Hx as [|d t Hd Ht IH]; intros y Hy V L.
  - destruct y; [reflexivity|discriminate].
  - destruct Hy as [|d' t' Hd' Ht']; [discriminate|]. cbn in L. injection L as L.
    rewrite !value_cons, L in V.
    pose proof (value_lt b t ltac:(lia) Ht) as V1. rewrite L in V1.
    pose proof (value_lt b t' ltac:(lia) Ht') as V2.
    assert (d = d').
    { set (P := b ^ N.of_nat (length t')) in *. nia. }
    subst d'. f_equal. apply IH; auto. lia.
Qed.

(** Specification of decimal / lower-case hexadecimal notation *)
Definition std_digit (d : N) : N := if d <? 10 then 48 + d else 97 + (d - 10).
Definition shortest_in_base (b n : N) (s : str) : Prop :=
  exists ds, s = map std_digit ds /\ Forall (fun d => d < b) ds /\ shortest ds /\ value b ds = n.

Lemma digit_char_std d : digit_char d = std_digit d.
Proof. unfold digit_char, std_digit. destruct (d <? 10) eqn:Q; lia. Qed.
Lemma dec_str_spec n : shortest_in_base 10 n (dec_str n).
Proof.
  exists (digits 10 n). destruct (digits_spec 10 n ltac:(lia)) as (V & F & S & _). repeat split; auto.
  - unfold dec_str. apply map_ext. apply digit_char_std.
  - apply S.
  - apply S.
Qed.
Lemma hex_str_spec n : shortest_in_base 16 n (hex_str n).
Proof.
  exists (digits 16 n). destruct (digits_spec 16 n ltac:(lia)) as (V & F & S & _). repeat split; auto.
  - unfold hex_str. apply map_ext. apply digit_char_std.
  - apply S.
  - apply S.
Qed.
Lemma std_digit_inj a b : a < 16 -> b < 16 -> std_digit a = std_digit b -> a = b.
Proof. unfold std_digit. intros. destruct (a <? 10) eqn:?, (b <? 10) eqn:?; lia. Qed.

(** the digit loop of int() *)
Lemma digit_val_char b d : b <= 16 -> d < b -> digit_val (digit_char d) = Some d /\ (digit_char d =? 95) = false.
Proof.
  intros Hb Hd. unfold digit_val, digit_char. destruct (d <? 10) eqn:Q.
  - replace ((48 <=? 48 + d) && (48 + d <=? 57)) with true by lia. split; [f_equal|]; lia.
  - replace ((48 <=? 87 + d) && (87 + d <=? 57)) with false by lia.
    replace ((97 <=? 87 + d) && (87 + d <=? 122)) with true by lia. split; [f_equal|]; lia.
Qed.
Lemma scan_digits_map b ds acc cnt : b <= 16 -> Forall (fun d => d < b) ds ->
  scan_digits b (map digit_char ds) false acc cnt =
  Some (fold_left (fun a d => a * b + d) ds acc, cnt + N.of_nat (length ds), []).
Proof.
  intros Hb H. revert acc cnt; induction H as [|d t Hd Ht IH]; intros acc cnt.
  - cbn. do 3 f_equal. lia.
  - cbn [map scan_digits fold_left length]. destruct (digit_val_char b d Hb Hd) as [-> ->].
    replace (d <? b) with true by lia. rewrite IH. do 3 f_equal. lia.
Qed.
