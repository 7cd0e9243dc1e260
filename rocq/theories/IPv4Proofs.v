(** IPv4: int() on digit strings, the number parser, the address parser and
    the serializer. *)
From Coq Require Import Ascii String.
From Coq Require Import NArith ZArith Bool Arith Lia ZifyBool ZifyN ZifyNat List.
From Verif Require Import PyStr PyInt Codec Env HostModel SpecText SpecHost Lemmas CodecProofs QuoteProofs PyIntProofs.
Import ListNotations.
Open Scope N_scope.

(** CPython's int/str conversion limit is at least 640 (or absent). *)
Definition limit_ok (E : env) : Prop :=
  match int_limit E with Some l => 640 <= l | None => True end.


(* ---------- int() on digit strings ---------- *)
Lemma radix_digit_val b c d : b <= 16 -> std_radix_digit b c = Some d ->
  digit_val c = Some d /\ d < b /\ c < 128 /\ 48 <= c /\ c <> 95.
Proof.
  unfold std_radix_digit, std_hex, digit_val. intros Hb.
  destruct ((48 <=? c) && (c <=? 57)) eqn:A.
  { destruct (c - 48 <? b) eqn:Q; [|discriminate]. intros H; apply Some_inj in H. subst. repeat split; lia. }
  destruct ((65 <=? c) && (c <=? 70)) eqn:B.
  { destruct (c - 65 + 10 <? b) eqn:Q; [|discriminate]. intros H; apply Some_inj in H. subst.
    replace ((97 <=? c) && (c <=? 122)) with false by lia. replace ((65 <=? c) && (c <=? 90)) with true by lia.
    repeat split; try lia. f_equal. lia. }
  destruct ((97 <=? c) && (c <=? 102)) eqn:D; [|discriminate].
  destruct (c - 97 + 10 <? b) eqn:Q; [|discriminate]. intros H; apply Some_inj in H. subst.
  replace ((97 <=? c) && (c <=? 122)) with true by lia. repeat split; try lia. f_equal. lia.
Qed.
Lemma radix_digit_none b c : b <= 16 -> std_radix_digit b c = None ->
  match digit_val c with Some d => b <= d | None => True end.
Proof.
  unfold std_radix_digit, std_hex, digit_val. intros Hb.
  destruct ((48 <=? c) && (c <=? 57)) eqn:A.
  { destruct (c - 48 <? b) eqn:Q; [discriminate|]. lia. }
  destruct ((65 <=? c) && (c <=? 70)) eqn:B.
  { destruct (c - 65 + 10 <? b) eqn:Q; [discriminate|]. intros _.
    replace ((97 <=? c) && (c <=? 122)) with false by lia. replace ((65 <=? c) && (c <=? 90)) with true by lia. lia. }
  destruct ((97 <=? c) && (c <=? 102)) eqn:D.
  { destruct (c - 97 + 10 <? b) eqn:Q; [discriminate|].
    replace ((97 <=? c) && (c <=? 122)) with true by lia. lia. }
  intros _. destruct ((97 <=? c) && (c <=? 122)) eqn:F; [lia|].
  destruct ((65 <=? c) && (c <=? 90)) eqn:G; [lia|auto].
Qed.

Lemma scan_radix b s : b <= 16 -> forall acc cnt v,
  std_radix_value b s acc = Some v ->
  scan_digits b s false acc cnt = Some (v, cnt + N.of_nat (length s), []).
Proof.
  intros Hb. induction s as [|c t IH]; intros acc cnt v H; cbn [std_radix_value scan_digits length] in *.
  - apply Some_inj in H; subst. do 3 f_equal. lia.
  - destruct (std_radix_digit b c) as [d|] eqn:Q; [|discriminate].
    destruct (radix_digit_val b c d Hb Q) as (E & Hd & _ & _ & H95).
    replace (c =? 95) with false by lia. rewrite E. replace (d <? b) with true by lia.
    rewrite (IH _ _ v) by auto. do 3 f_equal. lia.
Qed.
Lemma radix_ascii b s : b <= 16 -> forall acc v, std_radix_value b s acc = Some v -> ascii_str s.
Proof.
  intros Hb. induction s as [|c t IH]; intros acc v H; [constructor|]. cbn in H.
  destruct (std_radix_digit b c) as [d|] eqn:Q; [|discriminate].
  destruct (radix_digit_val b c d Hb Q) as (_ & _ & ? & _). constructor; [auto|eapply IH; eauto].
Qed.
Lemma to_ascii_digits_ascii f g s : ascii_str s -> to_ascii_digits f g s = s.
Proof.
  intros H. unfold to_ascii_digits. replace (forallb (fun c => c <? 128) s) with true; auto.
  symmetry. apply forallb_forall. unfold ascii_str in H. rewrite Forall_forall in H. intros x Hx.
  specialize (H x Hx). cbv beta in H. lia.
Qed.

(** int(s, base) on a non-empty string of base-[b] digits *)
Lemma py_int_digits_eq limit f g b s v : (b = 8 \/ b = 10 \/ b = 16) -> s <> [] ->
  std_radix_value b s 0 = Some v ->
  py_int limit f g s b =
  if (b =? 10) && match limit with Some l => l <? N.of_nat (length s) | None => false end
  then None else Some (Z.of_N v).
Proof.
  intros Hb Hs H. assert (Hb16 : b <= 16) by lia.
  unfold py_int. rewrite to_ascii_digits_ascii by (eapply radix_ascii; eauto).
  destruct s as [|c t]; [congruence|]. pose proof H as H'. cbn [std_radix_value] in H.
  destruct (std_radix_digit b c) as [d|] eqn:Q; [|discriminate].
  destruct (radix_digit_val b c d Hb16 Q) as (_ & _ & _ & Hc & H95).
  cbn [drop_while]. replace (is_space_ascii c) with false by (unfold is_space_ascii; lia).
  assert (Hsign : take_sign (c :: t) = (false, c :: t)).
  { cbn [take_sign]. now replace (c =? 43) with false by lia; replace (c =? 45) with false by lia. }
  rewrite Hsign.
  assert (Hpre : skip_prefix b (c :: t) = c :: t).
  { destruct t as [|x t0]; [reflexivity|]. cbn [skip_prefix std_radix_value] in *.
    destruct (std_radix_digit b x) as [dx|] eqn:Qx; [|discriminate].
    replace (is_prefix_char b x) with false; [now rewrite andb_false_r|]. symmetry.
    unfold is_prefix_char. destruct Hb as [-> |[-> | ->]]; cbn [N.eqb Pos.eqb andb orb]; auto.
    - destruct ((x =? 111) || (x =? 79)) eqn:W; auto. exfalso.
      assert (x = 111 \/ x = 79) as [-> | ->] by lia; discriminate.
    - destruct ((x =? 120) || (x =? 88)) eqn:W; auto. exfalso.
      assert (x = 120 \/ x = 88) as [-> | ->] by lia; discriminate. }
  rewrite Hpre. replace (c =? 95) with false by lia.
  rewrite (scan_radix b (c :: t) Hb16 0 0 v H').
  cbn [length]. replace (0 + N.of_nat (S (length t)) =? 0) with false by lia.
  rewrite N.add_0_l. destruct ((b =? 10) && _); reflexivity.
Qed.
Lemma py_int_digits limit f g b s v : (b = 8 \/ b = 10 \/ b = 16) -> s <> [] ->
  std_radix_value b s 0 = Some v ->
  (b = 10 -> match limit with Some l => N.of_nat (length s) <= l | None => True end) ->
  py_int limit f g s b = Some (Z.of_N v).
Proof.
  intros Hb Hs H Hl. rewrite (py_int_digits_eq limit f g b s v Hb Hs H).
  destruct (b =? 10) eqn:B10; [|reflexivity]. cbn [andb].
  assert (Q : b = 10) by lia. specialize (Hl Q). destruct limit as [l|]; [|reflexivity].
  replace (l <? N.of_nat (length s)) with false by lia. reflexivity.
Qed.

(* digit strings printed by str()/format *)
Lemma radix_value_digits b ds acc : b <= 16 -> Forall (fun d => d < b) ds ->
  std_radix_value b (map digit_char ds) acc = Some (fold_left (fun a d => a * b + d) ds acc).
Proof.
  intros Hb H. revert acc. induction H as [|d t Hd Ht IH]; intros acc; [reflexivity|].
  cbn [map std_radix_value fold_left].
  assert (E : std_radix_digit b (digit_char d) = Some d).
  { unfold std_radix_digit, digit_char, std_hex. destruct (d <? 10) eqn:Q.
    - replace ((48 <=? 48 + d) && (48 + d <=? 57)) with true by lia.
      replace (48 + d - 48 <? b) with true by lia. f_equal. lia.
    - replace ((48 <=? 87 + d) && (87 + d <=? 57)) with false by lia.
      replace ((65 <=? 87 + d) && (87 + d <=? 70)) with false by lia.
      replace ((97 <=? 87 + d) && (87 + d <=? 102)) with true by lia.
      replace (87 + d - 97 + 10 <? b) with true by lia. f_equal. lia. }
  rewrite E. apply IH.
Qed.
Lemma dec_str_value n : std_radix_value 10 (dec_str n) 0 = Some n.
Proof.
  unfold dec_str. destruct (digits_spec 10 n ltac:(lia)) as (V & F & _).
  rewrite radix_value_digits by (auto; lia). unfold value in V. now rewrite V.
Qed.
Lemma hex_str_value n : std_radix_value 16 (hex_str n) 0 = Some n.
Proof.
  unfold hex_str. destruct (digits_spec 16 n ltac:(lia)) as (V & F & _).
  rewrite radix_value_digits by (auto; lia). unfold value in V. now rewrite V.
Qed.
Lemma dec_str_nonempty n : dec_str n <> [].
Proof. unfold dec_str. destruct (digits_spec 10 n ltac:(lia)) as (_ & _ & [N _] & _). destruct (digits 10 n); [congruence|discriminate]. Qed.
Lemma hex_str_nonempty n : hex_str n <> [].
Proof. unfold hex_str. destruct (digits_spec 16 n ltac:(lia)) as (_ & _ & [N _] & _). destruct (digits 16 n); [congruence|discriminate]. Qed.

(** lengths *)
Lemma digits_len b n k : 2 <= b -> n < b ^ N.of_nat k -> (1 <= k)%nat -> (length (digits b n) <= k)%nat.
Proof.
  intros Hb Hn Hk. destruct (digits_spec b n Hb) as (V & F & [N S] & Z).
  destruct (N.eq_dec n 0) as [->|N0].
  - destruct (digits b 0) as [|d t] eqn:Q; [congruence|].
    assert (d = 0).
    { rewrite value_cons in V. assert (d * b ^ N.of_nat (length t) = 0) by lia.
      apply N.mul_eq_0 in H as [?|H]; auto. exfalso. revert H. apply N.pow_nonzero. lia. }
    subst d. rewrite (S t eq_refl). cbn. lia.
  - destruct (digits b n) as [|d t] eqn:Q; [congruence|]. assert (d <> 0).
    { intros ->. now apply (Z N0 t). }
    cbn [length]. rewrite value_cons in V.
    destruct (Nat.le_gt_cases (Datatypes.S (length t)) k) as [?|G]; auto. exfalso.
    assert (b ^ N.of_nat k <= b ^ N.of_nat (length t)) by (apply N.pow_le_mono_r; lia).
    assert (1 * b ^ N.of_nat (length t) <= d * b ^ N.of_nat (length t)) by (apply N.mul_le_mono_r; lia).
    lia.
Qed.
Lemma dec_str_len n k : n < 10 ^ N.of_nat k -> (1 <= k)%nat -> (length (dec_str n) <= k)%nat.
Proof. intros. unfold dec_str. rewrite map_length. apply digits_len; auto. lia. Qed.
Lemma hex_str_len n k : n < 16 ^ N.of_nat k -> (1 <= k)%nat -> (length (hex_str n) <= k)%nat.
Proof. intros. unfold hex_str. rewrite map_length. apply digits_len; auto. lia. Qed.

Lemma e_int_dec E n : limit_ok E -> n < 10 ^ 10 -> e_int E (dec_str n) 10 = Some (Z.of_N n).
Proof.
  intros HE Hn. apply py_int_digits; auto using dec_str_nonempty, dec_str_value.
  intros _. unfold limit_ok in HE. destruct (int_limit E); auto.
  assert ((length (dec_str n) <= 10)%nat) by (apply dec_str_len; [exact Hn|lia]). lia.
Qed.
Lemma e_int_hex E n : e_int E (hex_str n) 16 = Some (Z.of_N n).
Proof. apply py_int_digits; auto using hex_str_nonempty, hex_str_value. intros; lia. Qed.

(* ---------- the number parser ---------- *)

(** a decimal numeral without leading zero is not longer than its value allows *)
Lemma radix_value_len b s : 2 <= b <= 16 -> forall acc v, std_radix_value b s acc = Some v ->
  acc * b ^ N.of_nat (length s) <= v.
Proof.
  intros Hb. induction s as [|c t IH]; intros acc v H; cbn [std_radix_value length] in *.
  - apply Some_inj in H; subst. change (N.of_nat 0) with 0. rewrite N.pow_0_r. lia.
  - destruct (std_radix_digit b c) as [d|] eqn:Q; [|discriminate]. apply IH in H.
    rewrite Nat2N.inj_succ, N.pow_succ_r'. nia.
Qed.

(* ---------- the effect monad, results only ---------- *)
Lemma snd_wbind {A B} (m : W A) (f : A -> W B) :
  snd (wbind m f) = match snd m with Ok a => snd (f a) | Err e => Err e end.
Proof. destruct m as [l [a|e]]; cbn; auto. destruct (f a); reflexivity. Qed.
Lemma snd_wret {A} (a : A) : snd (wret a) = Ok a. Proof. reflexivity. Qed.
Lemma snd_wfail {A} v e : snd (@wfail A v e) = Err e. Proof. reflexivity. Qed.
Lemma snd_wlog v : snd (wlog v) = Ok tt. Proof. reflexivity. Qed.

(* ---------- the number parser ---------- *)
Lemma dec_len_bound c t v : std_radix_value 10 (c :: t) 0 = Some v -> (t <> [] -> c <> 48) ->
  v < 10 ^ 10 -> (length (c :: t) <= 10)%nat.
Proof.
  intros H Hc Hv. destruct t as [|c2 t2]; [cbn; lia|]. specialize (Hc ltac:(discriminate)).
  remember (c2 :: t2) as t. cbn [std_radix_value] in H.
  destruct (std_radix_digit 10 c) as [d|] eqn:Q; [|discriminate].
  assert (d <> 0).
  { intros ->. unfold std_radix_digit, std_hex in Q.
    destruct ((48 <=? c) && (c <=? 57)) eqn:A.
    - destruct (c - 48 <? 10) eqn:B; [|discriminate]. apply Some_inj in Q. lia.
    - destruct ((65 <=? c) && (c <=? 70)) eqn:B.
      + destruct (c - 65 + 10 <? 10) eqn:B'; [|discriminate]. apply Some_inj in Q. lia.
      + destruct ((97 <=? c) && (c <=? 102)) eqn:B2; [|discriminate].
        destruct (c - 97 + 10 <? 10) eqn:B'; [|discriminate]. apply Some_inj in Q. lia. }
  apply radix_value_len in H; [|lia]. cbn [length].
  destruct (Nat.le_gt_cases (S (length t)) 10) as [?|G]; auto. exfalso.
  assert (10 ^ 10 <= 10 ^ N.of_nat (length t)) by (apply N.pow_le_mono_r; lia).
  assert (1 * 10 ^ N.of_nat (length t) <= (0 * 10 + d) * 10 ^ N.of_nat (length t)) by (apply N.mul_le_mono_r; lia).
  lia.
Qed.

Lemma ipv4_number_complete E s n ve : limit_ok E -> std_ipv4_number s = Some (n, ve) -> n < 10 ^ 10 ->
  parse_ipv4_number E s = (Z.of_N n, ve).
Proof.
  intros HE H Hn. unfold std_ipv4_number in H. unfold parse_ipv4_number.
  destruct s as [|c t]; [discriminate|].
  assert (Dec : (t <> [] -> c <> 48) ->
     match std_radix_value 10 (c :: t) 0 with Some v => Some (v, false) | None => None end = Some (n, ve) ->
     match e_int E (c :: t) 10 with Some z => (z, false) | None => ((-1)%Z, true) end = (Z.of_N n, ve)).
  { intros Hc Hd. destruct (std_radix_value 10 (c :: t) 0) as [v|] eqn:V; [|discriminate].
    injection Hd as -> <-. unfold e_int. erewrite py_int_digits; eauto; [discriminate|].
    intros _. unfold limit_ok in HE. destruct (int_limit E) as [l|]; auto.
    pose proof (dec_len_bound c t n V Hc Hn). lia. }
  destruct t as [|x t].
  { apply Dec; auto. }
  destruct (c =? 48) eqn:C.
  2:{ apply Dec; auto. lia. }
  destruct ((x =? 120) || (x =? 88)).
  - destruct t as [|y t]; [injection H as <- <-; reflexivity|].
    destruct (std_radix_value 16 (y :: t) 0) as [v|] eqn:V; [|discriminate]. injection H as -> <-.
    unfold e_int. erewrite py_int_digits; eauto; [discriminate|discriminate].
  - destruct (std_radix_value 8 (x :: t) 0) as [v|] eqn:V; [|discriminate]. injection H as -> <-.
    unfold e_int. erewrite py_int_digits; eauto; [discriminate|discriminate].
Qed.

(* ---------- splitting ---------- *)
Lemma std_split_eq sep s : std_strict_split sep s [] = split sep s.
Proof. rewrite strict_split. now destruct (split sep s). Qed.

Lemma drop_last_eq parts : match last parts [] with
               | [] => match parts with [_] => parts | _ => removelast parts end
               | _ => parts end = drop_last_empty parts.
Proof.
  unfold drop_last_empty. destruct (last parts []); [|reflexivity].
  destruct parts as [|a [|b l]]; reflexivity.
Qed.

(* ---------- numbers and sum ---------- *)
Lemma ipv4_sum_eq l i : (i + length l <= 4)%nat ->
  fold_right N.add 0 (map (fun p => snd p * 256 ^ (3 - N.of_nat (fst p)))
                           (combine (seq i (S (length l))) l)) = ipv4_sum l (3 - N.of_nat i).
Proof.
  revert i; induction l as [|n l IH]; intros i Hi; [reflexivity|].
  cbn [length seq combine map fold_right ipv4_sum fst snd] in *.
  replace (3 - N.of_nat i - 1) with (3 - N.of_nat (S i)) by lia.
  rewrite <- IH by lia. reflexivity.
Qed.

Lemma removelast_length {A} (l : list A) : l <> [] -> length l = S (length (removelast l)).
Proof.
  intros H. destruct (rev_ind_inv l) as [->|(l' & x & ->)]; [congruence|].
  rewrite removelast_last, app_length. cbn. lia.
Qed.

Lemma repr_ok E n : limit_ok E -> n < 10 ^ 10 -> repr_fails E n = false.
Proof.
  intros HE Hn. unfold repr_fails, limit_ok in *. destruct (int_limit E); auto.
  pose proof (digits_len 10 n 10 ltac:(lia) Hn ltac:(lia)). lia.
Qed.
Lemma ipv4_numbers_complete E parts ns : limit_ok E ->
  std_ipv4_numbers parts = Some ns -> Forall (fun n => n < 10 ^ 10) ns ->
  snd (ipv4_numbers E parts) = Ok ns.
Proof.
  intros HE. revert ns; induction parts as [|p t IH]; intros ns H F; cbn [std_ipv4_numbers ipv4_numbers] in *.
  - apply Some_inj in H; subst. reflexivity.
  - destruct (std_ipv4_number p) as [[n ve]|] eqn:Q; [|discriminate].
    destruct (std_ipv4_numbers t) as [ns'|] eqn:Qt; [|discriminate]. apply Some_inj in H; subst ns.
    inversion F; subst. rewrite (ipv4_number_complete E p n ve) by auto. cbn [fst snd].
    replace (Z.of_N n <? 0)%Z with false by lia.
    rewrite snd_wbind. destruct ve; cbn [wlog wret snd];
      rewrite snd_wbind, (IH ns') by auto; rewrite N2Z.id; reflexivity.
Qed.
Lemma std_ipv4_numbers_len parts ns : std_ipv4_numbers parts = Some ns -> length ns = length parts.
Proof.
  revert ns; induction parts as [|p t IH]; intros ns H; cbn in H; [now apply Some_inj in H; subst|].
  destruct (std_ipv4_number p) as [[n ve]|]; [|discriminate].
  destruct (std_ipv4_numbers t) as [ns'|]; [|discriminate]. apply Some_inj in H; subst. cbn. f_equal. now apply IH.
Qed.
Lemma drop_last_nonempty s : drop_last_empty (split 46 s) <> [].
Proof.
  unfold drop_last_empty. pose proof (split_not_nil 46 s).
  destruct (last (split 46 s) []); auto. destruct (1 <? length (split 46 s))%nat eqn:L; auto.
  intros Hn. assert (length (split 46 s) = S (length (removelast (split 46 s)))) by now apply removelast_length.
  rewrite Hn in H0. cbn in H0. lia.
Qed.
Lemma Forall_last_removelast {A} (P : A -> Prop) l d : l <> [] -> Forall P (removelast l) -> P (last l d) -> Forall P l.
Proof.
  intros H F L. destruct (rev_ind_inv l) as [->|(l' & x & ->)]; [congruence|].
  rewrite removelast_last in F. rewrite last_last in L. apply Forall_app. auto.
Qed.

(** The code's parser, with the number list made explicit. *)
Lemma ipv4_parse_eq E s ns :
  (length (drop_last_empty (split 46 s)) <= 4)%nat ->
  snd (ipv4_numbers E (drop_last_empty (split 46 s))) = Ok ns ->
  existsb (repr_fails E) ns = false ->
  snd (ipv4_parse E s) =
    if existsb (fun x => 255 <? x) (removelast ns) && (last ns 0 <=? 255) then Err EIPv4
    else if 256 ^ (5 - N.of_nat (length ns)) <=? last ns 0 then Err EIPv4
    else Ok (last ns 0 + ipv4_sum (removelast ns) 3).
Proof.
  intros Hl Hn Hr. unfold ipv4_parse. rewrite snd_wbind.
  replace (4 <? length (drop_last_empty (split 46 s)))%nat with false by lia.
  destruct (last (split 46 s) []); cbn [wlog wret snd];
  rewrite snd_wbind, Hn, snd_wbind, Hr, andb_false_r;
  (destruct (existsb (fun x => 255 <? x) ns); cbn [wlog wret snd];
   destruct (_ && _); [reflexivity|destruct (_ <=? _); reflexivity|reflexivity|destruct (_ <=? _); reflexivity]).
Qed.

Lemma std_ipv4_parse_eq s : std_ipv4_parse s =
  let parts := drop_last_empty (split 46 s) in
  if (4 <? length parts)%nat then None
  else match std_ipv4_numbers parts with
       | None => None
       | Some ns =>
         if existsb (fun n => 255 <? n) (removelast ns) then None
         else if 256 ^ (5 - N.of_nat (length ns)) <=? last ns 0 then None
         else Some (last ns 0 + ipv4_sum (removelast ns) 3)
       end.
Proof.
  unfold std_ipv4_parse. rewrite std_split_eq, drop_last_eq. cbv zeta.

  set (parts := drop_last_empty (split 46 s)). destruct (4 <? length parts)%nat eqn:L; [reflexivity|].
  destruct (std_ipv4_numbers parts) as [ns|] eqn:Hn; [|reflexivity].
  destruct (existsb _ _); [reflexivity|].
  match goal with |- (if ?c then _ else _) = _ => destruct c end; [reflexivity|]. do 2 f_equal.
  apply std_ipv4_numbers_len in Hn. 
  assert (ns <> []).
  { intros ->. destruct parts eqn:P; [|discriminate]. now apply (drop_last_nonempty s). }
  pose proof (removelast_length ns H) as RL.
  rewrite RL. rewrite ipv4_sum_eq; [reflexivity|]. lia.
Qed.

Lemma pow256_le k : 1 <= k -> 256 ^ (5 - k) <= 4294967296.
Proof. intros H. change 4294967296 with (256 ^ 4). apply N.pow_le_mono_r; lia. Qed.

Lemma ipv4_parse_complete E s n : limit_ok E -> std_ipv4_parse s = Some n -> snd (ipv4_parse E s) = Ok n.
Proof.
  intros HE H. rewrite std_ipv4_parse_eq in H. cbv zeta in H.
  set (parts := drop_last_empty (split 46 s)) in *. destruct (4 <? length parts)%nat eqn:L; [discriminate|].
  destruct (std_ipv4_numbers parts) as [ns|] eqn:Hn; [|discriminate].
  destruct (existsb (fun n => 255 <? n) (removelast ns)) eqn:X; [discriminate|].
  destruct (256 ^ (5 - N.of_nat (length ns)) <=? last ns 0) eqn:R; [discriminate|]. apply Some_inj in H; subst n.
  assert (Nn : ns <> []).
  { intros ->. apply std_ipv4_numbers_len in Hn. destruct parts eqn:P; [|discriminate].
    now apply (drop_last_nonempty s). }
  assert (F : Forall (fun n => n < 10 ^ 10) ns).
  { apply (Forall_last_removelast _ ns 0); auto.
    - apply Forall_forall. intros x Hx. rewrite existsb_false in X. specialize (X x Hx). lia.
    - destruct ns; [congruence|]. pose proof (pow256_le (N.of_nat (length (n :: ns))) ltac:(cbn; lia)). lia. }
  rewrite (ipv4_parse_eq E s ns).
  - rewrite X, R. reflexivity.
  - fold parts. lia.
  - now apply ipv4_numbers_complete.
  - apply existsb_false. intros x Hx. apply repr_ok; auto. rewrite Forall_forall in F. auto.
Qed.

(* ---------- serializer ---------- *)
Definition octs (n : N) : list N := [n / 16777216 mod 256; n / 65536 mod 256; n / 256 mod 256; n mod 256].
Lemma ipv4_serialize_eq n : ipv4_serialize n = join [46] (map dec_str (octs n)).
Proof.
  unfold ipv4_serialize, octs. cbn [ipv4_octets map]. change ($".") with [46].
  rewrite !N.div_div by lia. reflexivity.
Qed.
Lemma octs_lt n : Forall (fun o => o < 256) (octs n).
Proof. unfold octs. repeat constructor; apply N.mod_lt; lia. Qed.
Ltac Zify.zify_post_hook ::= Z.div_mod_to_equations.
Lemma octs_value n : n mod 4294967296 =
  n / 16777216 mod 256 * 16777216 + n / 65536 mod 256 * 65536 + n / 256 mod 256 * 256 + n mod 256.
Proof.
  assert (E1 : n / 65536 = n / 256 / 256) by now rewrite N.div_div by lia.
  assert (E2 : n / 16777216 = n / 256 / 256 / 256) by now rewrite !N.div_div by lia.
  rewrite E1, E2. lia.
Qed.
Ltac Zify.zify_post_hook ::= idtac.

Lemma dec_str_no c n : c < 48 \/ 57 < c -> mem c (dec_str n) = false.
Proof.
  intros H. apply mem_not_In. intros I. pose proof (dec_str_digits n) as F. rewrite Forall_forall in F.
  specialize (F c I). cbv beta in F. lia.
Qed.
Lemma std_number_octet o : o < 256 -> std_ipv4_number (dec_str o) = Some (o, false).
Proof.
  intros H.
  assert (G : forallb (fun o => match std_ipv4_number (dec_str o) with
     | Some (v, b) => (v =? o) && negb b | None => false end) (range_from 0 256) = true) by (vm_compute; reflexivity).
  apply (forall_below 256) with (c := o) in G; [|lia]. cbv beta in G.
  destruct (std_ipv4_number (dec_str o)) as [[v b]|]; [|discriminate].
  apply andb_true_iff in G as [G1 G2]. apply N.eqb_eq in G1. apply negb_true_iff in G2. now subst.
Qed.

Lemma split_serialize n : split 46 (ipv4_serialize n) = map dec_str (octs n).
Proof.
  rewrite ipv4_serialize_eq. apply split_join.
  - discriminate.
  - intros p Hp. apply in_map_iff in Hp as (o & <- & _). apply dec_str_no. lia.
Qed.
Lemma last_dec_str n : exists c t, last (map dec_str (octs n)) [] = c :: t.
Proof.
  unfold octs. cbn [map last]. pose proof (dec_str_nonempty (n mod 256)).
  destruct (dec_str (n mod 256)); [congruence|eauto].
Qed.
Lemma drop_last_serialize n : drop_last_empty (split 46 (ipv4_serialize n)) = map dec_str (octs n).
Proof.
  rewrite split_serialize. unfold drop_last_empty. destruct (last_dec_str n) as (c & t & E).
  now rewrite E.
Qed.

Lemma std_ipv4_round_trip n : n < 4294967296 -> std_ipv4_parse (ipv4_serialize n) = Some n.
Proof.
  intros Hn. rewrite std_ipv4_parse_eq, drop_last_serialize. cbv zeta.
  pose proof (octs_value n) as V. rewrite (N.mod_small n) in V at 1 by auto.
  unfold octs in *. cbn [map length std_ipv4_numbers].
  change (4 <? 4)%nat with false. cbv iota.
  set (a := n / 16777216 mod 256) in *. set (b := n / 65536 mod 256) in *.
  set (c := n / 256 mod 256) in *. set (d := n mod 256) in *.
  assert (Ha : a < 256) by (apply N.mod_lt; lia). assert (Hb : b < 256) by (apply N.mod_lt; lia).
  assert (Hc : c < 256) by (apply N.mod_lt; lia). assert (Hd : d < 256) by (apply N.mod_lt; lia).
  rewrite !std_number_octet by auto. cbn [removelast existsb last length].
  replace (255 <? a) with false by lia. replace (255 <? b) with false by lia.
  replace (255 <? c) with false by lia. cbn [orb].
  change (256 ^ (5 - N.of_nat 4)) with 256. replace (256 <=? d) with false by lia.
  cbn [ipv4_sum]. change (256 ^ 3) with 16777216. change (256 ^ (3 - 1)) with 65536.
  change (256 ^ (3 - 1 - 1)) with 256. f_equal. lia.
Qed.
Lemma ipv4_round_trip E n : limit_ok E -> n < 4294967296 -> snd (ipv4_parse E (ipv4_serialize n)) = Ok n.
Proof. intros HE Hn. apply ipv4_parse_complete; auto. now apply std_ipv4_round_trip. Qed.

Lemma ipv4_dotted n : dotted_decimal (shortest_in_base 10) n (ipv4_serialize n).
Proof.
  rewrite ipv4_serialize_eq. unfold octs. cbn [map join]. rewrite <- ?app_assoc.
  eapply dd; try apply dec_str_spec; try (apply N.mod_lt; lia). apply octs_value.
Qed.
Lemma ipv4_serialize_inj a b : a < 4294967296 -> b < 4294967296 -> ipv4_serialize a = ipv4_serialize b -> a = b.
Proof.
  intros Ha Hb H. apply std_ipv4_round_trip in Ha. apply std_ipv4_round_trip in Hb. congruence.
Qed.
(** a dotted-decimal string is determined by the number modulo 2^32 *)
Lemma ipv4_serialize_mod n : ipv4_serialize n = ipv4_serialize (n mod 4294967296).
Proof.
  rewrite !ipv4_serialize_eq. f_equal. f_equal. unfold octs.
  assert (G : forall k m, k <> 0 -> m <> 0 -> k * (256 * m) = 4294967296 ->
    n / k mod 256 = n mod 4294967296 / k mod 256).
  { intros k m Hk Hm Q. rewrite <- Q, N.mod_mul_r by lia.
    rewrite N.mul_comm, N.div_add by lia. rewrite (N.div_small (n mod k)) by (apply N.mod_lt; lia).
    rewrite N.add_0_l, N.mod_mul_r by lia. rewrite N.mul_comm, N.mod_add by lia. rewrite N.mod_mod by lia. reflexivity. }
  pose proof (G 1 16777216 ltac:(lia) ltac:(lia) eq_refl) as G0. rewrite !N.div_1_r in G0.
  rewrite <- G0, <- (G 16777216 1), <- (G 65536 256), <- (G 256 65536) by lia. reflexivity.
Qed.

(* ---------- what the code's parser returns ---------- *)
Lemma ipv4_sum_bound l k : Forall (fun n => n <= 255) l -> k <= 3 -> (length l <= S (N.to_nat k))%nat ->
  ipv4_sum l k + 256 ^ (k + 1 - N.of_nat (length l)) <= 256 ^ (k + 1).
Proof.
  revert k; induction l as [|n l IH]; intros k H Hk Hl; cbn [ipv4_sum length].
  - rewrite N.sub_0_r. lia.
  - inversion H; subst. cbn [length] in Hl.
    assert (256 ^ (k + 1) = 256 * 256 ^ k) by (rewrite N.add_1_r; apply N.pow_succ_r').
    destruct (N.eq_dec k 0) as [->|K0].
    + destruct l; [|cbn in Hl; lia]. cbn. lia.
    + specialize (IH (k - 1) H3 ltac:(lia) ltac:(lia)).
      replace (k - 1 + 1) with k in IH by lia.
      replace (k + 1 - N.of_nat (S (length l))) with (k - N.of_nat (length l)) by lia.
      nia.
Qed.

Lemma ipv4_numbers_len E parts ns : snd (ipv4_numbers E parts) = Ok ns -> length ns = length parts.
Proof.
  revert ns; induction parts as [|p t IH]; intros ns H; cbn [ipv4_numbers] in H.
  - injection H as <-. reflexivity.
  - destruct (fst (parse_ipv4_number E p) <? 0)%Z; [discriminate|].
    rewrite snd_wbind in H. destruct (snd (parse_ipv4_number E p)); cbn [wlog wret snd] in H;
    rewrite snd_wbind in H; (destruct (snd (ipv4_numbers E t)) as [ns'|]; [|discriminate]);
    injection H as <-; cbn; f_equal; now apply IH.
Qed.

(** Everything [IPv4Address.parse] can return. *)
Lemma ipv4_parse_ok E s n : snd (ipv4_parse E s) = Ok n ->
  exists ns, ns <> [] /\ (length ns <= 4)%nat /\
    snd (ipv4_numbers E (drop_last_empty (split 46 s))) = Ok ns /\
    n = last ns 0 + ipv4_sum (removelast ns) 3 /\
    last ns 0 < 256 ^ (5 - N.of_nat (length ns)) /\
    (Forall (fun x => x <= 255) (removelast ns) \/ 255 < last ns 0).
Proof.
  intros H. unfold ipv4_parse in H. rewrite snd_wbind in H.
  assert (H' : snd (if (4 <? length (drop_last_empty (split 46 s)))%nat then wfail VIPv4TooManyParts EIPv4
   else numbers <~ ipv4_numbers E (drop_last_empty (split 46 s)) ;;
    let unprintable := existsb (repr_fails E) numbers in
    let format_fails := has_validity E && unprintable in
    let lastn := last numbers 0 in
    (if existsb (fun x => 255 <? x) numbers
     then if format_fails then wfail VIPv4OutOfRangeRaised EValue else wlog VIPv4OutOfRange
     else wret tt)
    ~;;
    if existsb (fun x => 255 <? x) (removelast numbers) && (lastn <=? 255)
    then wfail VUndefined (if unprintable then EValue else EIPv4)
    else if 256 ^ (5 - N.of_nat (length numbers)) <=? lastn
    then wfail VUndefined (if unprintable then EValue else EIPv4)
    else wret (lastn + ipv4_sum (removelast numbers) 3)) = Ok n).
  { destruct (last (split 46 s) []); exact H. }
  clear H. destruct (4 <? length (drop_last_empty (split 46 s)))%nat eqn:L; [discriminate|].
  rewrite snd_wbind in H'. destruct (snd (ipv4_numbers E (drop_last_empty (split 46 s)))) as [ns|] eqn:Hn; [|discriminate].
  pose proof (ipv4_numbers_len _ _ _ Hn) as Len. cbv zeta in H'. rewrite snd_wbind in H'.
  match type of H' with match ?x with _ => _ end = _ => destruct x as [u|]; [|discriminate] end.
  destruct (existsb (fun x => 255 <? x) (removelast ns) && (last ns 0 <=? 255)) eqn:B; [discriminate|].
  destruct (256 ^ (5 - N.of_nat (length ns)) <=? last ns 0) eqn:R; [discriminate|].
  injection H' as <-. exists ns. repeat split; auto; try lia.
  - intros ->. destruct (drop_last_empty (split 46 s)) eqn:P; [|discriminate]. now apply (drop_last_nonempty s).
  - destruct (existsb (fun x => 255 <? x) (removelast ns)) eqn:X; cbn [andb] in B.
    + right. lia.
    + left. apply Forall_forall. intros x Hx. rewrite existsb_false in X. specialize (X x Hx). lia.
Qed.

Lemma ipv4_value_bound ns : ns <> [] -> (length ns <= 4)%nat -> Forall (fun x => x <= 255) (removelast ns) ->
  last ns 0 < 256 ^ (5 - N.of_nat (length ns)) -> last ns 0 + ipv4_sum (removelast ns) 3 < 4294967296.
Proof.
  intros Hn Hl F HL. pose proof (removelast_length ns Hn).
  pose proof (ipv4_sum_bound (removelast ns) 3 F ltac:(lia) ltac:(lia)) as B.
  change (256 ^ (3 + 1)) with 4294967296 in B.
  replace (3 + 1 - N.of_nat (length (removelast ns))) with (5 - N.of_nat (length ns)) in B by lia. lia.
Qed.

Lemma ipv4_range E s n : snd (ipv4_parse E s) = Ok n ->
  n < 4294967296 \/
  exists ns, snd (ipv4_numbers E (drop_last_empty (split 46 s))) = Ok ns /\ 255 < last ns 0 /\
             exists x, In x (removelast ns) /\ 255 < x.
Proof.
  intros H. destruct (ipv4_parse_ok E s n H) as (ns & Nn & L & Hn & -> & HL & D).
  destruct (existsb (fun x => 255 <? x) (removelast ns)) eqn:X.
  - destruct D as [F|D].
    + left. now apply ipv4_value_bound.
    + right. exists ns. repeat split; auto. apply existsb_exists in X as (x & Hx & Q). exists x. split; auto. lia.
  - left. apply ipv4_value_bound; auto. apply Forall_forall. intros x Hx.
    rewrite existsb_false in X. specialize (X x Hx). lia.
Qed.

(* ---------- "ends in a number" ---------- *)
Definition last_label (s : list N) : list N := last (drop_last_empty (split 46 s)) [].

Lemma forallb_digits l : forallb (fun c => mem c ASCII_DIGITS) l = forallb std_ascii_digit l.
Proof.
  induction l as [|c t IH]; [reflexivity|]. cbn [forallb]. rewrite IH. f_equal.
  unfold std_ascii_digit. destruct (mem c ASCII_DIGITS) eqn:M.
  - apply mem_In in M. cbn in M. lia.
  - symmetry. apply mem_not_In in M. destruct ((48 <=? c) && (c <=? 57)) eqn:Q; auto.
    exfalso. apply M. cbn. lia.
Qed.

Lemma ends_eq E s : is_ends_in_a_number E s =
  let l := last_label s in
  negb (length l =? 0)%nat && forallb std_ascii_digit l || (0 <=? fst (parse_ipv4_number E l))%Z.
Proof.
  unfold is_ends_in_a_number. cbv zeta. rewrite <- forallb_digits. unfold last_label, drop_last_empty.
  destruct (last (split 46 s) []) as [|c t] eqn:L.
  - destruct (length (split 46 s) =? 1)%nat eqn:Q.
    + replace (1 <? length (split 46 s))%nat with false by lia. rewrite L. reflexivity.
    + assert (split 46 s <> []) by apply split_not_nil.
      destruct (split 46 s) as [|p [|q r]]; [congruence|discriminate|]. reflexivity.
  - rewrite L. reflexivity.
Qed.
Lemma std_ends_eq s : std_ends_in_number s =
  let l := last_label s in
  negb (length l =? 0)%nat &&
  (forallb std_ascii_digit l || match std_ipv4_number l with Some _ => true | None => false end).
Proof.
  unfold std_ends_in_number, last_label. rewrite std_split_eq. cbv zeta.
  set (parts := split 46 s).
  assert (parts <> []) by apply split_not_nil.
  unfold drop_last_empty.  destruct (last parts []) as [|c t] eqn:L.
  - destruct parts as [|p [|q r]]; [congruence| |].
    + cbn in L. subst p. reflexivity.
    + cbn [length]. change (1 <? S (S (length r)))%nat with true. cbv iota.
       rewrite ?L. destruct (last (removelast (p :: q :: r)) []); reflexivity.
  - rewrite L. reflexivity.
Qed.
Lemma radix10_digits s acc v : std_radix_value 10 s acc = Some v -> forallb std_ascii_digit s = true.
Proof.
  revert acc; induction s as [|c t IH]; intros acc H; [reflexivity|]. cbn [std_radix_value forallb] in *.
  destruct (std_radix_digit 10 c) as [d|] eqn:D; [|discriminate].
  rewrite (IH _ H), andb_true_r. unfold std_radix_digit, std_hex in D. unfold std_ascii_digit.
  destruct ((48 <=? c) && (c <=? 57)); auto.
  destruct ((65 <=? c) && (c <=? 70)) eqn:Q1; [destruct (c - 65 + 10 <? 10) eqn:Z; [lia|discriminate]|].
  destruct ((97 <=? c) && (c <=? 102)) eqn:Q2; [destruct (c - 97 + 10 <? 10) eqn:Z; [lia|discriminate]|discriminate].
Qed.
Lemma ends_complete E s : std_ends_in_number s = true -> is_ends_in_a_number E s = true.
Proof.
  rewrite std_ends_eq, ends_eq. cbv zeta. set (l := last_label s). intros H.
  apply andb_true_iff in H as [Hl H]. rewrite Hl. cbn [andb].
  apply orb_true_iff in H as [H|H]; [now rewrite H|].
  destruct (std_ipv4_number l) as [[n ve]|] eqn:S; [|discriminate]. clear H.
  destruct (forallb std_ascii_digit l) eqn:D; [reflexivity|]. cbn [orb].
  unfold std_ipv4_number in S. unfold parse_ipv4_number.
  destruct l as [|c t]; [discriminate|].
  assert (Dec : match std_radix_value 10 (c :: t) 0 with Some v => Some (v, false) | None => None end = Some (n, ve) -> False).
  { intros Hd. destruct (std_radix_value 10 (c :: t) 0) as [v|] eqn:V; [|discriminate].
    apply radix10_digits in V. congruence. }
  destruct t as [|x t]; [exfalso; now apply Dec|].
  destruct (c =? 48) eqn:C; [|exfalso; now apply Dec].
  destruct ((x =? 120) || (x =? 88)).
  - destruct t as [|y t]; [reflexivity|].
    destruct (std_radix_value 16 (y :: t) 0) as [v|] eqn:V; [|discriminate].
    unfold e_int. erewrite py_int_digits; eauto; [|discriminate|discriminate]. cbn [fst]. lia.
  - destruct (std_radix_value 8 (x :: t) 0) as [v|] eqn:V; [|discriminate].
    unfold e_int. erewrite py_int_digits; eauto; [|discriminate|discriminate]. cbn [fst]. lia.
Qed.
Lemma ends_serialize E n : is_ends_in_a_number E (ipv4_serialize n) = true.
Proof.
  rewrite ends_eq. unfold last_label. rewrite drop_last_serialize. cbv zeta.
  unfold octs. cbn [map last]. pose proof (dec_str_nonempty (n mod 256)). pose proof (dec_str_digits (n mod 256)) as D.
  destruct (dec_str (n mod 256)) as [|c t] eqn:Q; [congruence|]. cbn [length Nat.eqb negb andb].
  replace (forallb std_ascii_digit (c :: t)) with true; [reflexivity|].
  symmetry. apply forallb_forall. intros x Hx. rewrite Forall_forall in D. specialize (D x Hx).
  unfold std_ascii_digit. cbv beta in D. lia.
Qed.
