(** Proofs about the text layer (model: Codec.v, specification: SpecText.v). *)
From Coq Require Import Ascii String.
From Coq Require Import NArith ZArith Bool Arith Lia List ZifyBool ZifyN ZifyNat.
From Verif Require Import PyStr PyInt Codec SpecText Lemmas.
Import ListNotations.
Open Scope N_scope.
Ltac Zify.zify_post_hook ::= Z.div_mod_to_equations.

(* ---------- bounded case analysis by computation ---------- *)
Lemma below_In n c : (N.to_nat c < n)%nat -> In c (range_from 0 n).
Proof.
  assert (G : forall n a, (N.to_nat a <= N.to_nat c < N.to_nat a + n)%nat -> In c (range_from a n)).
  { clear n; induction n as [|n IH]; intros a H; [lia|]. cbn [range_from In].
    destruct (N.eq_dec a c); [now left|]. right. apply IH. lia. }
  intros H. apply G. lia.
Qed.
Lemma forall_below (n : nat) (P : N -> bool) :
  forallb P (range_from 0 n) = true -> forall c, c < N.of_nat n -> P c = true.
Proof. intros H c Hc. rewrite forallb_forall in H. apply H. apply below_In. lia. Qed.

Lemma lor_shift6 x y : y < 64 -> N.lor (N.shiftl x 6) y = x * 64 + y.
Proof.
  intros H. destruct x as [|p]; [rewrite N.shiftl_0_l; reflexivity|].
  assert (G : forallb (fun y => N.lor (N.shiftl (Npos p) 6) y =? Npos p * 64 + y) (range_from 0 64) = true).
  { replace (Npos p * 64) with (Npos p~0~0~0~0~0~0) by lia.
    replace (N.shiftl (N.pos p) 6) with (Npos p~0~0~0~0~0~0) by reflexivity.
    cbn. now rewrite !Pos.eqb_refl. }
  apply (forall_below 64) with (c := y) in G; [|lia]. cbv beta in G. lia.
Qed.

Lemma lor128 y : y < 64 -> N.lor 128 y = 128 + y.
Proof. intros H. apply (lor_shift6 2 y H). Qed.
Lemma land63 x : N.land x 63 = x mod 64.
Proof. apply (N.land_ones x 6). Qed.
Lemma land31 x : N.land x 31 = x mod 32.
Proof. apply (N.land_ones x 5). Qed.
Lemma land15 x : N.land x 15 = x mod 16.
Proof. apply (N.land_ones x 4). Qed.
Lemma land7 x : N.land x 7 = x mod 8.
Proof. apply (N.land_ones x 3). Qed.
Lemma shiftr_div x k : N.shiftr x k = x / 2 ^ k.
Proof. apply N.shiftr_div_pow2. Qed.

(* ---------- surrogates, UTF-16 ---------- *)
Lemma is_surrogate_iff c : is_surrogate c = true <-> surrogate c.
Proof. unfold is_surrogate, surrogate. lia. Qed.
Lemma is_high_low c : is_surrogate c = is_high c || is_low c.
Proof. unfold is_surrogate, is_high, is_low. lia. Qed.

Lemma utf16_high c : 65536 <= c <= 1114111 ->
  is_high (55296 + (c - 65536) / 1024) = true /\ is_low (56320 + (c - 65536) mod 1024) = true /\
  65536 + (55296 + (c - 65536) / 1024 - 55296) * 1024 + (56320 + (c - 65536) mod 1024 - 56320) = c.
Proof. intros H. unfold is_high, is_low. lia. Qed.

Ltac big_pair c Hc :=
  destruct (utf16_high c ltac:(lia)) as (? & ? & ?).

Lemma usv_cons_nonsur c t : is_surrogate c = false -> c <= 1114111 -> usv (c :: t) = c :: usv t.
Proof.
  intros H Hc. unfold usv, to_utf16. cbn [flat_map]. unfold utf16_units at 1.
  destruct (c <? 65536) eqn:Q.
  - cbn [app of_utf16]. rewrite is_high_low in H. apply orb_false_iff in H as [-> ->]. reflexivity.
  - big_pair c Hc. cbn [app of_utf16]. rewrite H0, H1, H2. reflexivity.
Qed.

Lemma units_head_not_low c : c <= 1114111 -> is_low c = false ->
  match utf16_units c with u :: _ => is_low u = false | [] => False end.
Proof.
  intros Hc H. unfold utf16_units. destruct (c <? 65536) eqn:Q; [exact H|].
  unfold is_low in *. lia.
Qed.
Lemma units_low c : is_low c = true -> utf16_units c = [c].
Proof. unfold is_low, utf16_units. intros H. destruct (c <? 65536) eqn:Q; [reflexivity|]. lia. Qed.

Lemma of_utf16_high_bad c u t : is_high c = true -> is_low u = false ->
  of_utf16 (c :: u :: t) = 65533 :: of_utf16 (u :: t).
Proof.
  intros H1 H2.
  change (of_utf16 (c :: u :: t)) with
    (if is_high c then
       if is_low u then (65536 + (c - 55296) * 1024 + (u - 56320)) :: of_utf16 t
       else 65533 :: of_utf16 (u :: t)
     else if is_low c then 65533 :: of_utf16 (u :: t) else c :: of_utf16 (u :: t)).
  now rewrite H1, H2.
Qed.

Lemma usv_spec s : is_pystr s -> usv s = scalar_value_string s.
Proof.
  unfold is_pystr. enough (G : forall n s, (length s <= n)%nat -> Forall (fun c => c <= 1114111) s ->
    usv s = scalar_value_string s) by (intros; apply (G (length s)); auto).
  clear s. induction n as [|n IH]; intros s Hn Hs.
  { destruct s; [reflexivity|cbn in Hn; lia]. }
  destruct s as [|c t]; [reflexivity|]. inversion Hs as [|? ? Hc Ht]; subst. cbn [length] in Hn.
  destruct (is_surrogate c) eqn:Sc.
  2:{ rewrite usv_cons_nonsur by auto. cbn [scalar_value_string].
      rewrite is_high_low in Sc. apply orb_false_iff in Sc as [A B].
      change (leading c) with (is_high c). change (trailing c) with (is_low c). rewrite A, B. cbn.
      destruct t as [|d t']; [reflexivity|]. f_equal. apply IH; [lia|auto]. }
  assert (Hlt : c <? 65536 = true) by (unfold is_surrogate in Sc; lia).
  unfold usv, to_utf16 in *. cbn [flat_map]. unfold utf16_units at 1. rewrite Hlt. cbn [app].
  cbn [scalar_value_string].
  change (leading c) with (is_high c) in *. change (trailing c) with (is_low c) in *.
  destruct (is_high c) eqn:Hi.
  - destruct t as [|d t'].
    { cbn. rewrite Hi. reflexivity. }
    inversion Ht as [|? ? Hd Ht']; subst. cbn [length] in Hn.
    change (trailing d) with (is_low d).
    destruct (is_low d) eqn:Ld; cbn [andb orb].
    + cbn [flat_map]. rewrite (units_low d Ld). cbn [app of_utf16]. rewrite Hi, Ld. f_equal.
      apply IH; [lia|auto].
    + pose proof (units_head_not_low d Hd Ld) as Hu. cbn [flat_map] in *.
      destruct (utf16_units d) as [|u us] eqn:Hud; [contradiction|].
      cbn [app]. rewrite of_utf16_high_bad by auto. f_equal.
      specialize (IH (d :: t') ltac:(cbn; lia) Ht). cbn [flat_map] in IH. rewrite Hud in IH.
      cbn [app] in IH. rewrite <- IH. reflexivity.
  - rewrite is_high_low, Hi in Sc. cbn in Sc.
    assert (E : of_utf16 (c :: flat_map utf16_units t) = 65533 :: of_utf16 (flat_map utf16_units t)).
    { cbn [of_utf16]. now rewrite Hi, Sc. }
    rewrite E, Sc. cbn [orb andb].
    destruct t as [|d t']; [reflexivity|]. f_equal. apply IH; [cbn in *; lia|auto].
Qed.

Lemma of_utf16_nosur us : Forall (fun c => is_surrogate c = false) (of_utf16 us).
Proof.
  enough (G : forall n us, (length us <= n)%nat -> Forall (fun c => is_surrogate c = false) (of_utf16 us))
    by (eapply G; reflexivity).
  clear us. induction n as [|n IH]; intros us H.
  { destruct us; [constructor|cbn in H; lia]. }
  destruct us as [|u t]; [constructor|]. cbn [of_utf16 length] in *.
  assert (F : is_surrogate 65533 = false) by reflexivity.
  destruct (is_high u) eqn:Hu.
  - destruct t as [|l t'].
    + repeat constructor.
    + cbn [length] in H. destruct (is_low l) eqn:Hl.
      * constructor; [|apply IH; lia]. unfold is_surrogate, is_high, is_low in *. lia.
      * constructor; [exact F|]. apply IH. cbn [length]; lia.
  - destruct (is_low u) eqn:Hl.
    + constructor; [exact F|apply IH; lia].
    + constructor; [|apply IH; lia]. rewrite is_high_low, Hu, Hl. reflexivity.
Qed.
Lemma usv_nosur s : Forall (fun c => is_surrogate c = false) (usv s).
Proof. apply of_utf16_nosur. Qed.

Lemma svs_cons2 c d t : scalar_value_string (c :: d :: t) =
  if leading c && trailing d
  then (65536 + (c - 55296) * 1024 + (d - 56320)) :: scalar_value_string t
  else (if leading c || trailing c then 65533 else c) :: scalar_value_string (d :: t).
Proof. reflexivity. Qed.
Lemma svs_nosur s : Forall (fun c => is_surrogate c = false) (scalar_value_string s).
Proof.
  enough (G : forall n s, (length s <= n)%nat -> Forall (fun c => is_surrogate c = false) (scalar_value_string s))
    by (eapply G; reflexivity).
  clear s. assert (F : is_surrogate 65533 = false) by reflexivity.
  assert (K : forall c, is_surrogate (if leading c || trailing c then 65533 else c) = false).
  { intros c. unfold leading, trailing, is_surrogate. destruct (_ || _) eqn:Q; lia. }
  induction n as [|n IH]; intros s H.
  { destruct s; [constructor|cbn in H; lia]. }
  destruct s as [|c [|d t]]; cbn [length] in *; [constructor|cbn; repeat constructor; auto|].
  rewrite svs_cons2.
  destruct (leading c && trailing d) eqn:Q.
  - constructor; [|apply IH; lia]. unfold is_surrogate, leading, trailing in *. lia.
  - constructor; auto. apply IH. cbn [length]. lia.
Qed.
Lemma svs_le s : is_pystr s -> is_pystr (scalar_value_string s).
Proof.
  enough (G : forall n s, (length s <= n)%nat -> is_pystr s -> is_pystr (scalar_value_string s))
    by (eapply G; reflexivity).
  clear s. unfold is_pystr. induction n as [|n IH]; intros s H Hs.
  { destruct s; [constructor|cbn in H; lia]. }
  destruct s as [|c [|d t]]; cbn [length] in *; [constructor|cbn [scalar_value_string]|rewrite svs_cons2].
  - inversion Hs; subst. repeat constructor. destruct (leading c || trailing c); lia.
  - inversion Hs as [|? ? Hc Ht]; subst. inversion Ht as [|? ? Hd Ht']; subst.
    destruct (leading c && trailing d) eqn:Q.
    + constructor; [|apply IH; [lia|auto]]. unfold leading, trailing in *. lia.
    + constructor; [destruct (leading c || trailing c); lia|]. apply IH; [cbn; lia|auto].
Qed.
Lemma svs_id s : Forall (fun c => is_surrogate c = false) s -> scalar_value_string s = s.
Proof.
  induction s as [|c t IH]; intros H; [reflexivity|]. inversion H as [|? ? Hc Ht]; subst.
  rewrite is_high_low in Hc. apply orb_false_iff in Hc as [A B].
  change (is_high c) with (leading c) in A. change (is_low c) with (trailing c) in B.
  cbn [scalar_value_string]. rewrite A, B. cbn. destruct t; [reflexivity|]. f_equal. now apply IH.
Qed.

(* ---------- UTF-8 encoding ---------- *)
Lemma encode_all_total s : Forall (fun c => is_surrogate c = false) s ->
  exists b, encode_all utf8_enc1 s = Some b.
Proof.
  induction s as [|c t IH]; intros H; [now exists []|]. inversion H as [|? ? Hc Ht]; subst.
  destruct (IH Ht) as [b Hb]. cbn [encode_all]. rewrite Hb. unfold utf8_enc1. rewrite Hc.
  destruct (c <? 128), (c <? 2048), (c <? 65536); eauto.
Qed.
Lemma utf8_encode_total s : exists b, encode_all utf8_enc1 (usv s) = Some b.
Proof. apply encode_all_total, usv_nosur. Qed.

Lemma enc1_std c : is_surrogate c = false -> c <= 1114111 -> utf8_enc1 c = Some (std_utf8_encode1 c).
Proof.
  intros Hs Hc. unfold utf8_enc1, std_utf8_encode1. rewrite Hs.
  destruct (c <? 128) eqn:A; [replace (c <=? 127) with true by lia; reflexivity|].
  replace (c <=? 127) with false by lia.
  destruct (c <? 2048) eqn:B; [replace (c <=? 2047) with true by lia|
    replace (c <=? 2047) with false by lia;
    destruct (c <? 65536) eqn:C; [replace (c <=? 65535) with true by lia|
      replace (c <=? 65535) with false by lia]];
  rewrite ?land63, ?shiftr_div; cbn [N.mul N.leb N.compare Pos.compare Pos.compare_cont app];
  change (2 ^ (6 * 1)) with 64; change (2 ^ (6 * 2)) with 4096; change (2 ^ (6 * 3)) with 262144;
  change (2 ^ 6) with 64; change (2 ^ 12) with 4096;
  change (3 <=? 1) with false; change (2 <=? 1) with false; change (3 <=? 2) with false;
  change (2 <=? 2) with true; change (3 <=? 3) with true; change (2 <=? 3) with true; cbn [app];
  rewrite ?lor128 by (apply N.mod_lt; lia); rewrite N.add_comm; reflexivity.
Qed.

Lemma encode_all_std s : Forall (fun c => is_surrogate c = false) s -> is_pystr s ->
  encode_all utf8_enc1 s = Some (std_utf8_encode s).
Proof.
  induction s as [|c t IH]; intros H Hs; [reflexivity|].
  inversion H; inversion Hs; subst. cbn [encode_all]. rewrite enc1_std, IH by auto. reflexivity.
Qed.

Lemma utf8_encode_spec s : is_pystr s -> utf8_encode s = std_utf8_encode (scalar_value_string s).
Proof.
  intros H. unfold utf8_encode. rewrite usv_spec by auto.
  rewrite encode_all_std; auto using svs_nosur, svs_le.
Qed.

(* ---------- UTF-8 decoding ---------- *)
Lemma r2 c : (192 + c / 64 - 192) * 64 + (128 + c mod 64 - 128) = c.
Proof. lia. Qed.
Lemma r3 c : (224 + c / 4096 - 224) * 4096 + (128 + (c/64) mod 64 - 128)*64 + (128 + c mod 64 - 128) = c.
Proof. lia. Qed.
Lemma r4 c : (240 + c / 262144 - 240) * 262144 + (128 + (c/4096) mod 64 - 128)*4096 + (128 + (c/64) mod 64 - 128)*64 + (128 + c mod 64 - 128) = c.
Proof. lia. Qed.
Lemma decode_enc1 c b rest : utf8_enc1 c = Some b -> c <= 1114111 ->
  utf8_decode (b ++ rest) = c :: utf8_decode rest.
Proof.
  unfold utf8_enc1. intros H Hc. destruct (is_surrogate c) eqn:Hs; [discriminate|].
  destruct (c <? 128) eqn:A; [|destruct (c <? 2048) eqn:B; [|destruct (c <? 65536) eqn:C]];
    apply Some_inj in H; subst b; cbn [app utf8_decode].
  - now rewrite A.
  - replace (192 + c / 64 <? 128) with false by lia. replace (192 + c / 64 <? 194) with false by lia.
    replace (192 + c / 64 <? 224) with true by lia.
    replace (is_cont (128 + c mod 64)) with true by (unfold is_cont; lia).
    now rewrite r2.
  - replace (224 + c / 4096 <? 128) with false by lia. replace (224 + c / 4096 <? 194) with false by lia.
    replace (224 + c / 4096 <? 224) with false by lia. replace (224 + c / 4096 <? 240) with true by lia.
    replace (is_cont (128 + c mod 64)) with true by (unfold is_cont; lia).
    replace (ok2_of3 _ _) with true by (unfold ok2_of3, is_cont, is_surrogate in *; lia).
    now rewrite r3.
  - replace (240 + c / 262144 <? 128) with false by lia. replace (240 + c / 262144 <? 194) with false by lia.
    replace (240 + c / 262144 <? 224) with false by lia. replace (240 + c / 262144 <? 240) with false by lia.
    replace (240 + c / 262144 <? 245) with true by lia.
    replace (ok2_of4 _ _) with true by (unfold ok2_of4, is_cont in *; lia).
    replace (is_cont (128 + (c / 64) mod 64)) with true by (unfold is_cont; lia).
    replace (is_cont (128 + c mod 64)) with true by (unfold is_cont; lia).
    now rewrite r4.
Qed.

Lemma decode_encode_all s b : encode_all utf8_enc1 s = Some b -> is_pystr s -> utf8_decode b = s.
Proof.
  revert b; induction s as [|c t IH]; intros b H Hs; cbn in H.
  - injection H as <-. reflexivity.
  - destruct (utf8_enc1 c) as [b1|] eqn:E1; [|discriminate].
    destruct (encode_all utf8_enc1 t) as [b2|] eqn:E2; [|discriminate].
    injection H as <-. inversion Hs; subst. erewrite decode_enc1 by eauto. f_equal. now apply IH.
Qed.

Lemma utf8_round_trip s : is_pystr s -> utf8_decode (utf8_encode s) = scalar_value_string s.
Proof.
  intros H. apply decode_encode_all; [|now apply svs_le].
  rewrite utf8_encode_spec by auto. apply encode_all_std; auto using svs_nosur, svs_le.
Qed.

Lemma surrogate_free_iff s : surrogate_free s <-> Forall (fun c => is_surrogate c = false) s.
Proof.
  unfold surrogate_free. rewrite !Forall_forall. split; intros H x Hx; specialize (H x Hx).
  - destruct (is_surrogate x) eqn:Q; auto. apply is_surrogate_iff in Q. contradiction.
  - intros Q. apply is_surrogate_iff in Q. congruence.
Qed.

Lemma utf8_round_trip_id s : is_pystr s -> surrogate_free s -> utf8_decode (utf8_encode s) = s.
Proof. intros H F. rewrite utf8_round_trip by auto. apply svs_id. now apply surrogate_free_iff. Qed.

(** the standard decoder, by cases on the lead byte *)
Lemma std_lead_ascii b : b <? 128 = true -> std_lead b = ([b], d_start).
Proof. intros H. unfold std_lead. now replace (b <=? 127) with true by lia. Qed.
Lemma std_lead_bad b : 128 <= b -> b < 194 \/ 245 <= b -> std_lead b = ([65533], d_start).
Proof.
  intros H1 H2. unfold std_lead. replace (b <=? 127) with false by lia.
  replace ((194 <=? b) && (b <=? 223)) with false by lia.
  replace ((224 <=? b) && (b <=? 239)) with false by lia.
  replace ((240 <=? b) && (b <=? 244)) with false by lia. reflexivity.
Qed.
Lemma std_lead_2 b : 194 <= b -> b < 224 ->
  std_lead b = ([], {| d_cp := b - 192; d_seen := 0; d_needed := 1; d_lower := 128; d_upper := 191 |}).
Proof.
  intros. unfold std_lead. replace (b <=? 127) with false by lia.
  replace ((194 <=? b) && (b <=? 223)) with true by lia.
  rewrite land31. replace (b mod 32) with (b - 192) by lia. reflexivity.
Qed.
Lemma std_lead_3 b : 224 <= b -> b < 240 ->
  std_lead b = ([], {| d_cp := b - 224; d_seen := 0; d_needed := 2;
            d_lower := if b =? 224 then 160 else 128; d_upper := if b =? 237 then 159 else 191 |}).
Proof.
  intros. unfold std_lead. replace (b <=? 127) with false by lia.
  replace ((194 <=? b) && (b <=? 223)) with false by lia.
  replace ((224 <=? b) && (b <=? 239)) with true by lia.
  rewrite land15. replace (b mod 16) with (b - 224) by lia. reflexivity.
Qed.
Lemma std_lead_4 b : 240 <= b -> b < 245 ->
  std_lead b = ([], {| d_cp := b - 240; d_seen := 0; d_needed := 3;
            d_lower := if b =? 240 then 144 else 128; d_upper := if b =? 244 then 143 else 191 |}).
Proof.
  intros. unfold std_lead. replace (b <=? 127) with false by lia.
  replace ((194 <=? b) && (b <=? 223)) with false by lia.
  replace ((224 <=? b) && (b <=? 239)) with false by lia.
  replace ((240 <=? b) && (b <=? 244)) with true by lia.
  rewrite land7. replace (b mod 8) with (b - 240) by lia. reflexivity.
Qed.

Lemma std_run_start x t : std_run d_start (x :: t) = fst (std_lead x) ++ std_run (snd (std_lead x)) t.
Proof. cbn [std_run]. unfold std_step. cbn [d_needed d_start N.eqb]. now destruct (std_lead x). Qed.

(** in the middle of a sequence *)
Lemma std_run_bad cp seen needed lo up x t : needed <> 0 ->
  (lo <=? x) && (x <=? up) = false ->
  std_run {| d_cp := cp; d_seen := seen; d_needed := needed; d_lower := lo; d_upper := up |} (x :: t)
  = 65533 :: std_run d_start (x :: t).
Proof.
  intros Hn H. rewrite std_run_start. cbn [std_run]. unfold std_step. cbn [d_needed d_lower d_upper].
  replace (needed =? 0) with false by lia. rewrite H. cbn [negb]. now destruct (std_lead x) as [o s].
Qed.
Lemma std_run_good cp seen needed lo up x t : needed <> 0 -> seen + 1 <> needed ->
  (lo <=? x) && (x <=? up) = true -> x < 192 -> 128 <= x ->
  std_run {| d_cp := cp; d_seen := seen; d_needed := needed; d_lower := lo; d_upper := up |} (x :: t)
  = std_run {| d_cp := cp * 64 + (x - 128); d_seen := seen + 1; d_needed := needed;
               d_lower := 128; d_upper := 191 |} t.
Proof.
  intros Hn Hs H Hx Hx'. cbn [std_run]. unfold std_step. cbn [d_needed d_lower d_upper d_cp d_seen].
  replace (needed =? 0) with false by lia. rewrite H. cbn [negb].
  replace (seen + 1 =? needed) with false by lia.
  rewrite land63, lor_shift6 by (apply N.mod_lt; lia). replace (x mod 64) with (x - 128) by lia. reflexivity.
Qed.
Lemma std_run_last cp seen needed lo up x t : needed <> 0 -> seen + 1 = needed ->
  (lo <=? x) && (x <=? up) = true -> x < 192 -> 128 <= x ->
  std_run {| d_cp := cp; d_seen := seen; d_needed := needed; d_lower := lo; d_upper := up |} (x :: t)
  = (cp * 64 + (x - 128)) :: std_run d_start t.
Proof.
  intros Hn Hs H Hx Hx'. cbn [std_run]. unfold std_step. cbn [d_needed d_lower d_upper d_cp d_seen].
  replace (needed =? 0) with false by lia. rewrite H. cbn [negb].
  replace (seen + 1 =? needed) with true by lia.
  rewrite land63, lor_shift6 by (apply N.mod_lt; lia). replace (x mod 64) with (x - 128) by lia. reflexivity.
Qed.

Lemma utf8_decode_spec b : utf8_decode b = std_utf8_decode b.
Proof.
  unfold std_utf8_decode.
  enough (G : forall n b, (length b <= n)%nat -> utf8_decode b = std_run d_start b)
    by (eapply G; reflexivity).
  clear b. induction n as [|n IH]; intros b Hl.
  { destruct b; [reflexivity|cbn in Hl; lia]. }
  destruct b as [|b0 t]; [reflexivity|]. cbn [length] in Hl.
  rewrite std_run_start. cbn [utf8_decode].
  destruct (b0 <? 128) eqn:Q0.
  { rewrite std_lead_ascii by auto. cbn. f_equal. apply IH. lia. }
  destruct (b0 <? 194) eqn:Q1.
  { rewrite std_lead_bad by lia. cbn. f_equal. apply IH. lia. }
  destruct (b0 <? 224) eqn:Q2.
  { rewrite std_lead_2 by lia. cbn [fst snd app]. destruct t as [|b1 t1]; [reflexivity|].
    cbn [length] in Hl. destruct (is_cont b1) eqn:C1; unfold is_cont in C1.
    - rewrite std_run_last by lia. f_equal. apply IH. lia.
    - rewrite std_run_bad by lia. f_equal. apply IH. cbn. lia. }
  destruct (b0 <? 240) eqn:Q3.
  { rewrite std_lead_3 by lia. cbn [fst snd app]. destruct t as [|b1 t1]; [reflexivity|].
    cbn [length] in Hl. destruct (ok2_of3 b0 b1) eqn:C1; unfold ok2_of3, is_cont in C1.
    - rewrite std_run_good by (try lia; destruct (b0 =? 224) eqn:?, (b0 =? 237) eqn:?; lia).
      destruct t1 as [|b2 t2]; [reflexivity|]. cbn [length] in Hl.
      destruct (is_cont b2) eqn:C2; unfold is_cont in C2.
      + rewrite std_run_last by lia. f_equal; [lia|]. apply IH. lia.
      + rewrite std_run_bad by lia. f_equal. apply IH. cbn. lia.
    - rewrite std_run_bad by (try lia; destruct (b0 =? 224) eqn:?, (b0 =? 237) eqn:?; lia).
      f_equal. apply IH. cbn. lia. }
  destruct (b0 <? 245) eqn:Q4.
  { rewrite std_lead_4 by lia. cbn [fst snd app]. destruct t as [|b1 t1]; [reflexivity|].
    cbn [length] in Hl. destruct (ok2_of4 b0 b1) eqn:C1; unfold ok2_of4, is_cont in C1.
    - rewrite std_run_good by (try lia; destruct (b0 =? 240) eqn:?, (b0 =? 244) eqn:?; lia).
      destruct t1 as [|b2 t2]; [reflexivity|]. cbn [length] in Hl.
      destruct (is_cont b2) eqn:C2; unfold is_cont in C2.
      + rewrite std_run_good by lia.
        destruct t2 as [|b3 t3]; [reflexivity|]. cbn [length] in Hl.
        destruct (is_cont b3) eqn:C3; unfold is_cont in C3.
        * rewrite std_run_last by lia. f_equal; [lia|]. apply IH. lia.
        * rewrite std_run_bad by lia. f_equal. apply IH. cbn. lia.
      + rewrite std_run_bad by lia. f_equal. apply IH. cbn. lia.
    - rewrite std_run_bad by (try lia; destruct (b0 =? 240) eqn:?, (b0 =? 244) eqn:?; lia).
      f_equal. apply IH. cbn. lia. }
  rewrite std_lead_bad by lia. cbn. f_equal. apply IH. lia.
Qed.

Lemma utf8_decode_nosur b : is_bytes b -> surrogate_free (utf8_decode b).
Proof.
  intros Hb. apply surrogate_free_iff.
  enough (G : forall n b, (length b <= n)%nat -> is_bytes b -> Forall (fun c => is_surrogate c = false) (utf8_decode b))
    by (eapply G; [reflexivity|auto]).
  clear b Hb. induction n as [|n IH]; intros b Hl Hb.
  { destruct b; [constructor|cbn in Hl; lia]. }
  destruct b as [|b0 t]; [constructor|]. cbn [length] in Hl. inversion Hb as [|? ? H0 Ht]; subst.
  assert (F : is_surrogate 65533 = false) by reflexivity.
  cbn [utf8_decode].
  destruct (b0 <? 128) eqn:Q0.
  { constructor; [unfold is_surrogate; lia|apply IH; auto; lia]. }
  destruct (b0 <? 194) eqn:Q1; [constructor; [exact F|apply IH; auto; lia]|].
  destruct (b0 <? 224) eqn:Q2.
  { destruct t as [|b1 t1]; [repeat constructor|]. inversion Ht as [|? ? H1 Ht1]; subst. cbn [length] in Hl.
    destruct (is_cont b1) eqn:C1; unfold is_cont in C1.
    - constructor; [unfold is_surrogate; lia|apply IH; auto; lia].
    - constructor; [exact F|apply IH; auto; cbn; lia]. }
  destruct (b0 <? 240) eqn:Q3.
  { destruct t as [|b1 t1]; [repeat constructor|]. inversion Ht as [|? ? H1 Ht1]; subst. cbn [length] in Hl.
    destruct (ok2_of3 b0 b1) eqn:C1; unfold ok2_of3, is_cont in C1.
    - destruct t1 as [|b2 t2]; [repeat constructor|]. inversion Ht1 as [|? ? H2 Ht2]; subst. cbn [length] in Hl.
      destruct (is_cont b2) eqn:C2; unfold is_cont in C2.
      + constructor; [|apply IH; auto; lia]. unfold is_surrogate.
        destruct (b0 =? 224) eqn:?, (b0 =? 237) eqn:?; lia.
      + constructor; [exact F|apply IH; auto; cbn; lia].
    - constructor; [exact F|apply IH; auto; cbn; lia]. }
  destruct (b0 <? 245) eqn:Q4.
  { destruct t as [|b1 t1]; [repeat constructor|]. inversion Ht as [|? ? H1 Ht1]; subst. cbn [length] in Hl.
    destruct (ok2_of4 b0 b1) eqn:C1; unfold ok2_of4, is_cont in C1.
    - destruct t1 as [|b2 t2]; [repeat constructor|]. inversion Ht1 as [|? ? H2 Ht2]; subst. cbn [length] in Hl.
      destruct (is_cont b2) eqn:C2; unfold is_cont in C2.
      + destruct t2 as [|b3 t3]; [repeat constructor|]. inversion Ht2 as [|? ? H3 Ht3]; subst. cbn [length] in Hl.
        destruct (is_cont b3) eqn:C3; unfold is_cont in C3.
        * constructor; [|apply IH; auto; lia]. unfold is_surrogate.
          destruct (b0 =? 240) eqn:?, (b0 =? 244) eqn:?; lia.
        * constructor; [exact F|apply IH; auto; cbn; lia].
      + constructor; [exact F|apply IH; auto; cbn; lia].
    - constructor; [exact F|apply IH; auto; cbn; lia]. }
  constructor; [exact F|apply IH; auto; lia].
Qed.
