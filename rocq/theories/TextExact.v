(** Where urlencode and the standard's serializer agree, exactly (C08). *)
From Coq Require Import Ascii String.
From Coq Require Import NArith ZArith Bool Arith Lia ZifyBool ZifyN ZifyNat List.
From Verif Require Import PyStr PyInt Codec SpecText Lemmas CodecProofs QuoteProofs.
Import ListNotations.
Open Scope N_scope.

Lemma byte_no_tilde b : b < 256 -> ~ In 126 (std_percent_byte b).
Proof.
  intros Hb H. assert (G : forall d, d < 16 -> std_hex_digit d <> 126) by (intros d Hd; unfold std_hex_digit; destruct (d <=? 9) eqn:?; lia).
  unfold std_percent_byte in H. destruct H as [H|[H|[H|[]]]]; [discriminate| |]; revert H; apply G.
  - rewrite N.shiftr_div_pow2. change (2 ^ 4) with 16. apply N.div_lt_upper_bound; lia.
  - change 15 with (N.ones 4). rewrite N.land_ones. apply N.mod_lt. discriminate.
Qed.
Lemma std_escapes_tilde s : is_pystr s -> ~ In 126 (std_percent_encode urlencoded_set true s).
Proof.
  intros Hs H. unfold std_percent_encode in H. apply in_flat_map in H as (c & Hc & H).
  pose proof (svs_nosur s) as A. pose proof (svs_le s Hs) as B. unfold is_pystr in B. rewrite Forall_forall in A, B. specialize (A c Hc). specialize (B c Hc).
  unfold std_percent_encode1 in H. destruct (true && (c =? 32)); [destruct H as [H|[]]; discriminate|].
  destruct (urlencoded_set c) eqn:Q.
  - apply in_flat_map in H as (b & Hb & H). revert H. apply byte_no_tilde. eapply is_cont_byte; eauto. now apply enc1_std.
  - destruct H as [H|[]]. subst c. discriminate.
Qed.
Lemma svs_tilde s : In 126 s -> In 126 (scalar_value_string s).
Proof.
  enough (G : forall n s, (length s <= n)%nat -> In 126 s -> In 126 (scalar_value_string s)) by (apply (G (length s)); auto).
  clear s. induction n as [|n IH]; intros s Hn H; [destruct s; [destruct H|cbn [length] in Hn; lia]|].
  destruct s as [|c [|d t]]; cbn [length] in *; [destruct H| |].
  - destruct H as [->|[]]. left. reflexivity.
  - rewrite svs_cons2. destruct H as [->|H].
    + change (leading 126) with false. change (trailing 126) with false. cbn [andb orb]. now left.
    + destruct (leading c && trailing d) eqn:Q.
      * right. apply IH; [lia|]. destruct H as [->|H]; [exfalso; change (trailing 126) with false in Q; now rewrite andb_false_r in Q|exact H].
      * right. apply IH; [cbn [length]; lia|exact H].
Qed.
Lemma code_keeps_tilde s : In 126 s -> In 126 (std_percent_encode urlencoded_set_no_tilde true s).
Proof. intros H. unfold std_percent_encode. apply in_flat_map. exists 126. split; [now apply svs_tilde|]. now left. Qed.

Lemma urlencode_exact l : pystr_pairs l ->
  (urlencode l = std_urlencoded_serialize l <-> Forall (fun p => ~ In 126 (fst p) /\ ~ In 126 (snd p)) l).
Proof.
  intros H. split.
  - rewrite urlencode_no_tilde_set by exact H. intros Q.
    assert (A : ~ In 126 (std_urlencoded_serialize l)).
    { clear Q. induction H as [|[n v] t [Hn Hv] Ht IH]; [intros []|]. cbn [std_urlencoded_serialize fst snd] in *. rewrite !in_app_iff.
      intros [K|[[K|[]]|[K|K]]]; [now apply std_escapes_tilde in K|discriminate|now apply std_escapes_tilde in K|]. destruct t; [destruct K|]. destruct K as [K|K]; [discriminate|auto]. }
    rewrite <- Q in A. clear Q. induction H as [|[n v] t [Hn Hv] Ht IH]; [constructor|]. cbn [std_serialize_with fst snd] in *. rewrite !in_app_iff in A. constructor.
    + cbn [fst snd]. split; intros K; apply A; [left|right; right; left]; now apply code_keeps_tilde.
    + destruct t as [|p t]; [constructor|]. apply IH. intros K. apply A. right; right; right. now right.
  - intros T. apply urlencode_conforms; [exact H|]. eapply Forall_impl; [|exact T]. intros p [A B]. split; now apply mem_not_In.
Qed.
