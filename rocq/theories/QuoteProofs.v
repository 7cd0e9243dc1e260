(** Proofs about percent-encoding and form encoding (model: Codec.v,
    specification: SpecText.v). *)
From Coq Require Import Ascii String.
From Coq Require Import NArith ZArith Bool Arith Lia ZifyBool ZifyN ZifyNat List.
From Verif Require Import PyStr PyInt Codec SpecText Lemmas CodecProofs.
Import ListNotations.
Open Scope N_scope.
Ltac Zify.zify_post_hook ::= Z.div_mod_to_equations.

(* ---------- percent-decoding ---------- *)
Lemma hex_val_std c : hex_val c = std_hex c.
Proof.
  unfold hex_val, std_hex.
  destruct ((48 <=? c) && (c <=? 57)) eqn:A; auto.
  destruct ((65 <=? c) && (c <=? 70)) eqn:B.
  - replace ((97 <=? c) && (c <=? 102)) with false by lia. f_equal. lia.
  - destruct ((97 <=? c) && (c <=? 102)) eqn:D; auto. f_equal. lia.
Qed.
Lemma hex_val_37 : hex_val 37 = None.
Proof. reflexivity. Qed.
Lemma hex_val_lt c x : hex_val c = Some x -> x < 16.
Proof.
  unfold hex_val. intros H.
  destruct ((48 <=? c) && (c <=? 57)) eqn:A; [apply Some_inj in H; lia|].
  destruct ((97 <=? c) && (c <=? 102)) eqn:B; [apply Some_inj in H; lia|].
  destruct ((65 <=? c) && (c <=? 70)) eqn:C; [apply Some_inj in H; lia|discriminate].
Qed.

Lemma split_cons sep c t : c <> sep -> exists p ps, split sep t = p :: ps /\ split sep (c :: t) = (c :: p) :: ps.
Proof.
  intros H. cbn. replace (c =? sep) with false by lia.
  destruct (split sep t) as [|p ps] eqn:Q; [now apply split_not_nil in Q|eauto].
Qed.
Lemma percent_decode_cons c t : c <> 37 -> percent_decode (c :: t) = c :: percent_decode t.
Proof.
  intros H. unfold percent_decode. destruct (split_cons 37 c t H) as (p & ps & -> & ->). reflexivity.
Qed.
Lemma percent_decode_esc x y t a b : hex_val x = Some a -> hex_val y = Some b ->
  percent_decode (37 :: x :: y :: t) = (a * 16 + b) :: percent_decode t.
Proof.
  intros Hx Hy. assert (x <> 37) by (intros ->; discriminate). assert (y <> 37) by (intros ->; discriminate).
  unfold percent_decode. change (split 37 (37 :: x :: y :: t)) with ([] :: split 37 (x :: y :: t)).
  destruct (split_cons 37 x (y :: t)) as (p & ps & E1 & ->); auto.
  destruct (split_cons 37 y t) as (q & qs & E2 & E3); auto.
  rewrite E3 in E1. injection E1 as <- <-. rewrite E2. cbn [map concat app unquote_item].
  rewrite Hx, Hy. cbn [app]. f_equal. lia.
Qed.
Lemma percent_decode_pct t :
  (forall x y t', t = x :: y :: t' -> hex_val x = None \/ hex_val y = None) ->
  percent_decode (37 :: t) = 37 :: percent_decode t.
Proof.
  intros H. unfold percent_decode. change (split 37 (37 :: t)) with ([] :: split 37 t).
  destruct (split 37 t) as [|p ps] eqn:Q; [now apply split_not_nil in Q|].
  cbn [map concat app].
  assert (E : unquote_item p = 37 :: p).
  { pose proof (join_split 37 t) as J. rewrite Q in J.
    assert (J' : exists r, t = p ++ r).
    { destruct ps; [exists []; cbn in J; now rewrite app_nil_r|]. rewrite join_cons2 in J. eauto. }
    destruct J' as [r J']. destruct p as [|x [|y p']]; auto. cbn. cbn in J'.
    destruct (H _ _ _ J') as [->| ->]; auto. destruct (hex_val x); auto. }
  now rewrite E.
Qed.
Lemma percent_decode_spec b : percent_decode b = std_percent_decode b.
Proof.
  enough (G : forall n b, (length b <= n)%nat -> percent_decode b = std_percent_decode b)
    by (eapply G; reflexivity).
  clear b. induction n as [|n IH]; intros b Hl.
  { destruct b; [reflexivity|cbn in Hl; lia]. }
  destruct b as [|c t]; [reflexivity|]. cbn [length] in Hl.
  destruct (c =? 37) eqn:Q.
  2:{ cbn [std_percent_decode]. rewrite Q, percent_decode_cons by lia. f_equal. apply IH. lia. }
  apply N.eqb_eq in Q. subst c. cbn [std_percent_decode]. cbn [N.eqb Pos.eqb].
  destruct t as [|x t1]; [reflexivity|]. cbn [length] in Hl. destruct t1 as [|y t2].
  { rewrite percent_decode_pct by (intros; discriminate). f_equal. apply IH. cbn; lia. }
  rewrite <- !hex_val_std.
  destruct (hex_val x) as [a|] eqn:Hx; [destruct (hex_val y) as [b|] eqn:Hy|].
  - erewrite percent_decode_esc by eauto. f_equal. apply IH. cbn in Hl; lia.
  - rewrite percent_decode_pct by (intros ? ? ? E; injection E as <- <- <-; auto).
    f_equal. apply IH. cbn in *; lia.
  - rewrite percent_decode_pct by (intros ? ? ? E; injection E as <- <- <-; auto).
    f_equal. apply IH. cbn in *; lia.
Qed.

Lemma string_percent_decode_spec s : is_pystr s ->
  string_percent_decode s = std_percent_decode (std_utf8_encode (scalar_value_string s)).
Proof. intros H. unfold string_percent_decode. now rewrite utf8_encode_spec, percent_decode_spec. Qed.

(* ---------- quoting, byte by byte ---------- *)
Definition enc_b (plus : bool) (safe : str) (c : N) : str :=
  if plus && (c =? 32) then [43] else if quote_safe safe c then [c] else percent_byte c.

Lemma hex_upper_not32 d : hex_upper d <> 32.
Proof. unfold hex_upper. destruct (d <? 10) eqn:Q; lia. Qed.

Lemma quote_safe_32 safe c : c <> 32 -> quote_safe (safe ++ [32]) c = quote_safe safe c.
Proof.
  intros H. unfold quote_safe. rewrite mem_app. cbn [mem existsb].
  replace (c =? 32) with false by lia. now rewrite !orb_false_r.
Qed.

Lemma flat_map_map {A B C} (g : B -> C) (f : A -> list B) l : map g (flat_map f l) = flat_map (fun x => map g (f x)) l.
Proof. induction l; cbn; auto. now rewrite map_app, IHl. Qed.
Lemma flat_map_ext_In {A B} (f g : A -> list B) l : (forall x, In x l -> f x = g x) -> flat_map f l = flat_map g l.
Proof. induction l as [|a l IH]; cbn; intros H; auto. rewrite H, IH; auto. Qed.

Lemma quote_plus_eq safe b :
  replace_char 32 43 (quote_bytes (safe ++ [32]) b) = flat_map (enc_b true safe) b.
Proof.
  unfold replace_char, quote_bytes. rewrite flat_map_map. apply flat_map_ext_In. intros c _.
  unfold enc_b. destruct (c =? 32) eqn:Q; cbn [andb].
  - apply N.eqb_eq in Q; subst. unfold quote_safe. rewrite mem_app.
    change (mem 32 [32]) with true. rewrite orb_true_r. reflexivity.
  - rewrite quote_safe_32 by lia. destruct (quote_safe safe c); cbn [map]; [now rewrite Q|].
    unfold percent_byte. cbn [map].
    replace (37 =? 32) with false by lia.
    replace (hex_upper (c / 16) =? 32) with false by (pose proof (hex_upper_not32 (c / 16)); lia).
    replace (hex_upper (c mod 16) =? 32) with false by (pose proof (hex_upper_not32 (c mod 16)); lia).
    reflexivity.
Qed.
Lemma quote_noplus_eq plus safe b : plus && mem 32 b = false ->
  quote_bytes safe b = flat_map (enc_b plus safe) b.
Proof.
  intros H. apply flat_map_ext_In. intros c Hc. unfold enc_b.
  destruct plus; [|reflexivity]. cbn [andb] in *. destruct (c =? 32) eqn:Q; [|reflexivity].
  apply N.eqb_eq in Q; subst. apply mem_not_In in H. contradiction.
Qed.
Lemma quote_via_bytes_eq plus safe b : quote_via_bytes plus safe b = flat_map (enc_b plus safe) b.
Proof.
  unfold quote_via_bytes. destruct (plus && mem 32 b) eqn:Q.
  - destruct plus; [|discriminate]. apply quote_plus_eq.
  - now apply quote_noplus_eq.
Qed.

Lemma utf8_enc1_32 c b : utf8_enc1 c = Some b -> mem 32 b = (32 =? c).
Proof.
  unfold utf8_enc1. intros H. destruct (is_surrogate c); [discriminate|].
  destruct (c <? 128) eqn:A.
  { apply Some_inj in H; subst b. cbn [mem existsb]. now rewrite orb_false_r. }
  assert (E : (32 =? c) = false) by lia. rewrite E.
  destruct (c <? 2048) eqn:B; [|destruct (c <? 65536) eqn:C];
    apply Some_inj in H; subst b; cbn [mem existsb]; rewrite ?orb_false_iff; repeat split; lia.
Qed.
Lemma encode_all_32 s b : encode_all utf8_enc1 s = Some b -> mem 32 b = mem 32 s.
Proof.
  revert b; induction s as [|c t IH]; intros b H; cbn [encode_all] in H.
  - now apply Some_inj in H; subst.
  - destruct (utf8_enc1 c) as [b1|] eqn:E1; [|discriminate].
    destruct (encode_all utf8_enc1 t) as [b2|] eqn:E2; [|discriminate].
    apply Some_inj in H; subst b. rewrite mem_app, mem_cons, (utf8_enc1_32 _ _ E1). f_equal. now apply IH.
Qed.

Lemma utf8_percent_encode_total s safe plus :
  string_percent_encode utf8_enc1 s safe plus = Some (flat_map (enc_b plus safe) (utf8_encode s)).
Proof.
  unfold string_percent_encode, quote_via_str, utf8_encode.
  destruct (utf8_encode_total s) as [b Hb]. rewrite Hb. f_equal.
  rewrite <- (encode_all_32 _ _ Hb). destruct (plus && mem 32 b) eqn:Q.
  - destruct plus; [|discriminate]. apply quote_plus_eq.
  - now apply quote_noplus_eq.
Qed.
Lemma utf8_percent_encode_eq s safe plus :
  utf8_percent_encode s safe plus = flat_map (enc_b plus safe) (utf8_encode s).
Proof. unfold utf8_percent_encode. now rewrite utf8_percent_encode_total. Qed.

(* ---------- C04: output alphabet ---------- *)
Lemma is_cont_byte c b x : utf8_enc1 c = Some b -> c <= 1114111 -> In x b -> x < 256.
Proof.
  unfold utf8_enc1. intros H Hc Hx. destruct (is_surrogate c); [discriminate|].
  destruct (c <? 128) eqn:A; [|destruct (c <? 2048) eqn:B; [|destruct (c <? 65536) eqn:C]];
    apply Some_inj in H; subst b; cbn [In] in Hx; lia.
Qed.
Lemma encode_all_bytes s b : encode_all utf8_enc1 s = Some b -> is_pystr s -> is_bytes b.
Proof.
  revert b; induction s as [|c t IH]; intros b H Hs; cbn [encode_all] in H.
  - apply Some_inj in H; subst. constructor.
  - destruct (utf8_enc1 c) as [b1|] eqn:E1; [|discriminate].
    destruct (encode_all utf8_enc1 t) as [b2|] eqn:E2; [|discriminate].
    apply Some_inj in H; subst b. inversion Hs; subst. apply Forall_app. split; [|now apply IH].
    apply Forall_forall. intros x Hx. eapply is_cont_byte; eauto.
Qed.
Lemma utf8_encode_some s : encode_all utf8_enc1 (usv s) = Some (utf8_encode s).
Proof. destruct (utf8_encode_total s) as [b Hb]. unfold utf8_encode. now rewrite Hb. Qed.
Lemma utf8_encode_bytes s : is_pystr s -> is_bytes (utf8_encode s).
Proof.
  intros H. eapply encode_all_bytes; [apply utf8_encode_some|]. rewrite usv_spec by auto. now apply svs_le.
Qed.

Lemma hex_upper_upper d : d < 16 -> upper_hex (hex_upper d).
Proof. unfold hex_upper, upper_hex. destruct (d <? 10) eqn:Q; lia. Qed.

Definition allowed_out (plus : bool) (safe : list N) (c : N) : Prop :=
  c < 128 /\ (In c (ALWAYS_SAFE ++ safe) \/ (plus = true /\ c = 43)).

Lemma ALWAYS_SAFE_ascii c : mem c ALWAYS_SAFE = true -> c < 128.
Proof.
  intros H. apply mem_In in H.
  assert (G : forallb (fun c => c <? 128) ALWAYS_SAFE = true) by (vm_compute; reflexivity).
  rewrite forallb_forall in G. apply G in H. lia.
Qed.

Lemma pe_app al a b : percent_encoded al a -> percent_encoded al b -> percent_encoded al (a ++ b).
Proof. induction 1; cbn; intros; auto; [apply pe_lit|apply pe_esc]; auto. Qed.

Lemma enc_b_alphabet plus safe b : is_bytes b ->
  percent_encoded (allowed_out plus safe) (flat_map (enc_b plus safe) b).
Proof.
  induction 1 as [|c b Hc Hb IH]; cbn [flat_map]; [constructor|].
  apply pe_app; auto. unfold enc_b. destruct (plus && (c =? 32)) eqn:Q.
  - constructor; [|constructor]. split; [lia|]. right. destruct plus; [auto|discriminate].
  - destruct (quote_safe safe c) eqn:S.
    + constructor; [|constructor]. unfold quote_safe in S. split.
      * apply orb_true_iff in S as [S|S]; [now apply ALWAYS_SAFE_ascii|].
        apply andb_true_iff in S as [_ S]. lia.
      * left. apply in_or_app. apply orb_true_iff in S as [S|S]; [left; now apply mem_In|].
        apply andb_true_iff in S as [S _]. right. now apply mem_In.
    + unfold percent_byte. apply pe_esc; [apply hex_upper_upper; lia..|constructor].
Qed.
Lemma utf8_percent_encode_alphabet s safe plus : is_pystr s ->
  percent_encoded (allowed_out plus safe) (utf8_percent_encode s safe plus).
Proof. intros H. rewrite utf8_percent_encode_eq. now apply enc_b_alphabet, utf8_encode_bytes. Qed.

(* ASCII strings are their own UTF-8 encoding *)
Definition ascii_str (s : str) : Prop := Forall (fun c => c < 128) s.
Lemma ascii_nosur s : ascii_str s -> Forall (fun c => is_surrogate c = false) s.
Proof. apply Forall_impl. intros c H. unfold is_surrogate. lia. Qed.
Lemma ascii_pystr s : ascii_str s -> is_pystr s.
Proof. apply Forall_impl. intros; lia. Qed.
Lemma usv_ascii s : ascii_str s -> usv s = s.
Proof. intros H. rewrite usv_spec by now apply ascii_pystr. now apply svs_id, ascii_nosur. Qed.
Lemma utf8_encode_ascii s : ascii_str s -> utf8_encode s = s.
Proof.
  intros H. unfold utf8_encode. rewrite usv_ascii by auto.
  assert (G : encode_all utf8_enc1 s = Some s).
  { induction H as [|c t Hc Ht IH]; [reflexivity|]. cbn [encode_all]. rewrite IH. unfold utf8_enc1.
    replace (is_surrogate c) with false by (unfold is_surrogate; lia).
    replace (c <? 128) with true by lia. reflexivity. }
  now rewrite G.
Qed.
Lemma pe_ascii plus safe s : percent_encoded (allowed_out plus safe) s -> ascii_str s.
Proof.
  induction 1 as [|c t [H _]|x y t Hx Hy]; repeat constructor; auto; unfold upper_hex in *; try lia.
Qed.
Lemma utf8_percent_encode_ascii s safe plus : is_pystr s -> ascii_str (utf8_percent_encode s safe plus).
Proof. intros H. eapply pe_ascii, utf8_percent_encode_alphabet, H. Qed.

(* ---------- C05 ---------- *)
Lemma hex_val_upper d : d < 16 -> hex_val (hex_upper d) = Some d.
Proof.
  intros H. assert (G : forallb (fun d => match hex_val (hex_upper d) with Some x => x =? d | None => false end) (range_from 0 16) = true)
    by (vm_compute; reflexivity).
  apply (forall_below 16) with (c := d) in G; [|lia]. cbv beta in G.
  destruct (hex_val (hex_upper d)); [|discriminate]. f_equal. lia.
Qed.
Lemma percent_decode_byte c t : c < 256 -> percent_decode (percent_byte c ++ t) = c :: percent_decode t.
Proof.
  intros H. unfold percent_byte. cbn [app].
  erewrite percent_decode_esc by (apply hex_val_upper; lia). f_equal. lia.
Qed.
Lemma decode_enc_b safe b : is_bytes b -> mem 37 safe = false ->
  percent_decode (flat_map (enc_b false safe) b) = b.
Proof.
  intros H Hs. induction H as [|c t Hc Ht IH]; [reflexivity|]. cbn [flat_map]. unfold enc_b at 1.
  cbn [andb]. destruct (quote_safe safe c) eqn:Q.
  - cbn [app]. rewrite percent_decode_cons; [now rewrite IH|]. intros ->.
    unfold quote_safe in Q. rewrite Hs in Q. discriminate.
  - rewrite percent_decode_byte by auto. now rewrite IH.
Qed.
Lemma encode_decode_id s safe : is_pystr s -> mem 37 safe = false ->
  string_percent_decode (utf8_percent_encode s safe false) = utf8_encode s.
Proof.
  intros H Hs. unfold string_percent_decode.
  rewrite utf8_encode_ascii by now apply utf8_percent_encode_ascii.
  rewrite utf8_percent_encode_eq. apply decode_enc_b; auto. now apply utf8_encode_bytes.
Qed.

(* ---------- C06 ---------- *)
Lemma quote_safe_hex safe d : d < 16 -> quote_safe safe (hex_upper d) = true.
Proof.
  intros H. unfold quote_safe.
  assert (G : forallb (fun d => mem (hex_upper d) ALWAYS_SAFE) (range_from 0 16) = true) by (vm_compute; reflexivity).
  apply (forall_below 16) with (c := d) in G; [|lia]. cbv beta in G. now rewrite G.
Qed.
Lemma encode_safe_id safe s : ascii_str s -> forallb (quote_safe safe) s = true ->
  utf8_percent_encode s safe false = s.
Proof.
  intros H Hs. rewrite utf8_percent_encode_eq, utf8_encode_ascii by auto.
  induction H as [|c t Hc Ht IH]; [reflexivity|]. cbn in Hs. apply andb_true_iff in Hs as [A B].
  cbn [flat_map]. unfold enc_b at 1. cbn [andb]. rewrite A. cbn. f_equal. auto.
Qed.
Lemma quote_safe_ascii safe c : quote_safe safe c = true -> c < 128.
Proof.
  unfold quote_safe. intros H. apply orb_true_iff in H as [H|H]; [now apply ALWAYS_SAFE_ascii|].
  apply andb_true_iff in H. lia.
Qed.
Lemma safe_id safe s : forallb (quote_safe safe) s = true -> utf8_percent_encode s safe false = s.
Proof.
  intros H. apply encode_safe_id; auto. apply Forall_forall. rewrite forallb_forall in H.
  intros c Hc. eapply quote_safe_ascii; eauto.
Qed.
Lemma enc_b_all_safe safe b : is_bytes b -> mem 37 safe = true ->
  forallb (quote_safe safe) (flat_map (enc_b false safe) b) = true.
Proof.
  intros H Hs. induction H as [|c t Hc Ht IH]; [reflexivity|]. cbn [flat_map].
  rewrite forallb_app, IH, andb_true_r. unfold enc_b. cbn [andb]. destruct (quote_safe safe c) eqn:Q.
  - cbn. now rewrite Q.
  - unfold percent_byte. cbn [forallb]. rewrite !quote_safe_hex by lia.
    unfold quote_safe. rewrite Hs. reflexivity.
Qed.
Lemma encode_all_safe s safe : is_pystr s -> mem 37 safe = true ->
  forallb (quote_safe safe) (utf8_percent_encode s safe false) = true.
Proof. intros H Hs. rewrite utf8_percent_encode_eq. apply enc_b_all_safe; auto. now apply utf8_encode_bytes. Qed.
Lemma encode_idempotent s safe : is_pystr s -> mem 37 safe = true ->
  utf8_percent_encode (utf8_percent_encode s safe false) safe false = utf8_percent_encode s safe false.
Proof. intros H Hs. apply safe_id, encode_all_safe; auto. Qed.

(* ---------- C07 ---------- *)
Lemma std_percent_byte_eq b : b < 256 -> std_percent_byte b = percent_byte b.
Proof.
  intros H. unfold std_percent_byte, percent_byte. rewrite land15, shiftr_div. change (2 ^ 4) with 16.
  assert (G : forall d, d < 16 -> std_hex_digit d = hex_upper d).
  { intros d Hd. unfold std_hex_digit, hex_upper. destruct (d <? 10) eqn:Q.
    - now replace (d <=? 9) with true by lia.
    - replace (d <=? 9) with false by lia. lia. }
  rewrite !G by lia. reflexivity.
Qed.
Definition set_agrees (safe : str) (set : N -> bool) : Prop :=
  (forall c, c < 128 -> quote_safe safe c = negb (set c)) /\ (forall c, 128 <= c -> set c = true).
Lemma enc1_split c : utf8_enc1 c = None \/
  (c < 128 /\ utf8_enc1 c = Some [c]) \/
  (128 <= c /\ exists b, utf8_enc1 c = Some b /\ forallb (fun x => 128 <=? x) b = true).
Proof.
  unfold utf8_enc1. destruct (is_surrogate c); auto. right. destruct (c <? 128) eqn:A; [left; split; [lia|auto]|].
  right. split; [lia|]. destruct (c <? 2048); [|destruct (c <? 65536)]; eexists; split; try reflexivity;
    cbn [forallb]; lia.
Qed.
Lemma quote_safe_hi safe c : 128 <= c -> quote_safe safe c = false.
Proof. intros H. destruct (quote_safe safe c) eqn:Q; auto. apply quote_safe_ascii in Q. lia. Qed.

Lemma flat_map_flat_map {A B C} (f : A -> list B) (g : B -> list C) l :
  flat_map g (flat_map f l) = flat_map (fun x => flat_map g (f x)) l.
Proof. induction l; cbn; auto. now rewrite flat_map_app, IHl. Qed.

Lemma encode_conforms safe set plus s : set_agrees safe set -> is_pystr s ->
  utf8_percent_encode s safe plus = std_percent_encode set plus s.
Proof.
  intros [A1 A2] H. rewrite utf8_percent_encode_eq, utf8_encode_spec by auto.
  unfold std_percent_encode, std_utf8_encode. rewrite flat_map_flat_map.
  apply flat_map_ext_In. intros c Hc.
  assert (Hns : is_surrogate c = false).
  { pose proof (svs_nosur s) as F. rewrite Forall_forall in F. auto. }
  assert (Hle : c <= 1114111).
  { pose proof (svs_le s H) as F. unfold is_pystr in F. rewrite Forall_forall in F. auto. }
  pose proof (enc1_std c Hns Hle) as E. pose proof (enc1_split c) as S.
  unfold std_percent_encode1. destruct S as [S|[[Hc1 S]|[Hc1 (b & S & Hb)]]]; rewrite E in S; try discriminate;
    apply Some_inj in S; rewrite S.
  - cbn [flat_map]. rewrite app_nil_r. unfold enc_b. destruct (plus && (c =? 32)); auto.
    rewrite A1 by auto. destruct (set c); cbn [negb flat_map]; auto.
    rewrite app_nil_r. rewrite std_percent_byte_eq by lia. reflexivity.
  - replace (plus && (c =? 32)) with false by (destruct plus; cbn; lia). rewrite A2 by auto.
    rewrite forallb_forall in Hb. apply flat_map_ext_In. intros x Hx. pose proof (Hb x Hx).
    pose proof (is_cont_byte c b x) as Hx'. rewrite E, S in Hx'. specialize (Hx' eq_refl Hle Hx).
    rewrite std_percent_byte_eq by lia. unfold enc_b. rewrite quote_safe_hi by lia.
    replace (plus && (x =? 32)) with false by (destruct plus; cbn; lia). reflexivity.
Qed.

Lemma set_hi set : (forall c, 126 < c -> set c = true) -> forall c, 128 <= c -> set c = true.
Proof. intros H c Hc. apply H. lia. Qed.
Ltac set_agree :=
  split; [|intros c Hc;
    unfold urlencoded_set, component_set, userinfo_set, path_set, special_query_set, query_set, fragment_set, c0_control_set;
    replace (126 <? c) with true by lia; rewrite ?orb_true_r; reflexivity];
  intros c Hc; apply eqb_prop;
  match goal with |- Bool.eqb ?a ?b = true =>
    let f := eval pattern c in (Bool.eqb a b) in
    match f with ?g _ =>
      change (g c = true); apply (forall_below 128 g); [vm_compute; reflexivity | lia] end end.

Lemma agree_c0 : set_agrees SAFE_C0_CONTROL c0_control_set. Proof. set_agree. Qed.
Lemma agree_fragment : set_agrees SAFE_FRAGMENT fragment_set. Proof. set_agree. Qed.
Lemma agree_query : set_agrees SAFE_QUERY query_set. Proof. set_agree. Qed.
Lemma agree_special_query : set_agrees SAFE_SPECIAL_QUERY special_query_set. Proof. set_agree. Qed.
Lemma agree_path : set_agrees SAFE_PATH path_set. Proof. set_agree. Qed.
Lemma agree_userinfo : set_agrees SAFE_USERINFO userinfo_set. Proof. set_agree. Qed.
Lemma agree_component : set_agrees SAFE_COMPONENT component_set. Proof. set_agree. Qed.
(** the form-urlencoded set as the code really uses it: '~' is not encoded *)
Definition urlencoded_set_no_tilde (c : N) : bool := urlencoded_set c && negb (c =? 126).
Lemma agree_urlencoded : set_agrees SAFE_URLENCODED urlencoded_set_no_tilde.
Proof.
  split; [|intros c Hc; unfold urlencoded_set_no_tilde, urlencoded_set, component_set, userinfo_set, path_set, query_set, c0_control_set;
    replace (126 <? c) with true by lia; replace (c =? 126) with false by lia; rewrite ?orb_true_r; reflexivity].
  intros c Hc; apply eqb_prop.
  match goal with |- Bool.eqb ?a ?b = true =>
    let f := eval pattern c in (Bool.eqb a b) in
    match f with ?g _ =>
      change (g c = true); apply (forall_below 128 g); [vm_compute; reflexivity | lia] end end.
Qed.

(* ---------- C08 ---------- *)
Lemma urlencode_cons n v t : urlencode ((n, v) :: t) =
  utf8_percent_encode n SAFE_URLENCODED true ++ [61] ++ utf8_percent_encode v SAFE_URLENCODED true
  ++ match t with [] => [] | _ => 38 :: urlencode t end.
Proof.
  unfold urlencode. cbn [map fst snd join]. destruct t as [|p t]; cbn [map].
  - now rewrite app_nil_r.
  - rewrite <- !app_assoc. reflexivity.
Qed.
Lemma svs_keeps_no_126 s : mem 126 s = false -> mem 126 (scalar_value_string s) = false.
Proof.
  enough (G : forall n s, (length s <= n)%nat -> mem 126 s = false -> mem 126 (scalar_value_string s) = false)
    by (eapply G; reflexivity).
  clear s. induction n as [|n IH]; intros s Hl H.
  { destruct s; [auto|cbn in Hl; lia]. }
  destruct s as [|c [|d t]]; [auto| |].
  - cbn in H |- *. destruct (leading c || trailing c) eqn:Q; auto.
  - rewrite svs_cons2. rewrite !mem_cons in H. apply orb_false_iff in H as [H1 H2].
    cbn [length] in Hl. destruct (leading c && trailing d) eqn:Q; rewrite mem_cons.
    + apply orb_false_iff in H2 as [H2 H3]. rewrite (IH t) by (auto; lia). rewrite orb_false_r. lia.
    + rewrite (IH (d :: t)) by (auto; cbn; lia). rewrite orb_false_r.
      destruct (leading c || trailing c); auto.
Qed.
Lemma std_no_tilde s : mem 126 s = false ->
  std_percent_encode urlencoded_set_no_tilde true s = std_percent_encode urlencoded_set true s.
Proof.
  intros H. unfold std_percent_encode. apply flat_map_ext_In. intros c Hc.
  apply svs_keeps_no_126 in H. assert (c <> 126).
  { intros ->. apply mem_not_In in H. contradiction. }
  unfold std_percent_encode1, urlencoded_set_no_tilde. replace (c =? 126) with false by lia.
  now rewrite andb_true_r.
Qed.
Fixpoint std_serialize_with (set : N -> bool) (tuples : list (list N * list N)) : list N :=
  match tuples with
  | [] => []
  | (n, v) :: t =>
      std_percent_encode set true n ++ [61] ++ std_percent_encode set true v
      ++ match t with [] => [] | _ => 38 :: std_serialize_with set t end
  end.
Definition pystr_pairs (l : list (list N * list N)) : Prop :=
  Forall (fun p => is_pystr (fst p) /\ is_pystr (snd p)) l.
Lemma urlencode_no_tilde_set l : pystr_pairs l ->
  urlencode l = std_serialize_with urlencoded_set_no_tilde l.
Proof.
  induction 1 as [|[n v] t [Hn Hv] Ht IH]; [reflexivity|]. rewrite urlencode_cons. cbn [std_serialize_with].
  cbn in Hn, Hv. rewrite !(encode_conforms _ _ _ _ agree_urlencoded) by auto.
  destruct t; auto. now rewrite IH.
Qed.
Lemma urlencode_conforms l : pystr_pairs l ->
  Forall (fun p => mem 126 (fst p) = false /\ mem 126 (snd p) = false) l ->
  urlencode l = std_urlencoded_serialize l.
Proof.
  intros H T. rewrite urlencode_no_tilde_set by auto. clear H.
  induction T as [|[n v] t [Hn Hv] Ht IH]; [reflexivity|].
  cbn [std_serialize_with std_urlencoded_serialize]. cbn in Hn, Hv. rewrite !std_no_tilde by auto.
  destruct t; auto. now rewrite IH.
Qed.

(* ---------- C09, C10 ---------- *)
Lemma split1_std sep b : split1 sep b = std_upto sep b.
Proof. induction b as [|c t IH]; cbn; auto. Qed.
Lemma strict_split sep b tok : std_strict_split sep b tok =
  match split sep b with [] => [] | p :: ps => (tok ++ p) :: ps end.
Proof.
  revert tok; induction b as [|c t IH]; intros tok; cbn.
  - now rewrite app_nil_r.
  - destruct (c =? sep) eqn:Q.
    + rewrite app_nil_r. f_equal. rewrite IH. destruct (split sep t) eqn:E; [now apply split_not_nil in E|]. reflexivity.
    + rewrite IH. destruct (split sep t) eqn:E; [now apply split_not_nil in E|]. now rewrite <- app_assoc.
Qed.
Lemma parse_qsl_spec b : parse_qsl b = std_urlencoded_parse b.
Proof.
  unfold parse_qsl, std_urlencoded_parse. rewrite strict_split.
  assert (E : match split 38 b with [] => [] | p :: ps => ([] ++ p) :: ps end = split 38 b) by now destruct (split 38 b).
  rewrite E. clear E. induction (split 38 b) as [|s l IH]; [reflexivity|]. cbn [qsl_items filter].
  destruct s as [|c s]; [exact IH|]. cbn [map]. rewrite split1_std.
  destruct (std_upto 61 (c :: s)) as [n v]. rewrite IH.
  unfold qsl_field, std_form_field. rewrite !utf8_decode_spec, !percent_decode_spec. reflexivity.
Qed.

Lemma urlenc_byte c : c < 256 ->
  let e := enc_b true SAFE_URLENCODED c in
  mem 38 e = false /\ mem 61 e = false /\
  forall t, percent_decode (replace_char 43 32 e ++ t) = c :: percent_decode t.
Proof.
  intros Hc e.
  assert (G : forallb (fun c => let e := enc_b true SAFE_URLENCODED c in
     negb (mem 38 e) && negb (mem 61 e) &&
     match replace_char 43 32 e with
     | [x] => (x =? c) && negb (x =? 37)
     | r => str_eqb r (percent_byte c) end) (range_from 0 256) = true) by (vm_compute; reflexivity).
  apply (forall_below 256) with (c := c) in G; [|lia]. cbv beta zeta in G. fold e in G.
  apply andb_true_iff in G as [G1 G]. apply andb_true_iff in G1 as [G1 G2].
  split; [now apply negb_true_iff|]. split; [now apply negb_true_iff|]. intros t.
  destruct (replace_char 43 32 e) as [|x [|y r]] eqn:E.
  - now apply str_eqb_eq in G.
  - apply andb_true_iff in G as [A B]. apply N.eqb_eq in A; subst x. cbn [app].
    rewrite percent_decode_cons by lia. reflexivity.
  - apply str_eqb_eq in G. rewrite G. now apply percent_decode_byte.
Qed.
Lemma urlenc_field b : is_bytes b ->
  let e := flat_map (enc_b true SAFE_URLENCODED) b in
  mem 38 e = false /\ mem 61 e = false /\ percent_decode (replace_char 43 32 e) = b.
Proof.
  induction 1 as [|c t Hc Ht IH]; cbn zeta; [repeat split|]. cbn [flat_map].
  destruct (urlenc_byte c Hc) as (A & B & C). destruct IH as (A' & B' & C').
  rewrite !mem_app, A, B, A', B'. repeat split. unfold replace_char in *. rewrite map_app, C. now rewrite C'.
Qed.
Lemma urlenc_str s : is_pystr s ->
  let e := utf8_percent_encode s SAFE_URLENCODED true in
  mem 38 e = false /\ mem 61 e = false /\ qsl_field e = scalar_value_string s.
Proof.
  intros H e. unfold e. rewrite utf8_percent_encode_eq.
  destruct (urlenc_field (utf8_encode s) (utf8_encode_bytes s H)) as (A & B & C).
  repeat split; auto. unfold qsl_field. rewrite C. now apply utf8_round_trip.
Qed.
Lemma split1_app sep a b : mem sep a = false -> split1 sep (a ++ sep :: b) = (a, b).
Proof.
  induction a as [|c a IH]; cbn; intros H; [now rewrite N.eqb_refl|].
  apply orb_false_iff in H as [H1 H2]. rewrite N.eqb_sym, H1, IH; auto.
Qed.
Definition svs_pair (p : list N * list N) := (scalar_value_string (fst p), scalar_value_string (snd p)).
Lemma parse_qsl_urlencode l : pystr_pairs l -> parse_qsl (urlencode l) = map svs_pair l.
Proof.
  intros H. unfold parse_qsl. destruct l as [|p l]; [reflexivity|].
  unfold urlencode. set (f := fun nv : str * str => _).
  assert (Hf : forall nv, is_pystr (fst nv) -> is_pystr (snd nv) ->
     mem 38 (f nv) = false /\ f nv <> [] /\
     (let (n, v) := split1 61 (f nv) in (qsl_field n, qsl_field v)) = svs_pair nv).
  { intros [n v] Hn Hv. cbn [fst snd] in *. unfold f. cbn [fst snd].
    destruct (urlenc_str n Hn) as (A1 & A2 & A3). destruct (urlenc_str v Hv) as (B1 & B2 & B3).
    rewrite !mem_app, A1, B1. split; [reflexivity|]. change ($"=") with [61]. cbn [app].
    rewrite split1_app by auto. rewrite A3, B3. split; [|reflexivity].
    destruct (utf8_percent_encode n SAFE_URLENCODED true); discriminate. }
  rewrite split_join.
  - induction H as [|q t [Hq1 Hq2] Ht IH]; [reflexivity|]. cbn [map qsl_items].
    destruct (Hf q Hq1 Hq2) as (A & B & C). rewrite <- C.
    destruct (f q) as [|c r]; [congruence|]. destruct (split1 61 (c :: r)). now rewrite IH.
  - discriminate.
  - intros q Hq. apply in_map_iff in Hq as (nv & <- & Hin). unfold pystr_pairs in H.
    rewrite Forall_forall in H. destruct (H nv Hin). now apply Hf.
Qed.
Lemma parse_qsl_urlencode_id l : pystr_pairs l ->
  Forall (fun p => surrogate_free (fst p) /\ surrogate_free (snd p)) l -> parse_qsl (urlencode l) = l.
Proof.
  intros H F. rewrite parse_qsl_urlencode by auto.
  rewrite <- (map_id l) at 2. apply map_ext_in. intros [n v] Hin.
  rewrite Forall_forall in F. destruct (F _ Hin) as [F1 F2]. unfold svs_pair. cbn [fst snd] in *.
  rewrite !svs_id by (now apply surrogate_free_iff). reflexivity.
Qed.
Lemma urlencode_ascii l : pystr_pairs l -> ascii_str (urlencode l).
Proof.
  induction 1 as [|[n v] t [Hn Hv] Ht IH]; [constructor|]. rewrite urlencode_cons.
  cbn in Hn, Hv. unfold ascii_str. rewrite !Forall_app.
  repeat split; try (apply utf8_percent_encode_ascii; auto); [repeat constructor; lia|].
  destruct t; [constructor|]. constructor; [lia|exact IH].
Qed.

(* ---------- C12: legacy encodings ---------- *)
(** A stateless ASCII-compatible codec: ASCII maps to itself, other characters
    map to byte strings that do not contain a space and do not look like the
    beginning of a character reference. *)
Definition ascii_compatible (enc : N -> option (list N)) : Prop :=
  (forall c, c < 128 -> enc c = Some [c]) /\
  (forall c b, 128 <= c -> enc c = Some b ->
     is_bytes b /\ ~ In 32 b /\ (forall t, b <> 38 :: 35 :: t)).

Lemma enc_32 enc s b : ascii_compatible enc -> encode_all enc s = Some b -> mem 32 b = mem 32 s.
Proof.
  intros [A1 A2]. revert b; induction s as [|c t IH]; intros b H; cbn [encode_all] in H.
  - now apply Some_inj in H; subst.
  - destruct (enc c) as [b1|] eqn:E1; [|discriminate].
    destruct (encode_all enc t) as [b2|] eqn:E2; [|discriminate].
    apply Some_inj in H; subst b. rewrite mem_app, mem_cons, (IH b2) by auto. f_equal.
    destruct (c <? 128) eqn:Q.
    + rewrite A1 in E1 by lia. apply Some_inj in E1; subst. cbn. now rewrite orb_false_r.
    + destruct (A2 c b1 ltac:(lia) E1) as (_ & N32 & _). apply mem_not_In in N32. rewrite N32. lia.
Qed.

Lemma dec_digit_char d : d < 10 -> digit_char d = 48 + d.
Proof. intros H. unfold digit_char. now replace (d <? 10) with true by lia. Qed.
Lemma digits_fuel_lt b f n acc : b <> 0 -> Forall (fun d => d < b) acc -> Forall (fun d => d < b) (digits_fuel f b n acc).
Proof.
  intros Hb. revert n acc; induction f as [|f IH]; intros n acc H; cbn [digits_fuel]; auto.
  assert (Forall (fun d => d < b) (n mod b :: acc)) by (constructor; [apply N.mod_lt; auto|auto]).
  destruct (n / b =? 0); auto.
Qed.
Lemma digits_lt b n : b <> 0 -> Forall (fun d => d < b) (digits b n).
Proof. intros H. apply digits_fuel_lt; auto. Qed.
Lemma dec_str_digits n : Forall (fun c => 48 <= c <= 57) (dec_str n).
Proof.
  unfold dec_str. apply Forall_map. eapply Forall_impl; [|apply digits_lt; lia].
  cbv beta. intros d Hd. rewrite dec_digit_char by auto. lia.
Qed.

Lemma encode_all_ascii_id enc s : ascii_compatible enc -> ascii_str s -> encode_all enc s = Some s.
Proof. intros [A _] H. induction H as [|c t Hc Ht IH]; auto. cbn. now rewrite A, IH. Qed.
Lemma charref_ascii c : ascii_str (charref c).
Proof.
  unfold charref, ascii_str. rewrite !Forall_app. repeat split.
  - repeat constructor; lia.
  - eapply Forall_impl; [|apply dec_str_digits]. cbv beta; intros; lia.
  - repeat constructor; lia.
Qed.

(** what one character becomes *)
Definition legacy_char (enc : N -> option (list N)) (safe : str) (plus : bool) (c : N) : str :=
  match enc c with
  | Some b => flat_map (enc_b plus safe) b
  | None => $"%26%23" ++ dec_str c ++ $"%3B"
  end.

Lemma quote_charref plus c :
  quote_via_bytes plus (quote_default_safe plus) (charref c) = $"%26%23" ++ dec_str c ++ $"%3B".
Proof.
  rewrite quote_via_bytes_eq. unfold charref. rewrite !flat_map_app.
  assert (E1 : flat_map (enc_b plus (quote_default_safe plus)) $"&#" = $"%26%23") by now destruct plus.
  assert (E2 : flat_map (enc_b plus (quote_default_safe plus)) $";" = $"%3B") by now destruct plus.
  rewrite E1, E2. do 2 f_equal.
  induction (dec_str_digits c) as [|x t Hx Ht IH]; [reflexivity|]. cbn [flat_map]. rewrite IH.
  assert (E : enc_b plus (quote_default_safe plus) x = [x]); [|now rewrite E].
  unfold enc_b. replace (plus && (x =? 32)) with false by (destruct plus; cbn; lia).
  assert (Q : quote_safe (quote_default_safe plus) x = true); [|now rewrite Q].
  unfold quote_safe. assert (M : mem x ALWAYS_SAFE = true); [|now rewrite M].
  apply mem_In. unfold ALWAYS_SAFE, ASCII_ALPHANUMERIC. rewrite !in_app_iff. left. right.
  replace x with (48 + (x - 48)) by lia. set (y := x - 48).
  assert (Hy : y < 10) by lia. clearbody y.
  assert (G : forallb (fun y => mem (48 + y) ASCII_DIGITS) (range_from 0 10) = true) by (vm_compute; reflexivity).
  apply (forall_below 10) with (c := y) in G; [|lia]. now apply mem_In.
Qed.

Lemma legacy_encode enc s safe plus : ascii_compatible enc ->
  string_percent_encode enc s safe plus = Some (flat_map (legacy_char enc safe plus) (usv s)).
Proof.
  intros HA. unfold string_percent_encode. destruct (quote_via_str enc plus safe (usv s)) as [r|] eqn:Q.
  - unfold quote_via_str in Q. destruct (encode_all enc (usv s)) as [b|] eqn:E; [|discriminate].
    apply Some_inj in Q. f_equal. rewrite <- Q. rewrite <- (enc_32 enc _ _ HA E).
    assert (F : flat_map (enc_b plus safe) b = flat_map (legacy_char enc safe plus) (usv s)).
    { clear Q. revert b E; induction (usv s) as [|c t IH]; intros b E; cbn [encode_all] in E.
      - now apply Some_inj in E; subst.
      - destruct (enc c) as [b1|] eqn:E1; [|discriminate].
        destruct (encode_all enc t) as [b2|] eqn:E2; [|discriminate].
        apply Some_inj in E; subst b. rewrite flat_map_app, (IH b2) by auto. cbn [flat_map].
        f_equal. unfold legacy_char. now rewrite E1. }
    rewrite <- F. destruct (plus && mem 32 b) eqn:P.
    + destruct plus; [|discriminate]. apply quote_plus_eq.
    + now apply quote_noplus_eq.
  - clear Q. destruct HA as [A1 A2]. induction (usv s) as [|c t IH]; [reflexivity|].
    cbn [encode_charrefs]. rewrite IH. cbn [flat_map]. unfold legacy_char at 2.
    destruct (enc c) as [b|] eqn:E1.
    + do 2 f_equal. rewrite !quote_via_bytes_eq. destruct (starts_with $"&#" b) eqn:S; [|reflexivity].
      exfalso. apply starts_with_iff in S as [r S]. cbn in S. destruct (c <? 128) eqn:L.
      * rewrite A1 in E1 by lia. apply Some_inj in E1; subst b. discriminate.
      * destruct (A2 c b ltac:(lia) E1) as (_ & _ & N). now apply (N r).
    + rewrite (encode_all_ascii_id enc) by (auto using charref_ascii; split; auto).
      replace (starts_with $"&#" (charref c)) with true by reflexivity.
      now rewrite quote_charref.
Qed.

Lemma enc_b_bytes_ascii plus safe b : is_bytes b -> ascii_str (flat_map (enc_b plus safe) b).
Proof. intros H. eapply pe_ascii, enc_b_alphabet, H. Qed.

Lemma legacy_ascii enc safe plus s : ascii_compatible enc -> ascii_str (flat_map (legacy_char enc safe plus) s).
Proof.
  intros [A1 A2]. induction s as [|c t IH]; [constructor|]. cbn [flat_map]. apply Forall_app. split; auto.
  unfold legacy_char. destruct (enc c) as [b|] eqn:E.
  - apply enc_b_bytes_ascii. destruct (c <? 128) eqn:L.
    + rewrite A1 in E by lia. apply Some_inj in E; subst. repeat constructor; lia.
    + now destruct (A2 c b ltac:(lia) E).
  - rewrite !Forall_app. repeat split; [repeat constructor; lia| |repeat constructor; lia].
    eapply Forall_impl; [|apply dec_str_digits]. cbv beta; intros; lia.
Qed.

(** Byte-level escaping, for the statement of the legacy-encoding property. *)
Definition std_escape_byte (keep : N -> Prop) (plus : bool) (b : N) (out : list N) : Prop :=
  (plus = true /\ b = 32 /\ out = [43]) \/
  (~ (plus = true /\ b = 32) /\ keep b /\ out = [b]) \/
  (~ (plus = true /\ b = 32) /\ ~ keep b /\ out = std_percent_byte b).
Definition kept (safe : list N) (b : N) : Prop := b < 128 /\ In b (ALWAYS_SAFE ++ safe).

Lemma quote_safe_kept safe b : quote_safe safe b = true <-> kept safe b.
Proof.
  unfold quote_safe, kept. rewrite orb_true_iff, andb_true_iff, in_app_iff, !mem_In. split.
  - intros [H|[H1 H2]]; [split; auto; apply ALWAYS_SAFE_ascii; now apply mem_In|split; [lia|auto]].
  - intros [H1 [H2|H2]]; auto. right. split; auto. lia.
Qed.
Lemma enc_b_std plus safe b : b < 256 -> std_escape_byte (kept safe) plus b (enc_b plus safe b).
Proof.
  intros Hb. unfold std_escape_byte, enc_b. destruct (plus && (b =? 32)) eqn:P.
  - left. apply andb_true_iff in P as [-> P]. apply N.eqb_eq in P. auto.
  - right. assert (~ (plus = true /\ b = 32)) by (intros [-> ->]; discriminate).
    destruct (quote_safe safe b) eqn:Q.
    + left. apply quote_safe_kept in Q. auto.
    + right. rewrite <- quote_safe_kept, Q, std_percent_byte_eq by auto. auto.
Qed.

Lemma encode_sets_conform s plus : is_pystr s ->
    utf8_percent_encode s SAFE_C0_CONTROL plus = std_percent_encode c0_control_set plus s /\
    utf8_percent_encode s SAFE_FRAGMENT plus = std_percent_encode fragment_set plus s /\
    utf8_percent_encode s SAFE_QUERY plus = std_percent_encode query_set plus s /\
    utf8_percent_encode s SAFE_SPECIAL_QUERY plus = std_percent_encode special_query_set plus s /\
    utf8_percent_encode s SAFE_PATH plus = std_percent_encode path_set plus s /\
    utf8_percent_encode s SAFE_USERINFO plus = std_percent_encode userinfo_set plus s /\
    utf8_percent_encode s SAFE_COMPONENT plus = std_percent_encode component_set plus s.
Proof.
  intros H. repeat split; apply encode_conforms; auto using agree_c0, agree_fragment, agree_query,
    agree_special_query, agree_path, agree_userinfo, agree_component.
Qed.
Lemma urlencode_tilde : exists l, pystr_pairs l /\ urlencode l <> std_urlencoded_serialize l.
Proof.
  exists [([126], [])]. split; [repeat constructor; discriminate|]. vm_compute. discriminate.
Qed.
