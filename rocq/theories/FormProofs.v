(** Lemmas on urlencode with any codec (C135). *)
From Coq Require Import Ascii String.
From Coq Require Import NArith ZArith Bool Arith Lia ZifyBool ZifyN ZifyNat List.
From Verif Require Import PyStr Codec AnyCodec AnyForm Lemmas CodecProofs QuoteProofs AnyCodecProofs.
From Verif Require Import SpecText SpecUrl SpecForm.
Import ListNotations.
Open Scope N_scope.

Lemma usv_nil_iff s : is_pystr s -> usv s = [] <-> s = [].
Proof.
  intros H. rewrite usv_spec by exact H. split; [|intros ->; reflexivity]. destruct s as [|c [|d t]]; [reflexivity|discriminate|]. rewrite svs_cons2. destruct (_ && _); discriminate.
Qed.
Lemma inr_inj {A B} (x y : B) : @inr A B x = inr y -> x = y.
Proof. congruence. Qed.
(** one byte *)
Lemma form_byte plus safe c t bs : safe = [] \/ safe = SAFE_URLENCODED -> c < 256 -> form_text t bs -> form_text (enc_b plus safe c ++ t) (c :: bs).
Proof.
  intros S Hc F. unfold enc_b. destruct (plus && (c =? 32)) eqn:P.
  - apply andb_true_iff in P as [_ P]. apply N.eqb_eq in P. subst c. now apply ft_space.
  - assert (G : forallb (fun safe => forallb (fun c => if quote_safe safe c then form_plain c else str_eqb (percent_byte c) (std_percent_byte c)) (range_from 0 256)) [[]; SAFE_URLENCODED] = true) by (vm_compute; reflexivity).
    rewrite forallb_forall in G. assert (I : In safe [[]; SAFE_URLENCODED]) by (destruct S as [-> | ->]; [now left|right; now left]). specialize (G safe I). cbv beta in G.
    apply (forall_below 256) with (c := c) in G; [|lia]. cbv beta in G. destruct (quote_safe safe c).
    + now apply ft_plain.
    + apply str_eqb_eq in G. rewrite G. now apply ft_byte.
Qed.
Lemma form_flat plus safe bs : safe = [] \/ safe = SAFE_URLENCODED -> Forall (fun b => b < 256) bs -> form_text (flat_map (enc_b plus safe) bs) bs.
Proof. intros S H. induction H as [|c bs Hc Hb IH]; [constructor|]. cbn [flat_map]. now apply form_byte. Qed.
Lemma form_app t bs t' bs' : form_text t bs -> form_text t' bs' -> form_text (t ++ t') (bs ++ bs').
Proof.
  intros H H'. induction H; [exact H'| | |].
  - cbn [app] in *. now apply (ft_space (t ++ t')).
  - cbn [app]. now apply ft_plain.
  - rewrite <- app_assoc. cbn [app]. now apply ft_byte.
Qed.
Lemma any_enc {X} (c : anycodec X) s : is_pystr s -> bytes_codec c ->
  (forall t, any_percent_encode c s SAFE_URLENCODED true = inr t -> exists bs, form_text t bs /\ codec_bytes c s bs) /\
  (forall x, any_percent_encode c s SAFE_URLENCODED true = inl x <-> codec_raises c s x).
Proof.
  intros Hs (B1 & B2). unfold any_percent_encode, codec_bytes, codec_raises. pose proof (usv_nil_iff s Hs) as N0. rewrite <- (usv_spec s Hs). destruct (usv s) as [|y r] eqn:U.
  - assert (s = []) as -> by now apply N0. split; [intros t Q; injection Q as <-; exists []; split; [constructor|now left]|]. intros x. split; [discriminate|]. intros [H _]. congruence.
  - assert (NE : s <> []) by (intros K; apply N0 in K; discriminate K). clear N0 U. destruct (strict c (y :: r)) as [bs| |x0] eqn:Q.
    + specialize (B1 _ _ Q). split.
      * intros t T. exists bs. split; [|right; split; [exact NE|now left]]. apply inr_inj in T. subst t. destruct (mem 32 (y :: r)); cbn [andb].
        -- rewrite quote_plus_eq. apply form_flat; auto.
        -- rewrite (quote_noplus_eq false SAFE_URLENCODED) by reflexivity. apply form_flat; auto.
      * intros x. split; [discriminate|]. intros [_ [H|[H _]]]; discriminate H.
    + destruct (chunks c (y :: r)) as [l|x0] eqn:K.
      * specialize (B2 _ _ K). split.
        -- intros t T. apply inr_inj in T. subst t. exists (concat l). split; [|right; split; [exact NE|right; split; [reflexivity|now exists l]]]. clear - B2.
           induction B2 as [|b l Hb Hl IH]; [constructor|]. cbn [flat_map concat]. apply form_app; [|exact IH].
           destruct (starts_with $"&#" b); rewrite quote_via_bytes_eq; apply form_flat; auto.
        -- intros x. split; [discriminate|]. intros [_ [H|[_ H]]]; discriminate H.
      * split; [discriminate|]. intros x. split.
        -- intros H. injection H as <-. split; [exact NE|right; split; reflexivity].
        -- intros [_ [H|[_ H]]]; [discriminate H|]. now injection H as ->.
    + split; [discriminate|]. intros x. split.
      * intros H. injection H as <-. split; [exact NE|now left].
      * intros [_ [H|[H _]]]; [now injection H as ->|discriminate H].
Qed.
Lemma fields_ok {X} (c : anycodec X) q : bytes_codec c -> pystr_pairs q -> forall l, any_fields c q = inr l -> Forall2 (form_field c) l q.
Proof.
  intros B H. induction H as [|[n v] q [Hn Hv] Hq IH]; intros l Q; cbn [any_fields] in Q; [injection Q as <-; constructor|]. cbn [fst snd] in *.
  destruct (any_enc c n Hn B) as [N1 _]. destruct (any_enc c v Hv B) as [V1 _].
  destruct (any_percent_encode c n _ _) as [|n']; [discriminate|]. destruct (any_percent_encode c v _ _) as [|v']; [discriminate|]. destruct (any_fields c q) as [|l']; [discriminate|]. injection Q as <-.
  constructor; [|now apply IH]. destruct (N1 n' eq_refl) as (bn & A1 & A2). destruct (V1 v' eq_refl) as (bv & A3 & A4). exists n', v', bn, bv. repeat split; assumption.
Qed.
Lemma urlencode_form {X} (c : anycodec X) q t : bytes_codec c -> pystr_pairs q -> any_urlencode c q = inr t -> exists ps, t = join $"&" ps /\ Forall2 (form_field c) ps q.
Proof.
  intros B H. unfold any_urlencode. destruct (any_fields c q) as [|l] eqn:Q; [discriminate|]. intros T. injection T as <-. exists l. split; [reflexivity|]. now apply fields_ok.
Qed.
Lemma bytes_or_raise {X} (c : anycodec X) s : is_pystr s -> bytes_codec c -> (exists bs, codec_bytes c s bs /\ exists t, any_percent_encode c s SAFE_URLENCODED true = inr t) \/ (exists x, codec_raises c s x).
Proof.
  intros H B. destruct (any_enc c s H B) as [A1 A2]. destruct (any_percent_encode c s SAFE_URLENCODED true) as [x|t] eqn:Q; [right; exists x; now apply A2|left].
  destruct (A1 t eq_refl) as (bs & _ & K). exists bs. eauto.
Qed.
Lemma raises_no_bytes {X} (c : anycodec X) s x bs : codec_raises c s x -> codec_bytes c s bs -> False.
Proof. intros [N [R|[R1 R2]]] [[-> _]|[_ [K|[K1 (l & K2 & _)]]]]; congruence. Qed.
Lemma urlencode_raise {X} (c : anycodec X) q x : bytes_codec c -> pystr_pairs q ->
  any_urlencode c q = inl x <->
  exists pre n v post, q = pre ++ (n, v) :: post /\ Forall (fun nv => exists bb, pair_bytes c bb nv) pre /\ (codec_raises c n x \/ (exists bn, codec_bytes c n bn) /\ codec_raises c v x).
Proof.
  intros B H. assert (G : any_urlencode c q = inl x <-> any_fields c q = inl x) by (unfold any_urlencode; destruct (any_fields c q); split; congruence). rewrite G. clear G.
  induction H as [|[n v] q [Hn Hv] Hq IH]; cbn [any_fields]; [split; [discriminate|]; intros ([|? ?] & n & v & post & Q & _); discriminate Q|]. cbn [fst snd] in *.
  destruct (any_enc c n Hn B) as [N1 N2]. destruct (any_enc c v Hv B) as [V1 V2]. split.
  - destruct (any_percent_encode c n _ _) as [y|n'].
    { intros Q. injection Q as <-. exists [], n, v, q. split; [reflexivity|]. split; [constructor|]. left. now apply N2. }
    destruct (N1 n' eq_refl) as (bn & _ & Bn). destruct (any_percent_encode c v _ _) as [y|v'].
    { intros Q. injection Q as <-. exists [], n, v, q. split; [reflexivity|]. split; [constructor|]. right. split; [now exists bn|now apply V2]. }
    destruct (V1 v' eq_refl) as (bv & _ & Bv). destruct (any_fields c q) as [y|l]; [|discriminate]. intros Q. apply IH in Q as (pre & n2 & v2 & post & -> & Q1 & Q2).
    exists ((n, v) :: pre), n2, v2, post. split; [reflexivity|]. split; [|exact Q2]. constructor; [|exact Q1]. exists (bn, bv). split; assumption.
  - intros (pre & n2 & v2 & post & Q & Q1 & Q2). destruct pre as [|p pre].
    + cbn [app] in Q. injection Q as <- <- <-. destruct Q2 as [Q2|[(bn & Bn) Q2]].
      * apply N2 in Q2. now rewrite Q2.
      * apply V2 in Q2. destruct (any_percent_encode c n _ _) as [y|n']; [|now rewrite Q2]. exfalso. apply (raises_no_bytes c n y bn); [now apply N2|exact Bn].
    + cbn [app] in Q. injection Q as <- ->. inversion Q1 as [|? ? ((bn & bv) & Bn & Bv) Q3]; subst. cbn [fst snd] in *.
      destruct (any_percent_encode c n _ _) as [y|n']; [exfalso; apply (raises_no_bytes c n y bn); [now apply N2|exact Bn]|].
      destruct (any_percent_encode c v _ _) as [y|v']; [exfalso; apply (raises_no_bytes c v y bv); [now apply V2|exact Bv]|].
      assert (Z : any_fields c (pre ++ (n2, v2) :: post) = inl x). { apply IH. exists pre, n2, v2, post. auto. } now rewrite Z.
Qed.

(* ---------- reading it back ---------- *)
Lemma form_clean t bs : form_text t bs -> mem 38 t = false /\ mem 61 t = false /\ percent_decode (replace_char 43 32 t) = bs.
Proof.
  induction 1 as [|t bs H IH|c t bs Hc H IH|b t bs Hb H IH]; [repeat split| | |].
  - destruct IH as (A & B & C). change ($"+" ++ t) with (43 :: t). cbn [mem existsb] in *. repeat split; [exact A|exact B|]. unfold replace_char in *. cbn [map]. change (43 =? 43) with true. cbv iota.
    rewrite percent_decode_cons by discriminate. now rewrite C.
  - destruct IH as (A & B & C). assert (K : c <> 38 /\ c <> 61 /\ c <> 37 /\ c <> 43).
    { repeat split; intros ->; discriminate Hc. }
    destruct K as (K1 & K2 & K3 & K4). rewrite !mem_cons, A, B. destruct (N.eqb_spec 38 c); [congruence|]. destruct (N.eqb_spec 61 c); [congruence|]. repeat split.
    unfold replace_char in *. cbn [map]. destruct (N.eqb_spec c 43); [congruence|]. rewrite percent_decode_cons by exact K3. now rewrite C.
  - destruct IH as (A & B & C). assert (G : forallb (fun b => let e := std_percent_byte b in negb (mem 38 e) && negb (mem 61 e) && str_eqb (replace_char 43 32 e) (percent_byte b)) (range_from 0 256) = true) by (vm_compute; reflexivity).
    apply (forall_below 256) with (c := b) in G; [|lia]. cbv beta zeta in G. apply andb_true_iff in G as [G G3]. apply andb_true_iff in G as [G1 G2]. apply negb_true_iff in G1, G2. apply str_eqb_eq in G3.
    rewrite !mem_app, G1, G2, A, B. repeat split. unfold replace_char in *. rewrite map_app, G3. rewrite percent_decode_byte by exact Hb. now rewrite C.
Qed.
Lemma fields_read {X} (c : anycodec X) ps q : Forall2 (form_field c) ps q ->
  Forall (fun p => mem 38 p = false) ps /\ exists bl, Forall2 (pair_bytes c) bl q /\ qsl_items ps = map (fun bb => (utf8_decode (fst bb), utf8_decode (snd bb))) bl.
Proof.
  induction 1 as [|p nv ps q (a & b & bn & bv & -> & Ta & Ca & Tb & Cb) H (IH1 & bl & IH2 & IH3)]; [split; [constructor|]; exists []; split; constructor|].
  destruct (form_clean a bn Ta) as (A1 & A2 & A3). destruct (form_clean b bv Tb) as (B1 & B2 & B3). split.
  - constructor; [|exact IH1]. rewrite !mem_app, A1, B1. reflexivity.
  - exists ((bn, bv) :: bl). split; [constructor; [split; assumption|exact IH2]|]. cbn [map fst snd qsl_items]. change ($"=") with [61]. cbn [app].
    assert (S : split1 61 (a ++ 61 :: b) = (a, b)) by now apply split1_app. destruct (a ++ 61 :: b) as [|y r] eqn:Z; [destruct a; discriminate Z|]. rewrite S. unfold qsl_field. rewrite A3, B3, IH3. reflexivity.
Qed.
Lemma urlencode_read {X} (c : anycodec X) q t : bytes_codec c -> pystr_pairs q -> any_urlencode c q = inr t ->
  exists bl, Forall2 (pair_bytes c) bl q /\ parse_qsl t = map (fun bb => (std_utf8_decode (fst bb), std_utf8_decode (snd bb))) bl.
Proof.
  intros B H Q. apply urlencode_form in Q as (ps & -> & F); auto. destruct (fields_read c ps q F) as (N & bl & P & R). exists bl. split; [exact P|]. unfold parse_qsl.
  destruct ps as [|p ps].
  - inversion F; subst. inversion P; subst. reflexivity.
  - rewrite split_join; [|discriminate|rewrite Forall_forall in N; exact N]. rewrite R. apply map_ext. intros [x y]. cbn [fst snd]. now rewrite !utf8_decode_spec.
Qed.

(* ---------- the exact text ---------- *)
Lemma svs_space s : existsb (N.eqb 32) (scalar_value_string s) = existsb (N.eqb 32) s.
Proof.
  enough (G : forall n s, (length s <= n)%nat -> existsb (N.eqb 32) (scalar_value_string s) = existsb (N.eqb 32) s) by (eapply G; reflexivity).
  clear s. assert (K : forall c, (32 =? (if leading c || trailing c then 65533 else c)) = (32 =? c)).
  { intros c. unfold leading, trailing. destruct (_ || _) eqn:Q; lia. }
  induction n as [|n IH]; intros s H.
  { destruct s; [reflexivity|cbn in H; lia]. }
  destruct s as [|c [|d t]]; cbn [length] in *; [reflexivity|cbn [scalar_value_string existsb]; now rewrite K|].
  rewrite svs_cons2. destruct (leading c && trailing d) eqn:Q.
  - cbn [existsb]. rewrite IH by lia. unfold leading, trailing in Q.
    destruct (N.eqb_spec 32 (65536 + (c - 55296) * 1024 + (d - 56320))); [lia|]. destruct (N.eqb_spec 32 c); [lia|]. destruct (N.eqb_spec 32 d); [lia|]. reflexivity.
  - change (existsb (N.eqb 32) (?a :: ?b)) with ((32 =? a) || existsb (N.eqb 32) b). cbn [existsb]. rewrite K. f_equal. rewrite IH by (cbn [length]; lia). reflexivity.
Qed.
Lemma form_char_eq space (star : bool) c : c < 256 -> enc_b space (if star then SAFE_URLENCODED else []) c = form_char space star c.
Proof.
  intros H. assert (G : forallb (fun c => forallb (fun space => forallb (fun star : bool => str_eqb (enc_b space (if star then SAFE_URLENCODED else []) c) (form_char space star c)) [true; false]) [true; false]) (range_from 0 256) = true) by (vm_compute; reflexivity).
  apply (forall_below 256) with (c := c) in G; [|lia]. cbv beta in G. rewrite forallb_forall in G. specialize (G space). cbv beta in G. rewrite forallb_forall in G.
  apply str_eqb_eq. apply G; [destruct space; cbn; tauto|destruct star; cbn; tauto].
Qed.
Lemma form_chars_eq space (star : bool) bs : Forall (fun b => b < 256) bs -> flat_map (enc_b space (if star then SAFE_URLENCODED else [])) bs = flat_map (form_char space star) bs.
Proof. intros H. apply flat_map_ext_In. intros c Hc. rewrite Forall_forall in H. apply form_char_eq. now apply H. Qed.
Lemma charref_start b : starts_with $"&#" b = is_charref b.
Proof. change ($"&#") with [38; 35]. destruct b as [|x [|y t]]; [reflexivity| |]; cbn [starts_with is_charref]; rewrite ?andb_false_r, ?andb_true_r, ?(N.eqb_sym _ x), ?(N.eqb_sym _ y); reflexivity. Qed.
Lemma any_text {X} (c : anycodec X) s t : is_pystr s -> bytes_codec c -> any_percent_encode c s SAFE_URLENCODED true = inr t <-> codec_text c s t.
Proof.
  intros Hs (B1 & B2). unfold any_percent_encode, codec_text. pose proof (usv_nil_iff s Hs) as N0. rewrite <- (svs_space s). rewrite <- (usv_spec s Hs). destruct (usv s) as [|y r] eqn:U.
  - assert (s = []) as -> by now apply N0. split; [intros Q; injection Q as <-; left; split; reflexivity|]. intros [[_ ->]|[K _]]; [reflexivity|congruence].
  - assert (NE : s <> []) by (intros K; apply N0 in K; discriminate K). clear N0 U. fold (mem 32 (y :: r)). destruct (strict c (y :: r)) as [bs| |x0] eqn:Q.
    + specialize (B1 _ _ Q).
      assert (G : (if true && mem 32 (y :: r) then replace_char 32 43 (quote_bytes (SAFE_URLENCODED ++ [32]) bs) else quote_bytes SAFE_URLENCODED bs) = flat_map (form_char (mem 32 (y :: r)) true) bs).
      { rewrite <- form_chars_eq by exact B1. destruct (mem 32 (y :: r)); cbn [andb]; [now rewrite quote_plus_eq|]. now rewrite (quote_noplus_eq false SAFE_URLENCODED) by reflexivity. }
      rewrite G. split.
      * intros T. apply inr_inj in T. subst t. right. split; [exact NE|]. left. exists bs. split; reflexivity.
      * intros [[K _]|[_ [(bs' & K & ->)|[K _]]]]; [congruence| |discriminate K]. injection K as <-. reflexivity.
    + destruct (chunks c (y :: r)) as [l|x0] eqn:K.
      * specialize (B2 _ _ K).
        assert (G : flat_map (fun b => if starts_with $"&#" b then quote_via_bytes true (quote_default_safe true) b else quote_via_bytes true SAFE_URLENCODED b) l
                    = flat_map (fun chunk => flat_map (form_char true (negb (is_charref chunk))) chunk) l).
        { apply flat_map_ext_In. intros b Hb. rewrite Forall_forall in B2. specialize (B2 b Hb). rewrite charref_start, <- form_chars_eq by exact B2. rewrite !quote_via_bytes_eq. change (quote_default_safe true) with (@nil N). destruct (is_charref b); cbn [negb]; reflexivity. }
        rewrite G. split.
        -- intros T. apply inr_inj in T. subst t. right. split; [exact NE|]. right. split; [reflexivity|]. exists l. split; reflexivity.
        -- intros [[Z _]|[_ [(bs' & Z & _)|[_ (l' & Z & ->)]]]]; [congruence|discriminate Z|]. injection Z as <-. reflexivity.
      * split; [discriminate|]. intros [[Z _]|[_ [(bs' & Z & _)|[_ (l' & Z & _)]]]]; [congruence|discriminate Z|discriminate Z].
    + split; [discriminate|]. intros [[Z _]|[_ [(bs' & Z & _)|[Z _]]]]; [congruence|discriminate Z|discriminate Z].
Qed.
Lemma fields_text {X} (c : anycodec X) q : bytes_codec c -> pystr_pairs q -> forall l, any_fields c q = inr l <-> Forall2 (field_text c) l q.
Proof.
  intros B H. induction H as [|[n v] q [Hn Hv] Hq IH]; intros l; cbn [any_fields].
  - split; [intros Q; injection Q as <-; constructor|]. intros Q. inversion Q. reflexivity.
  - cbn [fst snd] in *. split.
    + destruct (any_percent_encode c n _ _) as [|n'] eqn:Qn; [discriminate|]. destruct (any_percent_encode c v _ _) as [|v'] eqn:Qv; [discriminate|].
      apply any_text in Qn, Qv; auto. destruct (any_fields c q) as [|l']; [discriminate|]. intros Q. apply inr_inj in Q. subst l. constructor; [|now apply IH]. exists n', v'. split; [reflexivity|]. split; assumption.
    + intros Q. inversion Q as [|p ? l' ? (a & b & -> & Qa & Qb) Q']; subst. cbn [fst snd] in *. apply (any_text c n a Hn B) in Qa. apply (any_text c v b Hv B) in Qb. apply IH in Q'. now rewrite Qa, Qb, Q'.
Qed.
Lemma urlencode_exact {X} (c : anycodec X) q t : bytes_codec c -> pystr_pairs q ->
  any_urlencode c q = inr t <-> exists ps, t = join $"&" ps /\ Forall2 (field_text c) ps q.
Proof.
  intros B H. unfold any_urlencode. split.
  - destruct (any_fields c q) as [|l] eqn:Q; [discriminate|]. intros T. apply inr_inj in T. exists l. split; [now symmetry|]. now apply fields_text in Q.
  - intros (ps & -> & F). apply fields_text in F; auto. now rewrite F.
Qed.
(* ---------- UTF-8, and other codecs without a state ---------- *)
Lemma urlencode_utf8 q : any_urlencode (char_codec utf8_enc1) q = inr (urlencode q).
Proof.
  unfold any_urlencode, urlencode. enough (G : any_fields (char_codec utf8_enc1) q = inr (map (fun nv => utf8_percent_encode (fst nv) SAFE_URLENCODED true ++ $"=" ++ utf8_percent_encode (snd nv) SAFE_URLENCODED true) q)) by now rewrite G.
  induction q as [|[n v] q IH]; [reflexivity|]. cbn [any_fields map fst snd]. unfold utf8_percent_encode in *. rewrite !char_codec_ok, !utf8_percent_encode_total, IH. reflexivity.
Qed.
