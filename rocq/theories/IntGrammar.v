(** [int(text, base)] (PyInt.v) reads exactly the texts of SpecPyInt.v; what
    that means for the IPv4 parser. *)
From Coq Require Import Ascii String.
From Coq Require Import NArith ZArith Bool Arith Lia ZifyBool ZifyN ZifyNat List.
From Verif Require Import PyStr PyInt Codec Env HostModel SpecText SpecHost SpecPyInt Lemmas CodecProofs QuoteProofs PyIntProofs IPv4Proofs.
Import ListNotations.
Open Scope N_scope.

Lemma space_eq c : int_space c = is_space_ascii c.
Proof. unfold int_space, is_space_ascii. lia. Qed.
Lemma spaces_eq s : forallb int_space s = forallb is_space_ascii s.
Proof. induction s as [|c t IH]; [reflexivity|]. cbn [forallb]. now rewrite space_eq, IH. Qed.

Lemma digit_none b c : b <= 16 -> std_radix_digit b c = None -> match digit_val c with Some d => d <? b | None => false end = false.
Proof. intros Hb Q. pose proof (radix_digit_none b c Hb Q) as K. destruct (digit_val c); [lia|reflexivity]. Qed.

Lemma scan_stop b ws acc cnt : b <= 16 -> forallb is_space_ascii ws = true -> scan_digits b ws false acc cnt = Some (acc, cnt, ws).
Proof.
  intros Hb H. destruct ws as [|c t]; [reflexivity|]. cbn [forallb] in H. apply andb_true_iff in H as [H _]. unfold is_space_ascii in H.
  cbn [scan_digits]. replace (c =? 95) with false by lia. unfold digit_val.
  replace ((48 <=? c) && (c <=? 57)) with false by lia. replace ((97 <=? c) && (c <=? 122)) with false by lia.
  replace ((65 <=? c) && (c <=? 90)) with false by lia. reflexivity.
Qed.
Lemma digit_not95 b c d : b <= 16 -> std_radix_digit b c = Some d -> c =? 95 = false /\ digit_val c = Some d /\ d < b.
Proof.
  intros Hb Q. destruct (radix_digit_val b c d Hb Q) as (V & D & _). split; [|auto].
  unfold digit_val in V. destruct (c =? 95) eqn:C; [|reflexivity]. apply N.eqb_eq in C. subst c. discriminate V.
Qed.
Lemma scan_text b body ds ws : b <= 16 -> digits_text b body ds -> forallb is_space_ascii ws = true -> forall p acc cnt,
  scan_digits b (body ++ ws) p acc cnt = Some (fold_left (fun a d => a * b + d) ds acc, cnt + N.of_nat (length ds), ws).
Proof.
  intros Hb T W. induction T as [c d Q|c d s ds Q T IH|c d s ds Q T IH]; intros p acc cnt; cbn [app scan_digits];
    destruct (digit_not95 b c d Hb Q) as (-> & -> & D); replace (d <? b) with true by lia.
  - rewrite (scan_stop b ws) by auto. reflexivity.
  - rewrite IH. cbn [fold_left length]. do 3 f_equal. lia.
  - change (95 =? 95) with true. cbv iota. rewrite IH. cbn [fold_left length]. do 3 f_equal. lia.
Qed.
Lemma scan_inv b s : b <= 16 -> forall p acc cnt v n rest, scan_digits b s p acc cnt = Some (v, n, rest) ->
  exists body ds, s = body ++ rest /\ v = fold_left (fun a d => a * b + d) ds acc /\ n = cnt + N.of_nat (length ds) /\
    ((body = [] /\ ds = [] /\ p = false) \/ digits_text b body ds \/ (p = false /\ exists body', body = 95 :: body' /\ digits_text b body' ds)).
Proof.
  intros Hb. induction s as [|c t IH]; intros p acc cnt v n rest H; cbn [scan_digits] in H.
  - destruct p; [discriminate|]. injection H as <- <- <-. exists [], []. repeat split; [cbn; lia|]. left. auto.
  - destruct (c =? 95) eqn:C.
    + destruct p; [discriminate|]. apply IH in H as (body & ds & -> & -> & -> & [(_ & _ & X)|[T|(X & _)]]); try discriminate.
      apply N.eqb_eq in C. subst c. exists (95 :: body), ds. repeat split; auto. right. right. split; [reflexivity|]. eauto.
    + destruct (std_radix_digit b c) as [d|] eqn:Q.
      * destruct (radix_digit_val b c d Hb Q) as (V & D & _). rewrite V in H. replace (d <? b) with true in H by lia.
        apply IH in H as (body & ds & -> & -> & -> & K). exists (c :: body), (d :: ds). split; [reflexivity|]. split; [reflexivity|].
        split; [cbn [length]; lia|]. right. left. destruct K as [(-> & -> & _)|[T|(_ & body' & -> & T)]].
        -- now constructor.
        -- now apply dt_more.
        -- now apply dt_underscore.
      * pose proof (digit_none b c Hb Q) as K. assert (G : (if p then None else Some (acc, cnt, c :: t)) = Some (v, n, rest)).
        { destruct (digit_val c) as [d|]; [rewrite K in H|]; exact H. }
        destruct p; [discriminate|]. injection G as <- <- <-. exists [], []. repeat split; [cbn; lia|]. left. auto.
Qed.

Lemma digits_text_head b s ds : b <= 16 -> digits_text b s ds -> exists c t, s = c :: t /\ exists d, std_radix_digit b c = Some d.
Proof. intros Hb T. destruct T; eauto 6. Qed.
Lemma digits_text_ne b s ds : digits_text b s ds -> ds <> [].
Proof. intros T. destruct T; discriminate. Qed.

Lemma drop_spaces ws s : forallb is_space_ascii ws = true -> match s with c :: _ => is_space_ascii c = false | [] => True end ->
  drop_while is_space_ascii (ws ++ s) = s.
Proof.
  intros W S. induction ws as [|c t IH].
  - destruct s as [|c t]; [reflexivity|]. cbn [app drop_while]. now rewrite S.
  - cbn [forallb] in W. apply andb_true_iff in W as [W1 W2]. cbn [app drop_while]. rewrite W1. auto.
Qed.
Lemma drop_while_split' s : exists ws, s = ws ++ drop_while is_space_ascii s /\ forallb is_space_ascii ws = true.
Proof.
  induction s as [|c t (ws & E & W)]; [exists []; auto|]. cbn [drop_while]. destruct (is_space_ascii c) eqn:Q.
  - exists (c :: ws). cbn [app forallb]. rewrite Q, W. split; [now f_equal|reflexivity].
  - exists []. auto.
Qed.

(** bases 8, 10, 16: a digit is not a space, a sign or an underscore *)
Lemma digit_plain b c d : b <= 16 -> std_radix_digit b c = Some d ->
  is_space_ascii c = false /\ (c =? 43) = false /\ (c =? 45) = false /\ (c =? 95) = false /\ (c =? 120) = false /\ (c =? 88) = false /\ (c =? 111) = false /\ (c =? 79) = false.
Proof.
  intros Hb Q. unfold std_radix_digit, std_hex in Q. unfold is_space_ascii.
  destruct ((48 <=? c) && (c <=? 57)) eqn:A; [lia|]. destruct ((65 <=? c) && (c <=? 70)) eqn:B; [lia|].
  destruct ((97 <=? c) && (c <=? 102)) eqn:C; [lia|discriminate].
Qed.

Lemma skip_text b body ds ws : (b = 8 \/ b = 10 \/ b = 16) -> digits_text b body ds -> forallb is_space_ascii ws = true -> skip_prefix b (body ++ ws) = body ++ ws.
Proof.
  intros Hb T W. assert (Hb' : b <= 16) by lia.
  assert (G : forall z x t, body ++ ws = z :: x :: t -> is_prefix_char b x = false).
  { intros z x t E. unfold is_prefix_char. destruct T as [c d Q|c d s ds Q T|c d s ds Q T]; cbn [app] in E.
    - injection E as _ E. destruct ws as [|y ws]; [discriminate|]. injection E as -> _. cbn [forallb] in W. unfold is_space_ascii in W. lia.
    - injection E as _ E. destruct (digits_text_head b s ds Hb' T) as (y & r & -> & e & Qe). injection E as -> _.
      pose proof (digit_plain b x e Hb' Qe). lia.
    - injection E as _ <- _. lia. }
  destruct (body ++ ws) as [|z [|x t]]; try reflexivity. cbn [skip_prefix]. rewrite (G z x t eq_refl), andb_false_r. reflexivity.
Qed.

Lemma int_literal_complete limit b s z : (b = 8 \/ b = 10 \/ b = 16) -> int_literal limit b s z ->
  forall f g s0, to_ascii_digits f g s0 = s -> py_int limit f g s0 b = Some z.
Proof.
  intros Hb L f g s0 S0. assert (Hb' : b <= 16) by lia. destruct L as [ws1 sg pre body ds ws2 W1 W2 SG P T LM].
  rewrite spaces_eq in W1, W2. unfold py_int. rewrite S0.
  assert (D : drop_while is_space_ascii (ws1 ++ sg ++ pre ++ body ++ ws2) = sg ++ pre ++ body ++ ws2).
  { apply drop_spaces; [exact W1|]. destruct (digits_text_head b body ds Hb' T) as (c & t & -> & d & Q).
    destruct (digit_plain b c d Hb' Q) as (I & _). destruct SG as [->|[->| ->]]; [|reflexivity|reflexivity].
    cbn [app]. destruct P as [->|[(_ & [->|[->|[->| ->]]])|(_ & [->|[->|[->| ->]]])]]; [exact I|reflexivity..]. }
  rewrite D.
  assert (S : take_sign (sg ++ pre ++ body ++ ws2) = (str_eqb sg $"-", pre ++ body ++ ws2)).
  { destruct (digits_text_head b body ds Hb' T) as (c & t & -> & d & Q).
    destruct (digit_plain b c d Hb' Q) as (_ & I1 & I2 & _). destruct SG as [->|[->| ->]]; [|reflexivity|reflexivity].
    cbn [app]. destruct P as [->|[(_ & [->|[->|[->| ->]]])|(_ & [->|[->|[->| ->]]])]]; [|reflexivity..].
    cbn [app take_sign]. rewrite I1, I2. reflexivity. }
  rewrite S.
  assert (K : skip_prefix b (pre ++ body ++ ws2) = body ++ ws2).
  { destruct P as [->|[(-> & P)|(-> & P)]].
    - now apply (skip_text b body ds ws2).
    - destruct (digits_text_head 16 body ds Hb' T) as (c & t & -> & d & Q).
      destruct (digit_plain 16 c d Hb' Q) as (_ & _ & _ & U & _).
      destruct P as [->|[->|[->| ->]]]; cbn; rewrite ?U; reflexivity.
    - destruct (digits_text_head 8 body ds Hb' T) as (c & t & -> & d & Q).
      destruct (digit_plain 8 c d Hb' Q) as (_ & _ & _ & U & _).
      destruct P as [->|[->|[->| ->]]]; cbn; rewrite ?U; reflexivity. }
  rewrite K.
  assert (U : match body ++ ws2 with c :: _ => c =? 95 | [] => false end = false).
  { destruct (digits_text_head b body ds Hb' T) as (c & t & -> & d & Q).
    destruct (digit_plain b c d Hb' Q) as (_ & _ & _ & U & _). exact U. }
  rewrite U. rewrite (scan_text b body ds ws2 Hb' T W2).
  assert (N0 : 0 + N.of_nat (length ds) =? 0 = false).
  { pose proof (digits_text_ne b body ds T). destruct ds; [congruence|]. cbn [length]. lia. }
  rewrite N0.
  assert (LL : (b =? 10) && match limit with Some l => l <? 0 + N.of_nat (length ds) | None => false end = false).
  { unfold within_limit in LM. destruct limit as [l|]; [|apply andb_false_r]. destruct (b =? 10) eqn:B; [|reflexivity].
    apply N.eqb_eq in B. specialize (LM B). lia. }
  rewrite LL, W2. f_equal. destruct (str_eqb sg $"-"); lia.
Qed.

Lemma str_eqb_minus : str_eqb $"-" $"-" = true. Proof. reflexivity. Qed.
Lemma int_literal_sound limit f g s0 b z : (b = 8 \/ b = 10 \/ b = 16) -> py_int limit f g s0 b = Some z ->
  int_literal limit b (to_ascii_digits f g s0) z.
Proof.
  intros Hb H. assert (Hb' : b <= 16) by lia. unfold py_int in H. set (s := to_ascii_digits f g s0) in *.
  destruct (drop_while_split' s) as (ws1 & E1 & W1). rewrite E1. remember (drop_while is_space_ascii s) as s1 eqn:Q1. clear Q1 E1.
  assert (SG : exists sg s2, s1 = sg ++ s2 /\ take_sign s1 = (str_eqb sg $"-", s2) /\ (sg = [] \/ sg = $"+" \/ sg = $"-")).
  { destruct s1 as [|c t]; [exists [], []; auto|]. cbn [take_sign]. destruct (c =? 43) eqn:A; [apply N.eqb_eq in A; subst c; exists $"+", t; auto|].
    destruct (c =? 45) eqn:B; [apply N.eqb_eq in B; subst c; exists $"-", t; auto|]. exists [], (c :: t). auto. }
  destruct SG as (sg & s2 & -> & TS & SG). rewrite TS in H.
  assert (PR : exists pre s3, s2 = pre ++ s3 /\ skip_prefix b s2 = s3 /\ base_prefix b pre).
  { unfold base_prefix. destruct s2 as [|c [|x t]]; [exists [], []; auto|exists [], [c]; auto|]. cbn [skip_prefix].
    destruct ((c =? 48) && is_prefix_char b x) eqn:A; [|exists [], (c :: x :: t); auto].
    apply andb_true_iff in A as [A1 A2]. apply N.eqb_eq in A1. subst c. unfold is_prefix_char in A2.
    assert (X : (b = 16 /\ (x = 120 \/ x = 88)) \/ (b = 8 /\ (x = 111 \/ x = 79))) by lia. clear A2 H TS.
    assert (T : exists us t', t = us ++ t' /\ (us = [] \/ us = $"_") /\ match t with u :: r => if u =? 95 then r else t | [] => t end = t').
    { destruct t as [|u r]; [exists [], []; auto|]. destruct (u =? 95) eqn:U; [apply N.eqb_eq in U; subst u; exists $"_", r; auto|exists [], (u :: r); auto]. }
    destruct T as (us & t' & -> & US & ->). exists (48 :: x :: us), t'. split; [reflexivity|]. split; [reflexivity|]. right.
    destruct X as [(-> & X)|(-> & X)]; [left|right]; (split; [reflexivity|]); destruct X as [-> | ->]; destruct US as [-> | ->]; vm_compute; auto. }
  destruct PR as (pre & s3 & -> & SK & PR). rewrite SK in H.
  destruct (match s3 with c :: _ => c =? 95 | [] => false end) eqn:U; [discriminate|].
  destruct (scan_digits b s3 false 0 0) as [[[v n] rest]|] eqn:SC; [|discriminate].
  apply (scan_inv b s3 Hb') in SC as (body & ds & -> & -> & -> & K).
  destruct (0 + N.of_nat (length ds) =? 0) eqn:N0; [discriminate|].
  assert (T : digits_text b body ds).
  { destruct K as [(_ & -> & _)|[T|(_ & body' & -> & _)]]; [discriminate N0|exact T|discriminate U]. }
  destruct ((b =? 10) && _) eqn:LM; [discriminate|]. destruct (forallb is_space_ascii rest) eqn:W2; [|discriminate].
  injection H as <-.
  assert (G : (if str_eqb sg $"-" then (- Z.of_N (fold_left (fun a d => (a * b + d)%N) ds 0%N))%Z else Z.of_N (fold_left (fun a d => a * b + d) ds 0))
    = ((if str_eqb sg $"-" then -1 else 1) * Z.of_N (fold_left (fun a d => (a * b + d)%N) ds 0%N))%Z) by (destruct (str_eqb sg $"-"); lia).
  rewrite G.
  apply int_literal_intro; rewrite ?spaces_eq; auto.
  unfold within_limit. destruct limit as [l|]; [|exact I]. intros ->. cbn [N.eqb Pos.eqb andb] in LM. lia.
Qed.

Theorem int_grammar limit f g b : (b = 8 \/ b = 10 \/ b = 16) -> forall s z,
  py_int limit f g s b = Some z <-> exists t, seen_by_int f g s t /\ int_literal limit b t z.
Proof.
  intros Hb s z. assert (SB : forall t, seen_by_int f g s t <-> t = to_ascii_digits f g s).
  { intros t. unfold seen_by_int, to_ascii_digits. now destruct (forallb (fun c => c <? 128) s). }
  split.
  - intros H. exists (to_ascii_digits f g s). split; [now apply SB|]. now apply int_literal_sound.
  - intros (t & S & L). apply SB in S. subst t. eapply int_literal_complete; eauto.
Qed.

(* ---------- the IPv4 number parser ---------- *)
Definition code_number (E : env) := int_number (int_limit E) (uni_decimal E) (uni_space E).

Lemma number_exact E p n : code_number E p n <-> fst (parse_ipv4_number E p) = Z.of_N n.
Proof.
  assert (EI : forall n b, (b = 8 \/ b = 10 \/ b = 16) -> forall s ve, fst (match e_int E s b with Some z => (z, ve) | None => ((-1)%Z, true) end) = Z.of_N n <->
     exists t, seen_by_int (uni_decimal E) (uni_space E) s t /\ int_literal (int_limit E) b t (Z.of_N n)).
  { clear n. intros n b Hb s ve. rewrite <- int_grammar by exact Hb. unfold e_int. destruct (py_int _ _ _ s b) as [z|]; cbn [fst].
    - split; congruence.
    - split; [lia|discriminate]. }
  unfold code_number, parse_ipv4_number. split.
  - intros [x X|x t r m X T S L|x t r m X1 X2 S L|c t r m C S L].
    + destruct X as [-> | ->]; reflexivity.
    + replace ((x =? 120) || (x =? 88)) with true by lia. change (48 =? 48) with true. cbv iota. destruct t as [|y t]; [congruence|].
      apply EI; [auto|]; eauto.
    + replace ((x =? 120) || (x =? 88)) with false by lia. change (48 =? 48) with true. cbv iota. apply EI; [auto|]; eauto.
    + assert (Q : match t with [] => (c :: t, 10, false) | x :: t0 => if c =? 48 then if (x =? 120) || (x =? 88) then (t0, 16, true) else (x :: t0, 8, true) else (c :: t, 10, false) end = (c :: t, 10, false)).
      { destruct t as [|y t]; [reflexivity|]. destruct C as [C|C]; [|discriminate]. now replace (c =? 48) with false by lia. }
      rewrite Q. apply EI; [auto|]; eauto.
  - destruct p as [|c t]; [intros H; cbn [fst] in H; lia|]. intros H.
    assert (Dec : fst (match e_int E (c :: t) 10 with Some z => (z, false) | None => ((-1)%Z, true) end) = Z.of_N n -> c <> 48 \/ t = [] ->
       int_number (int_limit E) (uni_decimal E) (uni_space E) (c :: t) n).
    { intros K C. apply EI in K as (r & S & L); [|auto]. eapply in_decimal; eauto. }
    destruct t as [|x t]; [apply Dec; auto|]. destruct (c =? 48) eqn:C; [|apply Dec; auto; left; lia]. apply N.eqb_eq in C. subst c.
    destruct ((x =? 120) || (x =? 88)) eqn:X.
    + destruct t as [|y t]; [cbn [fst] in H; replace n with 0 by lia; apply in_empty_hex; lia|].
      apply EI in H as (r & S & L); [|auto]. eapply in_hex; eauto; [lia|discriminate].
    + apply EI in H as (r & S & L); [|auto]. eapply in_octal; eauto; lia.
Qed.
Lemma number_fails E p : (forall n, ~ code_number E p n) <-> (fst (parse_ipv4_number E p) < 0)%Z.
Proof.
  split.
  - intros H. destruct (Z.ltb_spec (fst (parse_ipv4_number E p)) 0) as [K|K]; [exact K|]. exfalso.
    apply (H (Z.to_N (fst (parse_ipv4_number E p)))). apply number_exact. lia.
  - intros H n K. apply number_exact in K. lia.
Qed.

(** the code's number parser accepts what the standard's rejects *)
Definition odd_number (E : env) (p : str) : Prop := std_ipv4_number p = None /\ exists n, code_number E p n.

Lemma number_same E p n m ve : code_number E p n -> std_ipv4_number p = Some (m, ve) -> n = m.
Proof.
  intros H S. apply number_exact in H. unfold std_ipv4_number in S. unfold parse_ipv4_number in H.
  assert (EI : forall b s ve', (b = 8 \/ b = 10 \/ b = 16) -> s <> [] -> fst (match e_int E s b with Some z => (z, ve') | None => ((-1)%Z, true) end) = Z.of_N n ->
     match std_radix_value b s 0 with Some v => Some (v, ve') | None => None end = Some (m, ve) -> n = m).
  { intros b s ve' Hb Hs Q V. destruct (std_radix_value b s 0) as [v|] eqn:R; [|discriminate]. injection V as -> _.
    unfold e_int in Q. rewrite (py_int_digits_eq _ _ _ b s m Hb Hs R) in Q. destruct (_ && _); cbn [fst] in Q; lia. }
  destruct p as [|c t]; [discriminate|]. destruct t as [|x t]; [eapply EI; [| |exact H|exact S]; auto; discriminate|].
  destruct (c =? 48); [|eapply EI; [| |exact H|exact S]; auto; discriminate].
  destruct ((x =? 120) || (x =? 88)); [|eapply EI; [| |exact H|exact S]; auto; discriminate].
  destruct t as [|y t]; [injection S as <- _; cbn [fst] in H; lia|]. eapply EI; [| |exact H|exact S]; auto; discriminate.
Qed.

Lemma ends_exact E s : is_ends_in_a_number E s = true <-> std_ends_in_number s = true \/ odd_number E (last_label s).
Proof.
  split.
  - intros H. destruct (std_ends_in_number s) eqn:S; [now left|]. right. rewrite std_ends_eq in S. rewrite ends_eq in H. cbv zeta in *.
    set (l := last_label s) in *. destruct (negb (length l =? 0)%nat) eqn:L; cbn [andb orb] in *.
    + apply orb_false_iff in S as [S1 S2]. rewrite S1 in H. cbn [orb] in H. split.
      * destruct (std_ipv4_number l); [discriminate|reflexivity].
      * exists (Z.to_N (fst (parse_ipv4_number E l))). apply number_exact. lia.
    + destruct l as [|c t]; [|discriminate L]. cbn in H. discriminate H.
  - intros [H|(_ & n & H)]; [now apply ends_complete|]. apply number_exact in H. rewrite ends_eq. cbv zeta. apply orb_true_iff. right. lia.
Qed.
Lemma ends_same E s : ~ odd_number E (last_label s) -> is_ends_in_a_number E s = std_ends_in_number s.
Proof.
  intros H. pose proof (ends_exact E s) as X. destruct (is_ends_in_a_number E s), (std_ends_in_number s); try reflexivity.
  - destruct X as [X _]. destruct (X eq_refl) as [K|K]; [congruence|contradiction].
  - destruct X as [_ X]. apply X. now left.
Qed.

(* ---------- the IPv4 parser ---------- *)
(** the parts of an address: split at the dots, without a trailing empty part *)
Lemma numbers_exact E parts ns : snd (ipv4_numbers E parts) = Ok ns <-> Forall2 (code_number E) parts ns.
Proof.
  revert ns. induction parts as [|p t IH]; intros ns.
  - cbn. split; [intros H; injection H as <-; constructor|intros H; inversion H; reflexivity].
  - cbn [ipv4_numbers]. destruct (fst (parse_ipv4_number E p) <? 0)%Z eqn:Q.
    + split; [discriminate|]. intros H. inversion H as [|? n ? ? H1 H2]; subst. apply number_exact in H1. lia.
    + assert (G : snd ((if snd (parse_ipv4_number E p) then wlog VIPv4NonDecimal else wret tt) ~;; (ns0 <~ ipv4_numbers E t ;; wret (Z.to_N (fst (parse_ipv4_number E p)) :: ns0))) =
         match snd (ipv4_numbers E t) with Ok l => Ok (Z.to_N (fst (parse_ipv4_number E p)) :: l) | Err e => Err e end).
      { destruct (snd (parse_ipv4_number E p)); rewrite snd_wbind; cbn [wlog wret snd]; rewrite snd_wbind; destruct (snd (ipv4_numbers E t)); reflexivity. }
      rewrite G. destruct (snd (ipv4_numbers E t)) as [l|e].
      * split.
        -- intros H. injection H as <-. constructor; [apply number_exact; lia|]. now apply IH.
        -- intros H. inversion H as [|? n ? l' H1 H2]; subst. apply number_exact in H1. apply IH in H2. injection H2 as <-. rewrite H1, N2Z.id. reflexivity.
      * split; [discriminate|]. intros H. inversion H as [|? n ? l' H1 H2]; subst. apply IH in H2. discriminate.
Qed.

Lemma parts_eq s : address_parts s = drop_last_empty (split 46 s).
Proof. unfold address_parts. rewrite std_split_eq. cbv zeta. apply drop_last_eq. Qed.
Lemma parts_ne s : address_parts s <> [].
Proof.
  rewrite parts_eq. unfold drop_last_empty. pose proof (split_not_nil 46 s) as H. destruct (last (split 46 s) []) as [|c t] eqn:L; [|exact H].
  destruct (1 <? length (split 46 s))%nat eqn:Q; [|exact H]. destruct (split 46 s) as [|a [|b l]]; [discriminate|discriminate Q|discriminate].
Qed.
Lemma small_digits x : x <= 255 -> (length (digits 10 x) <= 3)%nat.
Proof.
  intros H. assert (A : forallb (fun k => (length (digits 10 (N.of_nat k)) <=? 3)%nat) (seq 0 256) = true) by (vm_compute; reflexivity).
  rewrite forallb_forall in A. specialize (A (N.to_nat x)). rewrite N2Nat.id in A. apply Nat.leb_le, A, in_seq. lia.
Qed.
Lemma repr_small E x : limit_ok E -> repr_fails E x = true -> 255 < x.
Proof.
  intros HE H. destruct (N.ltb_spec 255 x) as [K|K]; [exact K|]. exfalso. pose proof (small_digits x K). unfold repr_fails in H. unfold limit_ok in HE.
  destruct (int_limit E); [lia|discriminate].
Qed.
Lemma printable_eq E x : limit_ok E -> printable (int_limit E) x <-> repr_fails E x = false.
Proof.
  unfold printable, repr_fails, limit_ok. destruct (int_limit E) as [l|]; [|tauto]. intros HE.
  destruct (digits_spec 10 x ltac:(lia)) as (V & F & (Sn & S0) & Z). split.
  - intros H. apply N.ltb_ge. destruct (digits 10 x) as [|d t] eqn:D; [congruence|].
    destruct (N.leb_spec (N.of_nat (length (d :: t))) l) as [K|K]; [exact K|]. exfalso.
    assert (X0 : x <> 0).
    { intros ->. vm_compute in D. injection D as _ <-. cbn [length] in K. lia. }
    assert (D0 : d <> 0) by (intros ->; now apply (Z X0 t)).
    rewrite <- V, value_cons in H. cbn [length] in K.
    assert (10 ^ l <= 10 ^ N.of_nat (length t)) by (apply N.pow_le_mono_r; lia). nia.
  - intros H. apply N.ltb_ge in H. rewrite <- V. apply (N.lt_le_trans _ (10 ^ N.of_nat (length (digits 10 x)))).
    + apply value_lt; [lia|exact F].
    + apply N.pow_le_mono_r; lia.
Qed.
Lemma last_app {A} (l : list A) x d : last (l ++ [x]) d = x.
Proof. induction l as [|y l IH]; [reflexivity|]. cbn [app last]. destruct (l ++ [x]) eqn:Q; [now destruct l|exact IH]. Qed.
Lemma sum_eq lead : (length lead <= 3)%nat ->
  fold_right N.add 0 (map (fun p => snd p * 256 ^ (3 - N.of_nat (fst p))) (combine (seq 0 (length lead)) lead)) = ipv4_sum lead 3.
Proof.
  intros H. change 3 with (3 - N.of_nat 0) at 2. rewrite <- ipv4_sum_eq by lia. f_equal. f_equal.
  generalize O. revert H. generalize 3%nat. intros _ _. induction lead as [|y l IH]; intros i; [reflexivity|].
  cbn [length seq combine]. f_equal. apply IH.
Qed.

Lemma address_exact E s n : limit_ok E ->
  snd (ipv4_parse E s) = Ok n <-> int_address (int_limit E) (uni_decimal E) (uni_space E) (has_validity E) s n.
Proof.
  intros HE. split.
  - intros H. pose proof (ipv4_parse_ok E s n H) as (ns & Nn & L & Hn & -> & HL & D).
    destruct (rev_ind_inv ns) as [->|(lead & final & ->)]; [congruence|]. rewrite last_app, removelast_last in *.
    rewrite app_length in *. cbn [length] in *. rewrite <- sum_eq by lia. constructor.
    + apply numbers_exact. rewrite parts_eq. exact Hn.
    + lia.
    + exact D.
    + replace (4 - N.of_nat (length lead)) with (5 - N.of_nat (length lead + 1)) by lia. exact HL.
    + intros V. apply Forall_forall. intros x Hx. apply printable_eq; [exact HE|]. destruct (repr_fails E x) eqn:R; [|reflexivity]. exfalso.
      unfold ipv4_parse in H. rewrite snd_wbind in H.
      assert (H' : snd (if (4 <? length (drop_last_empty (split 46 s)))%nat then wfail VIPv4TooManyParts EIPv4
         else numbers <~ ipv4_numbers E (drop_last_empty (split 46 s)) ;;
          let unprintable := existsb (repr_fails E) numbers in
          let format_fails := has_validity E && unprintable in
          let lastn := last numbers 0 in
          (if existsb (fun x => 255 <? x) numbers
           then if format_fails then wfail VIPv4OutOfRangeRaised EValue else wlog VIPv4OutOfRange
           else wret tt)
          ~;;
          if existsb (fun x => 255 <? x) (removelast numbers) && (lastn <=? 255)
          then wfail VUndefined (if unprintable then EValue else EIPv4)
          else if 256 ^ (5 - N.of_nat (length numbers)) <=? lastn
          then wfail VUndefined (if unprintable then EValue else EIPv4)
          else wret (lastn + ipv4_sum (removelast numbers) 3)) = Ok (final + ipv4_sum lead 3)).
      { destruct (last (split 46 s) []); exact H. }
      clear H. destruct (4 <? _)%nat; [discriminate|]. rewrite snd_wbind, Hn in H'. cbv zeta in H'. rewrite snd_wbind in H'.
      assert (A : In x (lead ++ [final])) by (apply in_or_app; now left).
      replace (existsb (fun x => 255 <? x) (lead ++ [final])) with true in H'.
      2:{ symmetry. apply existsb_exists. exists x. split; [exact A|]. pose proof (repr_small E x HE R). lia. }
      replace (existsb (repr_fails E) (lead ++ [final])) with true in H' by (symmetry; apply existsb_exists; eauto).
      rewrite V in H'. discriminate H'.
  - intros [s' lead final P L D B PR]. rewrite sum_eq by exact L. fold (code_number E) in P. apply numbers_exact in P. rewrite parts_eq in P.
    pose proof (ipv4_numbers_len _ _ _ P) as Len. rewrite app_length in Len. cbn [length] in Len.
    unfold ipv4_parse. rewrite snd_wbind.
    assert (G : snd (if (4 <? length (drop_last_empty (split 46 s')))%nat then wfail VIPv4TooManyParts EIPv4
         else numbers <~ ipv4_numbers E (drop_last_empty (split 46 s')) ;;
          let unprintable := existsb (repr_fails E) numbers in
          let format_fails := has_validity E && unprintable in
          let lastn := last numbers 0 in
          (if existsb (fun x => 255 <? x) numbers
           then if format_fails then wfail VIPv4OutOfRangeRaised EValue else wlog VIPv4OutOfRange
           else wret tt)
          ~;;
          if existsb (fun x => 255 <? x) (removelast numbers) && (lastn <=? 255)
          then wfail VUndefined (if unprintable then EValue else EIPv4)
          else if 256 ^ (5 - N.of_nat (length numbers)) <=? lastn
          then wfail VUndefined (if unprintable then EValue else EIPv4)
          else wret (lastn + ipv4_sum (removelast numbers) 3)) = Ok (final + ipv4_sum lead 3));
      [|destruct (last (split 46 s') []); exact G].
    replace (4 <? length (drop_last_empty (split 46 s')))%nat with false by lia.
    rewrite snd_wbind, P. cbv zeta. rewrite last_app, removelast_last, app_length. cbn [length].
    assert (FF : has_validity E && existsb (repr_fails E) (lead ++ [final]) = false).
    { destruct (has_validity E); [|reflexivity]. cbn [andb]. destruct (existsb (repr_fails E) (lead ++ [final])) eqn:Q; [|reflexivity].
      exfalso. apply existsb_exists in Q as (x & Hx & Q). specialize (PR eq_refl). rewrite Forall_forall in PR. apply in_app_or in Hx as [Hx|[<-|[]]].
      - apply PR, (printable_eq E x HE) in Hx. congruence.
      - assert (K : printable (int_limit E) final).
        { unfold printable. unfold limit_ok in HE. destruct (int_limit E) as [l|]; [|exact I]. apply (N.lt_trans _ (256 ^ 5)).
          - apply (N.lt_le_trans _ _ _ B), N.pow_le_mono_r; lia.
          - apply (N.lt_le_trans _ (10 ^ 640)); [vm_compute; reflexivity|]. apply N.pow_le_mono_r; lia. }
        apply (printable_eq E final HE) in K. congruence. }
    rewrite FF.
    assert (Q1 : existsb (fun x => 255 <? x) lead && (final <=? 255) = false).
    { destruct D as [D|D]; [|replace (final <=? 255) with false by lia; apply andb_false_r].
      destruct (existsb (fun x => 255 <? x) lead) eqn:Q; [|reflexivity]. exfalso. apply existsb_exists in Q as (x & Hx & Q).
      rewrite Forall_forall in D. specialize (D x Hx). cbv beta in D. lia. }
    assert (Q2 : 256 ^ (5 - N.of_nat (length lead + 1)) <=? final = false).
    { replace (5 - N.of_nat (length lead + 1)) with (4 - N.of_nat (length lead)) by lia. lia. }
    rewrite snd_wbind, Q1, Q2. destruct (existsb (fun x => 255 <? x) (lead ++ [final])); reflexivity.
Qed.

(** where the code and the standard give different results *)
Lemma std_number_code E p : std_ipv4_number p = None -> ~ odd_number E p -> forall n, ~ code_number E p n.
Proof. intros S O n H. apply O. split; eauto. Qed.
Lemma ipv4_same E s : limit_ok E -> Forall (fun p => ~ odd_number E p) (address_parts s) ->
  (forall ns, std_ipv4_numbers (address_parts s) = Some ns -> (exists x, In x (removelast ns) /\ 255 < x) -> last ns 0 <= 255) ->
  match std_ipv4_parse s with
  | Some n => snd (ipv4_parse E s) = Ok n
  | None => exists e, snd (ipv4_parse E s) = Err e
  end.
Proof.
  intros HE R Q. rewrite parts_eq in *. destruct (std_ipv4_parse s) as [n|] eqn:S.
  - now apply ipv4_parse_complete.
  - destruct (snd (ipv4_parse E s)) as [m|e] eqn:P; [|eauto]. exfalso.
    destruct (ipv4_parse_ok E s m P) as (ns & Nn & L & Hn & -> & HL & D).
    pose proof (ipv4_numbers_len _ _ _ Hn) as Len. pose proof (proj1 (numbers_exact E _ _) Hn) as F2.
    assert (SN : std_ipv4_numbers (drop_last_empty (split 46 s)) = Some ns).
    { clear - R F2. induction F2 as [|p n ps ns H F2 IH]; [reflexivity|]. inversion R as [|? ? R1 R2]; subst. cbn [std_ipv4_numbers]. rewrite (IH R2).
      destruct (std_ipv4_number p) as [[k ve]|] eqn:S; [|exfalso; apply R1; split; eauto]. now rewrite (number_same E p n k ve H S). }
    rewrite std_ipv4_parse_eq in S. cbv zeta in S. rewrite SN in S. replace (4 <? length (drop_last_empty (split 46 s)))%nat with false in S by lia.
    specialize (Q ns SN). destruct (existsb (fun n => 255 <? n) (removelast ns)) eqn:X.
    + apply existsb_exists in X as (x & Hx & Qx). assert (last ns 0 <= 255) by (apply Q; exists x; split; auto; lia).
      destruct D as [F|D]; [|lia]. rewrite Forall_forall in F. specialize (F x Hx). cbv beta in F. lia.
    + replace (256 ^ (5 - N.of_nat (length ns)) <=? last ns 0) with false in S by lia. discriminate.
Qed.

Lemma not_odd E p : match std_ipv4_number p with Some _ => true | None => (fst (parse_ipv4_number E p) <? 0)%Z end = true -> ~ odd_number E p.
Proof.
  intros H (S & n & C). rewrite S in H. apply number_exact in C. lia.
Qed.
Lemma last_label_eq s : last (address_parts s) [] = last_label s.
Proof. now rewrite parts_eq. Qed.
Lemma ends_exact' E s : is_ends_in_a_number E s = true <-> std_ends_in_number s = true \/ odd_number E (last (address_parts s) []).
Proof. rewrite last_label_eq. apply ends_exact. Qed.

(** a literal without spaces, signs and underscores is a digit string *)
Definition plain_char (c : N) : bool := (c <? 128) && negb (int_space c) && negb (c =? 43) && negb (c =? 45) && negb (c =? 95).
Lemma digits_text_plain b s ds : digits_text b s ds -> forallb plain_char s = true -> forall acc, std_radix_value b s acc = Some (fold_left (fun a d => a * b + d) ds acc).
Proof.
  intros T. induction T as [c d Q|c d s ds Q T IH|c d s ds Q T IH]; intros P acc; cbn [forallb] in P; apply andb_true_iff in P as [P1 P2]; cbn [std_radix_value fold_left].
  - now rewrite Q.
  - rewrite Q. now apply IH.
  - apply andb_true_iff in P2 as [P2 _]. discriminate P2.
Qed.
Lemma spaces_plain ws : forallb int_space ws = true -> forallb plain_char ws = true -> ws = [].
Proof.
  destruct ws as [|c t]; [reflexivity|]. cbn [forallb]. intros A B. apply andb_true_iff in A as [A _], B as [B _]. unfold plain_char in B. rewrite A in B.
  exfalso. cbn in B. rewrite andb_false_r in B. discriminate B.
Qed.
Lemma literal_plain limit s z : int_literal limit 10 s z -> forallb plain_char s = true -> exists v, std_radix_value 10 s 0 = Some v /\ z = Z.of_N v.
Proof.
  intros [ws1 sg pre body ds ws2 W1 W2 SG P T LM] H. rewrite !forallb_app in H.
  apply andb_true_iff in H as [H1 H]. apply andb_true_iff in H as [H2 H]. apply andb_true_iff in H as [H3 H]. apply andb_true_iff in H as [H4 H5].
  rewrite (spaces_plain ws1 W1 H1), (spaces_plain ws2 W2 H5). assert (sg = []) by (destruct SG as [->|[->| ->]]; [reflexivity|discriminate H2..]). subst sg.
  assert (pre = []) by (destruct P as [->|[(X & _)|(X & _)]]; [reflexivity|discriminate X..]). subst pre. cbn [app]. rewrite app_nil_r.
  eexists. split; [now apply (digits_text_plain 10 body ds)|]. change (str_eqb [] $"-") with false. cbv iota. lia.
Qed.
