(** Lemmas on the int/str digit limit (C108): it is without effect on short inputs. *)
From Coq Require Import Ascii String.
From Coq Require Import NArith ZArith Bool Arith Lia ZifyBool ZifyN ZifyNat List.
From Verif Require Import PyStr PyInt Codec Env HostModel UrlRecord Parser FlatParser UrlApi SpecText SpecHost SpecApi.
From Verif Require Import Lemmas CodecProofs QuoteProofs PyIntProofs IPv4Proofs IPv6Proofs HostProofs LoopProofs FlatProofs WfProofs ParserProofs UrlProps ValidityProofs.
From Verif Require StandardProofs.
From Verif Require Import SpecLimit.
Import ListNotations.
Open Scope N_scope.

Lemma drop_len p (s : str) : (length (drop_while p s) <= length s)%nat.
Proof. induction s as [|c s IH]; cbn [drop_while length]; [lia|]. destruct (p c); cbn [length]; lia. Qed.

Lemma cut_len br a : (length (fst (host_cut br a)) <= length a)%nat /\ (forall ps, snd (host_cut br a) = Some ps -> (length ps <= length a)%nat).
Proof.
  revert br. induction a as [|c a IH]; intros br; cbn [host_cut]; [split; [reflexivity|discriminate]|]. destruct ((c =? 58) && negb br); [split; [cbn; lia|]; intros ps H; injection H as <-; cbn [length]; lia|].
  specialize (IH (if c =? 91 then true else if c =? 93 then false else br)). destruct (host_cut _ a) as [h p]. cbn [fst snd length] in *. destruct IH as (I1 & I2). split; [lia|]. intros ps H. specialize (I2 ps H). lia.
Qed.
Lemma last_len x a ui hp : split_last x a = Some (ui, hp) -> (length hp <= length a)%nat.
Proof.
  revert ui hp. induction a as [|c a IH]; intros ui hp H; cbn [split_last] in H; [discriminate H|]. destruct (split_last x a) as [[p q]|]; [injection H as <- <-; specialize (IH _ _ eq_refl); cbn [length]; lia|].
  destruct (c =? x); [injection H as <- <-; cbn [length]; lia|discriminate H].
Qed.
(* ---------- a parser that only sees short texts ---------- *)
Section Cong.
Context (E F : env) (n : nat) (enc : str).
Context (HC : codec E = codec F).
Context (HH : forall h ns, (length h <= n)%nat -> snd (host_parse E h ns) = snd (host_parse F h ns)).
Context (HP : forall ps, (length ps <= n)%nat -> e_int E ps 10 = e_int F ps 10).

Lemma c_enc e : enc_of E e = enc_of F e. Proof. unfold enc_of. now rewrite HC. Qed.
Lemma c_query u r : flat_query E enc u r = flat_query F enc u r.
Proof. unfold flat_query, enc_query. now rewrite c_enc. Qed.
Lemma c_tail u t : flat_tail E enc u t = flat_tail F enc u t.
Proof. unfold flat_tail. destruct t as [|c r]; [reflexivity|]. now rewrite c_query. Qed.
Lemma c_path u r : flat_path E enc u r = flat_path F enc u r.
Proof. unfold flat_path. destruct (span _ r) as [p t]. apply c_tail. Qed.
Lemma c_path_start u r : flat_path_start E enc u r = flat_path_start F enc u r.
Proof. unfold flat_path_start. destruct r as [|c t]; now rewrite ?c_path, ?c_tail. Qed.
Lemma c_opaque u r : flat_opaque E enc u r = flat_opaque F enc u r.
Proof. unfold flat_opaque. destruct (span _ r) as [p t]. apply c_tail. Qed.
Lemma c_port sch ps : (length ps <= n)%nat -> flat_port E sch ps = flat_port F sch ps.
Proof. intros H. unfold flat_port. destruct (forallb _ ps); [|reflexivity]. destruct ps; [reflexivity|]. now rewrite HP. Qed.
Lemma rbind_ext {A B} (r : res A) (f g : A -> res B) : (forall a, f a = g a) -> rbind r f = rbind r g.
Proof. intros H. destruct r; [apply H|reflexivity]. Qed.
Lemma c_host u a t : (length a <= n)%nat -> flat_host E enc u a t = flat_host F enc u a t.
Proof.
  intros L. unfold flat_host. destruct (cut_len false a) as (L1 & L2). destruct (host_cut false a) as [h [ps|]]; cbn [fst snd] in *.
  - specialize (L2 ps eq_refl). destruct (length h =? 0)%nat; [reflexivity|]. rewrite HH by lia. apply rbind_ext. intros x. rewrite c_port by lia. apply rbind_ext. intros p. apply c_path_start.
  - destruct (_ && _); [reflexivity|]. rewrite HH by lia. apply rbind_ext. intros x. apply c_path_start.
Qed.
Lemma c_authority u r : (length r <= n)%nat -> flat_authority E enc u r = flat_authority F enc u r.
Proof.
  intros L. unfold flat_authority. pose proof (span_len (fun c => negb (ends_auth (is_special u) c)) r) as S1. destruct (span _ r) as [a t]. cbn [fst snd] in S1.
  destruct (split_last 64 a) as [[ui hp]|] eqn:Q; [|apply c_host; lia]. apply last_len in Q. destruct (length hp =? 0)%nat; [reflexivity|]. apply c_host. lia.
Qed.
Lemma c_file_host u r : (length r <= n)%nat -> flat_file_host E enc u r = flat_file_host F enc u r.
Proof.
  intros L. unfold flat_file_host. pose proof (span_len (fun c => negb (mem c $"/\?#")) r) as S1. destruct (span _ r) as [a t]. cbn [fst snd] in S1. destruct (is_windows_drive_letter a); [apply c_path|].
  destruct a as [|x a]; [apply c_path_start|]. rewrite HH by lia. apply rbind_ext. intros h. apply c_path_start.
Qed.
Lemma c_file_slash base u r : (length r <= n)%nat -> flat_file_slash E base enc u r = flat_file_slash F base enc u r.
Proof. intros L. unfold flat_file_slash. destruct r as [|c t]; [apply c_path|]. cbn [length] in L. destruct (is_slash c); [apply c_file_host; lia|apply c_path]. Qed.
Lemma c_file base r : (length r <= n)%nat -> flat_file E base enc r = flat_file F base enc r.
Proof.
  intros L. unfold flat_file. destruct r as [|c t].
  - destruct base as [b|]; [destruct (str_eqb (scheme b) $"file")|]; apply c_path.
  - cbn [length] in L. destruct (is_slash c); [apply c_file_slash; lia|]. destruct base as [b|]; [destruct (str_eqb (scheme b) $"file")|]; try apply c_path. destruct (is_qf c); [apply c_tail|apply c_path].
Qed.
Lemma c_relative_slash b u r : (length r <= n)%nat -> flat_relative_slash E b enc u r = flat_relative_slash F b enc u r.
Proof.
  intros L. unfold flat_relative_slash. destruct r as [|c t]; [apply c_path|]. cbn [length] in L. pose proof (drop_len is_slash t). destruct (is_special u && is_slash c); [apply c_authority; lia|]. destruct (c =? 47); [apply c_authority; lia|apply c_path].
Qed.
Lemma c_relative b r : (length r <= n)%nat -> flat_relative E b enc r = flat_relative F b enc r.
Proof.
  intros L. unfold flat_relative. destruct r as [|c t]; [reflexivity|]. cbn [length] in L. destruct (_ || _); [apply c_relative_slash; lia|]. destruct (is_qf c); [apply c_tail|apply c_path].
Qed.
Lemma c_scheme base sch t : (length t <= n)%nat -> flat_scheme E base enc sch t = flat_scheme F base enc sch t.
Proof.
  intros L. unfold flat_scheme. pose proof (drop_len is_slash t). destruct (str_eqb sch $"file"); [now apply c_file|]. destruct (special_scheme sch).
  - destruct base as [b|]; [destruct (_ && _); [now apply c_relative|]|]; apply c_authority; lia.
  - destruct t as [|c r]; [apply c_opaque|]. cbn [length] in *. destruct (c =? 47); [|apply c_opaque]. destruct r as [|d r]; [apply c_path|]. cbn [length] in *. destruct (d =? 47); [apply c_authority; lia|apply c_path].
Qed.
Lemma c_main base s : (length s <= n)%nat -> flat_main E base enc s = flat_main F base enc s.
Proof.
  intros L. unfold flat_main. destruct (scheme_split s) as [[sch t]|] eqn:Q.
  - apply c_scheme. unfold scheme_split in Q. destruct s as [|c s]; [discriminate Q|]. destruct (mem c ASCII_ALPHA); [|discriminate Q]. pose proof (span_len is_scheme_char s) as S1. destruct (span is_scheme_char s) as [a [|x r]]; [discriminate Q|].
    destruct (x =? 58); [|discriminate Q]. injection Q as <- <-. cbn [fst snd length] in *. lia.
  - unfold flat_no_scheme. destruct base as [b|]; [|reflexivity]. destruct (has_opaque_path b); [destruct s; reflexivity|]. destruct (str_eqb (scheme b) $"file"); [now apply c_file|now apply c_relative].
Qed.
End Cong.

(* ---------- int() ---------- *)
Lemma scan_bound b s : forall p acc cnt v c r, 2 <= b <= 16 -> scan_digits b s p acc cnt = Some (v, c, r) ->
  c <= cnt + N.of_nat (length s) /\ v < (acc + 1) * 16 ^ N.of_nat (length s).
Proof.
  induction s as [|x s IH]; intros p acc cnt v c r B H; cbn [scan_digits] in H.
  - destruct p; [discriminate H|]. injection H as <- <- <-. cbn [length N.of_nat]. rewrite N.pow_0_r. lia.
  - replace (N.of_nat (length (x :: s))) with (N.of_nat (length s) + 1) by (cbn [length]; lia). rewrite N.pow_add_r, N.pow_1_r. assert (P : 1 <= 16 ^ N.of_nat (length s)) by (pose proof (N.pow_nonzero 16 (N.of_nat (length s)) ltac:(lia)); lia).
    set (q := 16 ^ N.of_nat (length s)) in *.
    assert (D : v = acc /\ c = cnt -> c <= cnt + (N.of_nat (length s) + 1) /\ v < (acc + 1) * (q * 16)) by (intros (-> & ->); split; [lia|nia]).
    destruct (x =? 95).
    + destruct p; [discriminate H|]. apply IH in H; [|exact B]. fold q in H. destruct H. split; [lia|nia].
    + destruct (digit_val x) as [d|]; [destruct (d <? b) eqn:Q|].
      * apply IH in H; [|exact B]. fold q in H. destruct H as (H1 & H2). split; [lia|]. eapply N.lt_le_trans; [exact H2|]. replace ((acc + 1) * (q * 16)) with (((acc + 1) * 16) * q) by lia. apply N.mul_le_mono_r. nia.
      * destruct p; [discriminate H|]. injection H as <- <- <-. apply D. auto.
      * destruct p; [discriminate H|]. injection H as <- <- <-. apply D. auto.
Qed.
Lemma sign_len s : (length (snd (take_sign s)) <= length s)%nat.
Proof. destruct s as [|c s]; [reflexivity|]. cbn [take_sign]. destruct (c =? 43); [cbn; lia|]. destruct (c =? 45); cbn [snd length]; lia. Qed.
Lemma prefix_len b s : (length (skip_prefix b s) <= length s)%nat.
Proof. destruct s as [|z [|x t]]; try (cbn; lia). cbn [skip_prefix]. destruct (_ && _); [|lia]. destruct t as [|u t]; [cbn; lia|]. destruct (u =? 95); cbn [length]; lia. Qed.
Lemma ascii_len ud us s : length (to_ascii_digits ud us s) = length s.
Proof. unfold to_ascii_digits. destruct (forallb _ s); [reflexivity|apply map_length]. Qed.
Lemma int_value E s b z : 2 <= b <= 16 -> e_int E s b = Some z -> Z.to_N z < 16 ^ N.of_nat (length s).
Proof.
  intros B. unfold e_int, py_int. pose proof (drop_len is_space_ascii (to_ascii_digits (uni_decimal E) (uni_space E) s)) as L1. rewrite ascii_len in L1. set (s1 := drop_while _ _) in *.
  pose proof (sign_len s1) as L2. destruct (take_sign s1) as [ng s2]. cbn [snd] in L2. pose proof (prefix_len b s2) as L3. set (s3 := skip_prefix b s2) in *. destruct (match s3 with c :: _ => c =? 95 | [] => false end); [discriminate|].
  destruct (scan_digits b s3 false 0 0) as [[[v c] r]|] eqn:Q; [|discriminate]. destruct (c =? 0); [discriminate|]. destruct (_ && _); [discriminate|]. destruct (forallb _ r); [|discriminate]. intros H. injection H as <-.
  apply scan_bound in Q as (_ & Q); [|exact B]. eapply N.le_lt_trans with (m := v); [destruct ng; lia|]. eapply N.lt_le_trans; [exact Q|]. rewrite N.add_0_l, N.mul_1_l. apply N.pow_le_mono_r; lia.
Qed.

Lemma parts_len d p : In p (split 46 d) -> (length p <= length d)%nat.
Proof.
  intros H. rewrite <- (join_split 46 d). set (ps := split 46 d) in *. clearbody ps. induction ps as [|a ps IH]; [destruct H|]. destruct ps as [|b ps].
  - destruct H as [->|[]]. reflexivity.
  - change (join [46] (a :: b :: ps)) with (a ++ [46] ++ join [46] (b :: ps)). rewrite !app_length. destruct H as [->|H]; [lia|]. specialize (IH H). cbn [length]. lia.
Qed.
Lemma last_in (ps : list str) : ps <> [] -> In (last ps []) ps.
Proof. intros H. rewrite (app_removelast_last [] H) at 2. apply in_or_app. right. now left. Qed.
Lemma removelast_in (ps : list str) x : In x (removelast ps) -> In x ps.
Proof. intros H. destruct ps as [|a ps]; [destruct H|]. rewrite (app_removelast_last (l := a :: ps) [] ltac:(discriminate)). apply in_or_app. now left. Qed.
Section Limit.
Context (E : env) (l : N) (HL : int_limit E = Some l).
Notation F := (unlimited E).
Lemma int_short s b : N.of_nat (length s) <= l -> 2 <= b <= 16 -> e_int E s b = e_int F s b.
Proof.
  intros L B. unfold e_int, py_int. change (uni_decimal F) with (uni_decimal E). change (uni_space F) with (uni_space E). change (int_limit F) with (@None N). rewrite HL.
  pose proof (drop_len is_space_ascii (to_ascii_digits (uni_decimal E) (uni_space E) s)) as L1. rewrite ascii_len in L1. set (s1 := drop_while _ _) in *.
  pose proof (sign_len s1) as L2. destruct (take_sign s1) as [ng s2]. cbn [snd] in L2. pose proof (prefix_len b s2) as L3. set (s3 := skip_prefix b s2) in *. destruct (match s3 with c :: _ => c =? 95 | [] => false end); [reflexivity|].
  destruct (scan_digits b s3 false 0 0) as [[[v c] r]|] eqn:Q; [|reflexivity]. destruct (c =? 0); [reflexivity|]. apply scan_bound in Q as (Q & _); [|exact B]. replace (l <? c) with false by lia. now rewrite andb_false_r.
Qed.
Lemma number_short p : N.of_nat (length p) <= l -> parse_ipv4_number E p = parse_ipv4_number F p /\ Z.to_N (fst (parse_ipv4_number F p)) < 16 ^ N.of_nat (length p).
Proof.
  intros L. unfold parse_ipv4_number. destruct p as [|z t]; [split; reflexivity|].
  assert (G : forall rest r ve, (length rest <= length (z :: t))%nat -> 2 <= r <= 16 ->
    match rest with [] => (0%Z, true) | _ => match e_int E rest r with Some z => (z, ve) | None => ((-1)%Z, true) end end =
    match rest with [] => (0%Z, true) | _ => match e_int F rest r with Some z => (z, ve) | None => ((-1)%Z, true) end end /\
    Z.to_N (fst (match rest with [] => (0%Z, true) | _ => match e_int F rest r with Some z => (z, ve) | None => ((-1)%Z, true) end end)) < 16 ^ N.of_nat (length (z :: t))).
  { intros rest r ve H B. rewrite int_short by (try exact B; lia). split; [reflexivity|]. assert (P0 : 0 < 16 ^ N.of_nat (length (z :: t))) by (pose proof (N.pow_nonzero 16 (N.of_nat (length (z :: t))) ltac:(lia)); lia).
    destruct rest as [|x rest]; [exact P0|]. destruct (e_int F (x :: rest) r) as [v|] eqn:Q; [|exact P0]. apply int_value in Q; [|exact B]. cbn [fst]. eapply N.lt_le_trans; [exact Q|]. apply N.pow_le_mono_r; lia. }
  destruct t as [|x t]; [exact (G [z] 10 false ltac:(reflexivity) ltac:(lia))|]. destruct (z =? 48); [|exact (G (z :: x :: t) 10 false ltac:(reflexivity) ltac:(lia))].
  destruct ((x =? 120) || (x =? 88)); [exact (G t 16 true ltac:(cbn [length]; lia) ltac:(lia))|exact (G (x :: t) 8 true ltac:(cbn [length]; lia) ltac:(lia))].
Qed.
Lemma numbers_short ps : Forall (fun p => N.of_nat (length p) <= l) ps -> ipv4_numbers E ps = ipv4_numbers F ps /\
  forall ns, snd (ipv4_numbers F ps) = Ok ns -> Forall2 (fun n p => n < 16 ^ N.of_nat (length p)) ns ps.
Proof.
  induction 1 as [|p ps Hp Hps (IH1 & IH2)]; [split; [reflexivity|]; intros ns H; injection H as <-; constructor|]. cbn [ipv4_numbers]. destruct (number_short p Hp) as (Q & V). rewrite Q, IH1. split; [reflexivity|].
  intros ns H. destruct (fst (parse_ipv4_number F p) <? 0)%Z; [discriminate H|]. rewrite snd_wbind in H. destruct (snd (parse_ipv4_number F p)); cbn [wlog wret snd fst] in H; rewrite snd_wbind in H;
  destruct (snd (ipv4_numbers F ps)) as [ms|]; try discriminate H; cbn [wret snd] in H; injection H as <-; constructor; auto.
Qed.
Lemma pow_small k : 5 * k <= 4 * l -> 16 ^ k <= 10 ^ l.
Proof.
  intros H. destruct (N.eq_dec k 0) as [->|NZ]; [rewrite N.pow_0_r; pose proof (N.pow_nonzero 10 l ltac:(lia)); lia|].
  apply (N.pow_le_mono_l_iff _ _ 4); [lia|]. rewrite <- !N.pow_mul_r. rewrite (N.mul_comm k 4), (N.mul_comm l 4). apply N.le_trans with (10 ^ (5 * k)); [|apply N.pow_le_mono_r; lia]. rewrite !N.pow_mul_r. apply N.pow_le_mono_l. change (16 ^ 4) with 65536. change (10 ^ 5) with 100000. lia.
Qed.
Lemma repr_short n : n < 10 ^ l -> 0 < l -> repr_fails E n = false.
Proof.
  intros H L. unfold repr_fails. rewrite HL. pose proof (digits_len 10 n (N.to_nat l) ltac:(lia)) as D. rewrite N2Nat.id in D. specialize (D H ltac:(lia)). lia.
Qed.
Lemma ends_short d : N.of_nat (length d) <= l -> is_ends_in_a_number E d = is_ends_in_a_number F d.
Proof.
  intros L. unfold is_ends_in_a_number. assert (G : forall ps, (forall p, In p ps -> In p (split 46 d)) -> ps <> [] -> parse_ipv4_number E (last ps []) = parse_ipv4_number F (last ps [])).
  { intros ps H N0. apply number_short. pose proof (parts_len d _ (H _ (last_in ps N0))). lia. }
  destruct (last (split 46 d) []) as [|c t] eqn:Q.
  - destruct (length (split 46 d) =? 1)%nat eqn:K; [reflexivity|]. rewrite G; [reflexivity|apply removelast_in|]. pose proof (split_not_nil 46 d) as NN. intros R. destruct (split 46 d) as [|a [|b m]]; [now apply NN|discriminate K|]. destruct m; discriminate R.
  - specialize (G (split 46 d) ltac:(auto) ltac:(apply split_not_nil)). rewrite Q in G. now rewrite G.
Qed.
Lemma ipv4_short d : 5 * N.of_nat (length d) <= 4 * l -> ipv4_parse E d = ipv4_parse F d.
Proof.
  intros L. unfold ipv4_parse. change (has_validity F) with (has_validity E).
  assert (S0 : forall p, In p (drop_last_empty (split 46 d)) -> (length p <= length d)%nat).
  { intros p Hp. apply parts_len. unfold drop_last_empty in Hp. destruct (last _ _); [|exact Hp]. destruct (1 <? _)%nat; [now apply removelast_in|exact Hp]. }
  set (ps := drop_last_empty (split 46 d)) in *. destruct (4 <? length ps)%nat; [reflexivity|].
  assert (S1 : Forall (fun p => N.of_nat (length p) <= l) ps) by (apply Forall_forall; intros p Hp; specialize (S0 p Hp); lia).
  destruct (numbers_short ps S1) as (Q & V). rewrite Q.
  assert (R : forall ns, snd (ipv4_numbers F ps) = Ok ns -> existsb (repr_fails E) ns = existsb (repr_fails F) ns).
  { intros ns H. specialize (V ns H). assert (K : forall x, In x ns -> repr_fails E x = false).
    { intros x Hx. assert (W : exists p, In p ps /\ x < 16 ^ N.of_nat (length p)). { clear -V Hx. induction V as [|a b la lb V0 V1 IH]; [destruct Hx|]. destruct Hx as [->|Hx]; [exists b; split; [now left|exact V0]|]. destruct (IH Hx) as (p & P1 & P2). exists p. split; [now right|exact P2]. }
      destruct W as (p & P1 & P2). specialize (S0 p P1). destruct (N.eq_dec (N.of_nat (length p)) 0) as [Z0|NZ].
      - rewrite Z0, N.pow_0_r in P2. replace x with 0 by lia. unfold repr_fails. rewrite HL. destruct (N.eq_dec l 0) as [L0|L0]; [|change (length (digits 10 0)) with 1%nat; lia].
        exfalso. assert (D0 : length d = 0%nat) by lia. destruct d; [|discriminate D0]. clear -Hx V H. cbn in H. discriminate H.
      - apply repr_short; [|lia]. eapply N.lt_le_trans; [exact P2|]. apply pow_small. lia. }
    transitivity false; [apply existsb_false; exact K|]. symmetry. apply existsb_false. reflexivity. }
  destruct (ipv4_numbers F ps) as [lg [ns|e]]; cbn [snd] in R; [|reflexivity]. specialize (R ns eq_refl). unfold wbind at 2 4. rewrite R. reflexivity.
Qed.
Lemma ints_short ps : Forall (fun p => N.of_nat (length p) <= l) ps -> ints E ps = ints F ps.
Proof. induction 1 as [|p ps Hp F0 IH]; [reflexivity|]. cbn [ints]. now rewrite int_short, IH by (try exact Hp; lia). Qed.
Lemma piece_short c st : N.of_nat (length (v6_piece st)) <= l -> ipv6_piece E c st = ipv6_piece F c st.
Proof.
  intros L. unfold ipv6_piece. rewrite int_short by (try exact L; lia). rewrite ints_short; [reflexivity|]. apply Forall_forall. intros p Hp. pose proof (parts_len _ p Hp). lia.
Qed.
Lemma piece_new c st r : snd (ipv6_piece F c st) = Ok r -> v6_piece r = [].
Proof.
  unfold ipv6_piece. destruct (negb (mem 46 (v6_piece st))).
  - destruct (_ || _); [discriminate|]. rewrite snd_wbind. destruct (snd (of_opt EValue _)); [|discriminate]. rewrite snd_wbind. destruct (snd (of_opt EIndex _)); [|discriminate]. intros H. injection H as <-. reflexivity.
  - destruct (6 <? v6_index st)%nat; [discriminate|]. destruct (_ || _); [discriminate|]. rewrite snd_wbind. destruct (snd (of_opt EValue _)); [|discriminate]. destruct (existsb _ a); [discriminate|]. destruct (_ <? 4)%nat; [discriminate|].
    rewrite snd_wbind. destruct (snd (of_opt EIndex _)); [|discriminate]. rewrite snd_wbind. destruct (snd (of_opt EIndex _)); [|discriminate]. intros H. injection H as <-. reflexivity.
Qed.
Lemma sep_short c st : N.of_nat (length (v6_piece st)) <= l -> ipv6_sep E c st = ipv6_sep F c st.
Proof. intros L. unfold ipv6_sep. now rewrite piece_short. Qed.
Lemma sep_new c st r : snd (ipv6_sep F c st) = Ok r -> (length (v6_piece (fst r)) <= length (v6_piece st))%nat.
Proof.
  unfold ipv6_sep. destruct (_ && isc c 58). { destruct (v6_compress st); [discriminate|]. intros H. injection H as <-. reflexivity. }
  destruct (_ && iseof c). { destruct (v6_compress st); [|discriminate]. destruct (_ =? _)%nat; [|discriminate]. intros H. injection H as <-. reflexivity. }
  destruct (v6_piece st) eqn:P; [intros H; injection H as <-; reflexivity|]. rewrite snd_wbind. destruct (snd (ipv6_piece F c st)) as [r'|] eqn:Q; [|discriminate]. intros H. injection H as <-. apply piece_new in Q. cbn [fst]. rewrite Q. cbn [length]. lia.
Qed.
Lemma v6_short : forall rest st, N.of_nat (length rest + length (v6_piece st)) <= l -> ipv6_loop E rest st = ipv6_loop F rest st.
Proof.
  induction rest as [|c t IH]; intros st L; cbn [ipv6_loop]; (destruct (8 <=? v6_index st)%nat; [reflexivity|]).
  - now rewrite sep_short by (cbn [length] in L; lia).
  - cbn [length] in L. destruct (negb (c =? 58)); [apply IH; cbn [v6_piece]; rewrite app_length; cbn [length]; lia|]. rewrite sep_short by lia.
    destruct (ipv6_sep F (Some c) st) as [lg [r|e]] eqn:Q; [|reflexivity]. unfold wbind. rewrite IH; [reflexivity|]. pose proof (sep_new (Some c) st r) as K. rewrite Q in K. specialize (K eq_refl). lia.
Qed.
Lemma ipv6_short s : N.of_nat (length s) <= l -> snd (ipv6_parse E s) = snd (ipv6_parse F s).
Proof.
  intros L. rewrite !ipv6_parse_eq. pose proof (skipn_length 2 s) as K. rewrite !v6_short by (unfold v6st; cbn [v6_piece length]; lia). reflexivity.
Qed.
Lemma host_short h ns : N.of_nat (length h) <= l -> short_domains E l h -> snd (host_parse E h ns) = snd (host_parse F h ns).
Proof.
  intros L D. destruct h as [|c t]; [reflexivity|]. rewrite !host_parse_eq by discriminate. destruct (starts_with [91] (c :: t)).
  - destruct (ends_with_char _ _); [|reflexivity]. rewrite ipv6_short; [reflexivity|]. cbn [tl]. destruct t as [|x t]; [cbn; lia|]. pose proof (removelast_length (x :: t)) as R. specialize (R ltac:(discriminate)). cbn [length] in *. lia.
  - destruct ns; [reflexivity|]. change (domain_to_ascii F false) with (domain_to_ascii E false). destruct (snd (domain_to_ascii E false _)) as [d|] eqn:Q; [|reflexivity]. destruct (existsb _ d); [reflexivity|].
    specialize (D d Q). rewrite ends_short by lia. now rewrite ipv4_short.
Qed.
End Limit.

(* ---------- parse_url ---------- *)
Lemma unlimited_none E : int_limit E = None -> unlimited E = E.
Proof. destruct E. cbn. intros ->. reflexivity. Qed.
Lemma unlimited_validity E b : unlimited (with_validity E b) = with_validity (unlimited E) b.
Proof. reflexivity. Qed.
Lemma short_validity E b s : short_input E s -> short_input (with_validity E b) s.
Proof. exact (fun H => H). Qed.
Lemma new_short E s base enc : short_input E s -> base_ok base -> snd (parse_new E s base enc) = snd (parse_new (unlimited E) s base enc).
Proof.
  intros H B. unfold short_input in H. destruct (int_limit E) as [l|] eqn:L; [|now rewrite unlimited_none]. destruct H as (H1 & H2).
  rewrite !parse_new_flat by exact B. unfold flat_parse. change (normalize_encoding (unlimited E) enc) with (normalize_encoding E enc).
  apply (c_main E (unlimited E) (length s)); [reflexivity| | |].
  - intros h ns Hh. apply (host_short E l L); [lia|now apply H2].
  - intros ps Hp. apply (int_short E l L); lia.
  - apply StandardProofs.clean_len.
Qed.
Lemma url_short E s base enc : enc_ok E (normalize_encoding E enc) -> base_arg_ok base -> short_input E s -> base_short E base ->
  snd (parse_url E s base enc) = snd (parse_url (unlimited E) s base enc).
Proof.
  intros He B H HB. destruct base as [|t|b].
  - rewrite !parse_url_none. now apply new_short.
  - rewrite !parse_url_str. rewrite <- (new_short E t None enc HB I). destruct (snd (parse_new E t None enc)) as [u|] eqn:Q; [|reflexivity]. apply new_short; [exact H|]. eapply wf_base_ok. eapply (parse_new_wf E t None enc u); eauto. exact I.
  - rewrite !parse_url_rec. now apply new_short.
Qed.
Lemma url_short_error E s base enc e : enc_ok E (normalize_encoding E enc) -> is_pystr s -> base_arg_ok base -> short_input E s -> base_short E base ->
  snd (parse_url E s base enc) = Err e -> is_url_error e = true.
Proof.
  intros He Hs B H HB Q. rewrite url_short in Q by assumption. destruct (parse_url_err (unlimited E) s base enc He Hs B e Q) as [X|[_ X]]; [exact X|]. now destruct X.
Qed.
Lemma can_short E s base : base_arg_ok base -> short_input E s -> base_short E base -> can_parse E s base = can_parse (unlimited E) s base /\ url_new E s base = url_new (unlimited E) s base.
Proof.
  intros B H HB. unfold can_parse, url_new. rewrite <- !unlimited_validity. split; (rewrite <- url_short; [reflexivity|apply enc_utf8|exact B|exact H|]); destruct base; exact HB || exact I.
Qed.
Lemma can_short_iff E s base : is_pystr s -> base_arg_ok base -> short_input E s -> base_short E base ->
  (can_parse E s base = Ok true <-> exists o, url_new E s base = Ok o) /\ (can_parse E s base = Ok false <-> exists e, url_new E s base = Err e).
Proof.
  intros Hs B H HB. destruct (can_short E s base B H HB) as (-> & ->). destruct (can_parse_agrees (unlimited E) s base Hs B) as (P1 & P2 & P3 & P4).
  assert (X : int_limit (unlimited E) = None) by reflexivity. split; split; auto.
  - intros (o & Ho). destruct (P3 o Ho) as [Y|[_ Y]]; [exact Y|congruence].
  - intros Y. destruct (P2 Y) as (e & Z0 & _). eauto.
  - intros (e & Ho). destruct (P4 e Ho) as [Y|[_ Y]]; [exact Y|congruence].
Qed.

(* ---------- lengths of decoded texts (for the examples) ---------- *)
Lemma decode_len b : (length (utf8_decode b) <= length b)%nat.
Proof.
  assert (G : forall n b, (length b <= n)%nat -> (length (utf8_decode b) <= length b)%nat); [|now apply (G (length b))]. clear b. induction n as [|n IH]; intros b Hn; (destruct b as [|b0 t]; [cbn; lia|]); cbn [length] in Hn; [lia|]. cbn [utf8_decode].
  assert (K : forall x, (length (x :: utf8_decode t) <= length (b0 :: t))%nat) by (intros x; cbn [length]; specialize (IH t); lia).
  destruct (b0 <? 128); [apply K|]. destruct (b0 <? 194); [apply K|].
  destruct t as [|b1 t1]; [destruct (b0 <? 224), (b0 <? 240), (b0 <? 245); cbn; lia|]. assert (K1 : forall x, (length (x :: utf8_decode t1) <= length (b0 :: b1 :: t1))%nat) by (intros x; cbn [length] in *; specialize (IH t1); lia).
  destruct (b0 <? 224); [destruct (is_cont b1); [apply K1|apply K]|].
  destruct t1 as [|b2 t2]; [destruct (b0 <? 240), (b0 <? 245), (ok2_of3 b0 b1), (ok2_of4 b0 b1); first [apply K|cbn; lia]|]. assert (K2 : forall x, (length (x :: utf8_decode t2) <= length (b0 :: b1 :: b2 :: t2))%nat) by (intros x; cbn [length] in *; specialize (IH t2); lia).
  destruct (b0 <? 240); [destruct (ok2_of3 b0 b1); [|apply K]; destruct (is_cont b2); [apply K2|apply K1]|].
  destruct (b0 <? 245); [|apply K]. destruct (ok2_of4 b0 b1); [|apply K]. destruct (is_cont b2); [|apply K1]. destruct t2 as [|b3 t3]; [cbn; lia|]. destruct (is_cont b3); [|apply K2]. cbn [length] in *. specialize (IH t3). lia.
Qed.
Lemma percent_len b : (length (percent_decode b) <= length b)%nat.
Proof.
  unfold percent_decode. rewrite <- (join_split 37 b) at 2. destruct (split 37 b) as [|f items]; [cbn; lia|].
  assert (U : forall i, (length (unquote_item i) <= S (length i))%nat). { intros i. unfold unquote_item. destruct i as [|x [|y t]]; try (cbn; lia). destruct (hex_val x), (hex_val y); cbn [length]; lia. }
  revert f. induction items as [|i items IH]; intros f; [cbn [map concat join]; rewrite app_nil_r; lia|]. change (join [37] (f :: i :: items)) with (f ++ [37] ++ join [37] (i :: items)). cbn [map concat]. rewrite !app_length. specialize (IH i). rewrite app_length in IH. specialize (U i). cbn [length]. lia.
Qed.
Lemma usv_len s : (length (usv s) <= 2 * length s)%nat.
Proof.
  unfold usv. assert (A : forall n us, (length us <= n)%nat -> (length (of_utf16 us) <= length us)%nat).
  { induction n as [|n IH]; intros us H; (destruct us as [|x t]; [cbn; lia|]); cbn [length] in H; [lia|]. cbn [of_utf16]. pose proof (IH t ltac:(lia)).
    destruct (is_high x); [|destruct (is_low x); cbn [length]; lia]. destruct t as [|y t]; [cbn; lia|]. destruct (is_low y); [pose proof (IH t ltac:(cbn [length] in H; lia))|]; cbn [length] in *; lia. }
  eapply Nat.le_trans; [apply (A _ _ (le_n _))|]. induction s as [|c s IH]; [cbn; lia|]. unfold to_utf16 in *. cbn [flat_map length]. rewrite app_length. unfold utf16_units at 1. destruct (c <? 65536); cbn [length]; lia.
Qed.
Lemma encode_len s : (length (utf8_encode s) <= 8 * length s)%nat.
Proof.
  unfold utf8_encode. assert (G : forall t b, encode_all utf8_enc1 t = Some b -> (length b <= 4 * length t)%nat).
  { induction t as [|c t IH]; intros b H; cbn [encode_all] in H; [injection H as <-; cbn; lia|]. destruct (utf8_enc1 c) as [x|] eqn:Q; [|discriminate H]. destruct (encode_all utf8_enc1 t) as [y|]; [|discriminate H]. injection H as <-. specialize (IH y eq_refl). rewrite app_length. cbn [length].
    assert (K : (length x <= 4)%nat). { unfold utf8_enc1 in Q. destruct (is_surrogate c); [discriminate Q|]. destruct (c <? 128); [injection Q as <-; cbn; lia|]. destruct (c <? 2048); [injection Q as <-; cbn; lia|]. destruct (c <? 65536); injection Q as <-; cbn; lia. } lia. }
  destruct (encode_all utf8_enc1 (usv s)) as [b|] eqn:Q; [|cbn; lia]. apply G in Q. pose proof (usv_len s). lia.
Qed.
