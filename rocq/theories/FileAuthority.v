(** Lemmas on the parts of an input "file://host rest" (C101). *)
From Coq Require Import Ascii String.
From Coq Require Import NArith ZArith Bool Arith Lia ZifyBool ZifyN ZifyNat List.
From Verif Require Import PyStr PyInt Codec Env HostModel UrlRecord Parser SpecText SpecHost FlatParser.
From Verif Require Import Lemmas CodecProofs QuoteProofs PyIntProofs LegacyProofs IPv4Proofs HostProofs LoopProofs FlatProofs WfProofs RoundTrip ParserProofs RefProofs PathProofs UrlProps SuffixProofs RefLaws StandardProofs AuthorityProofs.
From Verif Require Import SpecParams SpecText SpecUrl SpecReference SpecParser SpecAuthority SpecFileReference.
Import ListNotations.
Open Scope N_scope.

Lemma file_ends c : ends_authority $"file" c <-> mem c $"/\?#" = true.
Proof. rewrite ends_spec. unfold ends_for, ends_auth. change (special_scheme $"file") with true. change ($"/?#") with [47; 63; 35]. change ($"/\?#") with [47; 92; 63; 35]. cbn [mem existsb]. lia. Qed.
Lemma file_span a t : Forall (fun c => ~ ends_authority $"file" c) a -> rest_text $"file" t -> span (fun c => negb (mem c $"/\?#")) (a ++ t) = (a, t).
Proof.
  intros H T. apply span_app.
  - eapply Forall_impl; [|exact H]. cbv beta. intros c Hc. destruct (mem c $"/\?#") eqn:Q; [exfalso; apply Hc; now apply file_ends|reflexivity].
  - destruct t as [|c t]; [exact I|]. apply file_ends in T. cbv beta. now rewrite T.
Qed.
Definition file_part (E : env) (a : str) : res urlrec :=
  match a with [] => Ok file_url | _ => rbind (snd (host_parse E a false)) (fun x => Ok (set_host (Some (no_localhost x)) file_url)) end.
Lemma file_part_keeps E a w : file_part E a = Ok w -> RefLaws.keeps (new_for $"file") w.
Proof.
  unfold file_part. destruct a as [|c a]; [intros Q; injection Q as <-; repeat split|]. destruct (snd _); [|discriminate]. cbn [rbind]. intros Q. injection Q as <-. repeat split.
Qed.
Lemma file_flat E s y o enc : std_scheme s = true -> std_lower s = $"file" ->
  flat_parse E (s ++ $"://" ++ y) o enc = flat_file_host E (normalize_encoding E enc) file_url (rclean y).
Proof.
  intros H F. change (s ++ $"://" ++ y) with (s ++ 58 :: 47 :: 47 :: y). rewrite flat_scheme_input by now apply scheme_spec. rewrite vis2 by reflexivity.
  rewrite lower_std, F. reflexivity.
Qed.
Lemma file_parts_eq E s a t o enc : std_scheme s = true -> std_lower s = $"file" -> file_host_text a -> rest_text $"file" t -> std_any_drive_letter (std_strip_tabs a) = false ->
  flat_parse E (s ++ $"://" ++ a ++ t) o enc = rbind (file_part E (remove_tabs a)) (fun w => flat_path_start E (normalize_encoding E enc) w (rclean t)).
Proof.
  intros H F (A1 & A2) T D. rewrite file_flat by auto. rewrite (rclean_parts $"file") by auto. unfold flat_file_host. rewrite file_span by (now apply tabs_forall || now apply rest_rclean).
  rewrite any_drive_eq. change (remove_tabs a) with (std_strip_tabs a). rewrite D. unfold file_part. destruct (std_strip_tabs a) as [|c r]; [reflexivity|]. rewrite rbind_assoc. apply rbind_ext. reflexivity.
Qed.
Lemma file_parts E s a x t b1 b2 b3 enc enc' v : enc_ok E (normalize_encoding E enc) -> enc_ok E (normalize_encoding E enc') ->
  base_parsed E b1 -> base_parsed E b2 -> base_parsed E b3 -> usable E b1 enc -> usable E b2 enc -> usable E b3 enc' ->
  std_scheme s = true -> std_lower s = $"file" -> file_host_text a -> file_host_text x -> rest_text $"file" t ->
  std_any_drive_letter (std_strip_tabs a) = false -> std_any_drive_letter (std_strip_tabs x) = false ->
  snd (parse_url E (s ++ $"://" ++ x ++ t) b1 enc) = Ok v ->
  snd (parse_url E (s ++ $"://" ++ a ++ t) b2 enc) = on_ok (with_rest v) (snd (parse_url E (s ++ $"://" ++ a) b3 enc')).
Proof.
  intros He He' B1 B2 B3 U1 U2 U3 S F A X T DA DX.
  destruct (usable_flat E b1 enc He B1 U1) as (o1 & ->). destruct (usable_flat E b2 enc He B2 U2) as (o2 & ->). destruct (usable_flat E b3 enc' He' B3 U3) as (o3 & ->).
  pose proof (file_parts_eq E s a [] o3 enc' S F A I DA) as Q3. rewrite app_nil_r in Q3. rewrite Q3, (file_parts_eq E s a t o2 enc S F A T DA), (file_parts_eq E s x t o1 enc S F X T DX). clear Q3.
  destruct (file_part E (remove_tabs x)) as [w|] eqn:W; [|discriminate]. apply file_part_keeps in W. cbn [rbind]. rewrite (start_new E _ _ w _ W).
  destruct (flat_path_start E (normalize_encoding E enc) (new_for $"file") (rclean t)) as [z|] eqn:Z; [|discriminate]. cbn [on_ok]. intros Q. injection Q as <-.
  destruct (file_part E (remove_tabs a)) as [w'|] eqn:W'; [|reflexivity]. apply file_part_keeps in W'. cbn [rbind]. rewrite !(start_new E _ _ w' _ W'), Z. change (rclean []) with (@nil N).
  destruct (start_nil E (normalize_encoding E enc') $"file") as (y & ->). reflexivity.
Qed.
(** the host itself, against http *)
Lemma file_host_http E s s' a b1 b2 enc enc' : enc_ok E (normalize_encoding E enc) -> enc_ok E (normalize_encoding E enc') -> base_parsed E b1 -> base_parsed E b2 -> usable E b1 enc -> usable E b2 enc' ->
  std_scheme s = true -> std_lower s = $"file" -> std_scheme s' = true -> std_lower s' = $"http" -> file_host_text a -> std_strip_tabs a <> [] -> host_text (std_strip_tabs a) -> ~ In 64 a ->
  std_any_drive_letter (std_strip_tabs a) = false ->
  snd (parse_url E (s ++ $"://" ++ a) b1 enc) = on_ok file_like (snd (parse_url E (s' ++ $"://" ++ a) b2 enc')).
Proof.
  intros He He' B1 B2 U1 U2 S F S' F' A NE HT NA D.
  destruct (usable_flat E b1 enc He B1 U1) as (o1 & ->). destruct (usable_flat E b2 enc' He' B2 U2) as (o2 & ->).
  pose proof (file_parts_eq E s a [] o1 enc S F A I D) as Q1. rewrite app_nil_r in Q1. rewrite Q1. clear Q1.
  assert (AT : authority_text (std_lower s') a).
  { rewrite F'. destruct A as [A1 A2]. repeat split; [|exact A2|intros _; exact NE]. eapply Forall_impl; [|exact A1]. cbv beta. intros c Hc K. apply Hc. apply ends_spec. apply ends_spec in K. exact K. }
  pose proof (parts_eq E s' a [] o2 enc' S') as Q2. rewrite F' in Q2, AT. specialize (Q2 ltac:(vm_compute; discriminate) AT I). rewrite app_nil_r in Q2. rewrite Q2. clear Q2.
  assert (SL : split_last 64 (remove_tabs a) = None) by (apply split_last_none; apply tabs_mem; now apply mem_not_In).
  unfold auth_part. rewrite SL. change (remove_tabs a) with (std_strip_tabs a) in *. unfold host_part. pose proof (host_text_cut (std_strip_tabs a) [] HT (or_introl eq_refl)) as HC. rewrite app_nil_r in HC. rewrite HC.
  change (is_special (new_for $"http")) with true. change (is_not_special (new_for $"http")) with false. unfold file_part. change (rclean []) with (@nil N).
  destruct (std_strip_tabs a) as [|c r]; [congruence|]. cbn [length Nat.eqb andb]. destruct (snd (host_parse E (c :: r) false)) as [h|e]; [|reflexivity]. cbn [rbind].
  unfold flat_path_start. unfold flat_path. cbn [span flat_tail]. destruct h as [w| |]; try reflexivity. unfold no_localhost.
  change (is_special (set_host (Some (HStr w)) (new_for $"http"))) with true. cbv iota. cbn [on_ok]. unfold file_like. cbn [uhost set_path set_host]. destruct (str_eqb w $"localhost"); reflexivity.
Qed.
(** a drive letter in the place of the host *)
Lemma file_drive_host E s a t b1 b2 enc : enc_ok E (normalize_encoding E enc) -> base_parsed E b1 -> base_parsed E b2 -> usable E b1 enc -> usable E b2 enc ->
  std_scheme s = true -> std_lower s = $"file" -> file_host_text a -> rest_text $"file" t -> std_any_drive_letter (std_strip_tabs a) = true ->
  snd (parse_url E (s ++ $"://" ++ a ++ t) b1 enc) = snd (parse_url E (s ++ $":///" ++ a ++ t) b2 enc).
Proof.
  intros He B1 B2 U1 U2 S F (A1 & A2) T D.
  destruct (usable_flat E b1 enc He B1 U1) as (o1 & ->). destruct (usable_flat E b2 enc He B2 U2) as (o2 & ->). change (s ++ $":///" ++ a ++ t) with (s ++ $"://" ++ 47 :: a ++ t). rewrite !file_flat by auto.
  change (47 :: a ++ t) with ([47] ++ a ++ t). rewrite (rclean_app [47]) by (repeat constructor). rewrite (rclean_parts $"file") by auto. unfold flat_file_host at 1. rewrite file_span by (now apply tabs_forall || now apply rest_rclean).
  rewrite any_drive_eq. change (remove_tabs a) with (std_strip_tabs a) in *. rewrite D. cbn [app]. unfold flat_file_host. cbn [span]. change (mem 47 $"/\?#") with true. reflexivity.
Qed.
