(** Lemmas on the parts of an input "scheme://authority rest" (C101 - C103). *)
From Coq Require Import Ascii String.
From Coq Require Import NArith ZArith Bool Arith Lia ZifyBool ZifyN ZifyNat List.
From Verif Require Import PyStr PyInt Codec Env HostModel UrlRecord Parser SpecText SpecHost FlatParser.
From Verif Require Import Lemmas CodecProofs QuoteProofs PyIntProofs LegacyProofs IPv4Proofs HostProofs LoopProofs FlatProofs WfProofs RoundTrip ParserProofs RefProofs PathProofs UrlProps SuffixProofs RefLaws.
From Verif Require StandardProofs.
From Verif Require Import SpecParams SpecText SpecUrl SpecReference SpecParser SpecAuthority.
Import ListNotations.
Open Scope N_scope.

Definition ends_for (sch : str) (c : N) : bool := ends_auth (special_scheme sch) c.
Lemma ends_spec sch c : ends_authority sch c <-> ends_for sch c = true.
Proof.
  unfold ends_authority, ends_for, std_slash, ends_auth. change ($"/?#") with [47; 63; 35]. cbn [mem existsb]. rewrite <- special_spec. destruct (special_scheme sch).
  - split; [intros [[H|[_ H]]|[H|H]]; lia|]. intros H. apply orb_true_iff in H as [H|H]; [lia|]. cbn [andb] in H. left. right. split; [reflexivity|lia].
  - split; [intros [[H|[H _]]|[H|H]]; [lia|discriminate H|lia|lia]|]. cbn [andb]. lia.
Qed.
Lemma ends_c0 sch c : ends_for sch c = true -> is_c0_space c = false.
Proof. unfold ends_for, ends_auth. change ($"/?#") with [47; 63; 35]. cbn [mem existsb]. unfold is_c0_space. destruct (special_scheme sch); lia. Qed.
Lemma ends_slash sch c : ends_for sch c = false -> special_scheme sch = true -> is_slash c = false.
Proof. unfold ends_for, ends_auth. intros H S. rewrite S in H. rewrite slash_eq. change ($"/?#") with [47; 63; 35] in H. cbn [mem existsb] in H. lia. Qed.
Lemma strip_tabs_eq s : remove_tabs s = std_strip_tabs s. Proof. reflexivity. Qed.
Lemma rclean_parts sch a t : std_rstrip a = a -> rest_text sch t -> rclean (a ++ t) = remove_tabs a ++ rclean t.
Proof.
  intros R T. destruct t as [|c t].
  - rewrite app_nil_r. unfold rclean at 1. rewrite rstrip_std, R. change (rclean []) with (@nil N). now rewrite app_nil_r.
  - apply ends_spec in T. assert (C : is_c0_space c = false) by now apply (ends_c0 sch). rewrite rclean_mid by exact C. f_equal. symmetry. apply (rclean_app [c] t). repeat constructor. exact C.
Qed.
Lemma rest_rclean sch t : rest_text sch t -> rest_text sch (rclean t).
Proof.
  destruct t as [|c t]; [auto|]. cbn [rest_text]. intros H. pose proof H as H'. apply ends_spec in H'. change (c :: t) with ([c] ++ t). rewrite rclean_app; [exact H|]. repeat constructor. now apply (ends_c0 sch).
Qed.

(** the parser on such an input *)
Definition new_for (sch : str) : urlrec := set_scheme sch new_url.
Lemma parts_flat E s a t o enc : std_scheme s = true -> std_lower s <> $"file" -> authority_text (std_lower s) a -> rest_text (std_lower s) t ->
  flat_parse E (s ++ $"://" ++ a ++ t) o enc = flat_authority E (normalize_encoding E enc) (new_for (std_lower s)) (remove_tabs a ++ rclean t).
Proof.
  intros H NF (A1 & A2 & A3) T. change (s ++ $"://" ++ a ++ t) with (s ++ 58 :: 47 :: 47 :: a ++ t). rewrite flat_scheme_input by now apply scheme_spec. rewrite vis2 by reflexivity.
  rewrite lower_std. rewrite (rclean_parts (std_lower s)) by auto. set (x := remove_tabs a ++ rclean t). unfold flat_scheme. cbv zeta. destruct (str_eqb (std_lower s) $"file") eqn:F; [apply str_eqb_eq in F; contradiction|].
  destruct (special_scheme (std_lower s)) eqn:S; [|reflexivity].
  assert (DW : drop_while is_slash (47 :: 47 :: x) = x).
  { rewrite drop_slash2. apply drop_while_stop. subst x. specialize (A3 (proj1 (special_spec _) S)). rewrite <- strip_tabs_eq in A3. destruct (remove_tabs a) as [|c a'] eqn:Q; [congruence|]. cbn [app].
    assert (I : In c a). { assert (In c (remove_tabs a)) by (rewrite Q; now left). unfold remove_tabs in H0. apply filter_In in H0. apply H0. }
    rewrite Forall_forall in A1. specialize (A1 c I). apply (ends_slash (std_lower s)); [|exact S]. destruct (ends_for (std_lower s) c) eqn:X; [exfalso; apply A1; now apply ends_spec|reflexivity]. }
  rewrite DW. change (starts_with $"//" (47 :: 47 :: x)) with true. destruct o as [b|]; [|reflexivity]. now rewrite andb_false_r.
Qed.
(** host and port; [None]: there is none *)
Definition host_part (E : env) (u : urlrec) (hp : str) : res urlrec :=
  match host_cut false hp with
  | (h, None) => if is_special u && (length h =? 0)%nat then Err EURLParse else rbind (snd (host_parse E h (is_not_special u))) (fun y => Ok (set_host (Some y) u))
  | (h, Some ps) => if (length h =? 0)%nat then Err EURLParse
      else rbind (snd (host_parse E h (is_not_special u))) (fun y => rbind (flat_port E (scheme u) ps) (fun p => Ok (set_port p (set_host (Some y) u))))
  end.
Lemma host_part_eq E en u hp t : flat_host E en u hp t = rbind (host_part E u hp) (fun w => flat_path_start E en w t).
Proof.
  unfold flat_host, host_part. destruct (host_cut false hp) as [h [ps|]].
  - destruct (length h =? 0)%nat; [reflexivity|]. rewrite rbind_assoc. apply rbind_ext. intros y. rewrite rbind_assoc. apply rbind_ext. reflexivity.
  - destruct (_ && _); [reflexivity|]. rewrite rbind_assoc. apply rbind_ext. reflexivity.
Qed.
Lemma host_part_keeps E u hp w : host_part E u hp = Ok w -> RefLaws.keeps u w.
Proof.
  unfold host_part. destruct (host_cut false hp) as [h [ps|]].
  - destruct (length h =? 0)%nat; [discriminate|]. destruct (snd _); [|discriminate]. cbn [rbind]. destruct (flat_port _ _ _); [|discriminate]. cbn [rbind]. intros Q. injection Q as <-. repeat split.
  - destruct (_ && _); [discriminate|]. destruct (snd _); [|discriminate]. cbn [rbind]. intros Q. injection Q as <-. repeat split.
Qed.
Definition auth_part (E : env) (sch a : str) : res urlrec :=
  match split_last 64 a with
  | None => host_part E (new_for sch) a
  | Some (ui, hp) => if (length hp =? 0)%nat then Err EURLParse else host_part E (set_creds ui (new_for sch)) hp
  end.
Lemma auth_span sch a t : Forall (fun c => ~ ends_authority sch c) a -> rest_text sch t -> span (fun c => negb (ends_auth (special_scheme sch) c)) (a ++ t) = (a, t).
Proof.
  intros H T. apply span_app.
  - eapply Forall_impl; [|exact H]. cbv beta. intros c Hc. destruct (ends_auth _ c) eqn:Q; [exfalso; apply Hc; now apply ends_spec|reflexivity].
  - destruct t as [|c t]; [exact I|]. apply ends_spec in T. cbv beta. unfold ends_for in T. now rewrite T.
Qed.
Lemma auth_part_eq E en sch a t : Forall (fun c => ~ ends_authority sch c) a -> rest_text sch t ->
  flat_authority E en (new_for sch) (a ++ t) = rbind (auth_part E sch a) (fun w => flat_path_start E en w t).
Proof.
  intros H T. unfold flat_authority, auth_part. change (is_special (new_for sch)) with (special_scheme sch). rewrite auth_span by auto. destruct (split_last 64 a) as [[ui hp]|]; [|apply host_part_eq].
  destruct (length hp =? 0)%nat; [reflexivity|apply host_part_eq].
Qed.
Lemma auth_part_keeps E sch a w : auth_part E sch a = Ok w -> RefLaws.keeps (new_for sch) w.
Proof.
  unfold auth_part. destruct (split_last 64 a) as [[ui hp]|]; [|apply host_part_keeps]. destruct (length hp =? 0)%nat; [discriminate|]. intros Q. apply host_part_keeps in Q.
  destruct Q as (K1 & K2 & K3 & K4). destruct (keeps_creds ui (new_for sch)) as (J1 & J2 & J3 & J4). repeat split; congruence.
Qed.
Lemma tabs_forall (P : N -> Prop) a : Forall P a -> Forall P (remove_tabs a).
Proof. intros H. apply Forall_forall. intros c Hc. unfold remove_tabs in Hc. apply filter_In in Hc. rewrite Forall_forall in H. now apply H. Qed.
Lemma parts_eq E s a t o enc : std_scheme s = true -> std_lower s <> $"file" -> authority_text (std_lower s) a -> rest_text (std_lower s) t ->
  flat_parse E (s ++ $"://" ++ a ++ t) o enc = rbind (auth_part E (std_lower s) (remove_tabs a)) (fun w => flat_path_start E (normalize_encoding E enc) w (rclean t)).
Proof.
  intros H NF A T. rewrite parts_flat by auto. destruct A as (A & _). apply auth_part_eq; [now apply tabs_forall|now apply rest_rclean].
Qed.

(* ---------- what follows the authority ---------- *)
Lemma tail_rest E en u w t : scheme u = scheme w -> flat_tail E en (with_rest w u) t = on_ok (fun v => with_rest v u) (flat_tail E en w t).
Proof.
  intros S. destruct t as [|c t]; [reflexivity|]. cbn [flat_tail]. destruct (c =? 63); [|reflexivity]. unfold flat_query. destruct (span _ t) as [q f].
  assert (X : enc_query E en (with_rest w u) q = enc_query E en w q). { unfold enc_query, query_encoding, is_not_special, is_special. cbn [scheme with_rest]. now rewrite S. }
  rewrite X. destruct (enc_query E en w q); [|reflexivity]. cbn [on_ok]. f_equal. destruct f; reflexivity.
Qed.
Lemma path_rest E en u w t : scheme u = scheme w -> flat_path E en (with_rest w u) t = on_ok (fun v => with_rest v u) (flat_path E en w t).
Proof.
  intros S. unfold flat_path. destruct (span _ t) as [p f]. rewrite <- tail_rest by exact S. change (path_segs (with_rest w u)) with (path_segs w). unfold is_special. cbn [scheme with_rest]. rewrite S. reflexivity.
Qed.
Lemma start_rest E en u w t : scheme u = scheme w -> flat_path_start E en (with_rest w u) t = on_ok (fun v => with_rest v u) (flat_path_start E en w t).
Proof.
  intros S. unfold flat_path_start. replace (is_special (with_rest w u)) with (is_special w) by (unfold is_special; cbn [scheme with_rest]; now rewrite S). destruct t as [|c t].
  - destruct (is_special w); [now apply path_rest|reflexivity].
  - destruct (is_special w); [now apply path_rest|]. destruct (is_qf c); [now apply tail_rest|now apply path_rest].
Qed.
Lemma rest_self u w : RefLaws.keeps u w -> w = with_rest u w.
Proof. intros (_ & A & B & C). unfold with_rest. rewrite <- A, <- B, <- C. destruct w; reflexivity. Qed.
Lemma start_new E en sch w t : RefLaws.keeps (new_for sch) w -> flat_path_start E en w t = on_ok (fun v => with_rest v w) (flat_path_start E en (new_for sch) t).
Proof. intros K. rewrite (rest_self _ _ K) at 1. apply start_rest. apply K. Qed.
Lemma start_nil E en sch : exists v, flat_path_start E en (new_for sch) [] = Ok v.
Proof. unfold flat_path_start. destruct (is_special (new_for sch)); [|eauto]. unfold flat_path. cbn [span flat_tail]. eauto. Qed.
Lemma parts E s a x t b1 b2 b3 enc enc' v : enc_ok E (normalize_encoding E enc) -> enc_ok E (normalize_encoding E enc') ->
  base_parsed E b1 -> base_parsed E b2 -> base_parsed E b3 -> usable E b1 enc -> usable E b2 enc -> usable E b3 enc' ->
  std_scheme s = true -> std_lower s <> $"file" -> authority_text (std_lower s) a -> authority_text (std_lower s) x -> rest_text (std_lower s) t ->
  snd (parse_url E (s ++ $"://" ++ x ++ t) b1 enc) = Ok v ->
  snd (parse_url E (s ++ $"://" ++ a ++ t) b2 enc) = on_ok (with_rest v) (snd (parse_url E (s ++ $"://" ++ a) b3 enc')).
Proof.
  intros He He' B1 B2 B3 U1 U2 U3 S NF A X T.
  destruct (usable_flat E b1 enc He B1 U1) as (o1 & ->). destruct (usable_flat E b2 enc He B2 U2) as (o2 & ->). destruct (usable_flat E b3 enc' He' B3 U3) as (o3 & ->).
  pose proof (parts_eq E s a [] o3 enc' S NF A I) as Q3. rewrite app_nil_r in Q3. rewrite Q3, (parts_eq E s a t o2 enc S NF A T), (parts_eq E s x t o1 enc S NF X T). clear Q3.
  destruct (auth_part E (std_lower s) (remove_tabs x)) as [w|] eqn:W; [|discriminate]. apply auth_part_keeps in W. cbn [rbind]. rewrite (start_new E _ _ w _ W).
  destruct (flat_path_start E (normalize_encoding E enc) (new_for (std_lower s)) (rclean t)) as [z|] eqn:Z; [|discriminate]. cbn [on_ok]. intros Q. injection Q as <-.
  destruct (auth_part E (std_lower s) (remove_tabs a)) as [w'|] eqn:W'; [|reflexivity]. apply auth_part_keeps in W'. cbn [rbind]. rewrite !(start_new E _ _ w' _ W'), Z. change (rclean []) with (@nil N).
  destruct (start_nil E (normalize_encoding E enc') (std_lower s)) as (y & ->). reflexivity.
Qed.

(* ---------- user name and password ---------- *)
Lemma host_part_creds E ui u hp : host_part E (set_creds ui u) hp = on_ok (set_creds ui) (host_part E u hp).
Proof.
  assert (S : is_special (set_creds ui u) = is_special u) by apply creds_special. assert (S' : is_not_special (set_creds ui u) = is_not_special u) by (change (negb (is_special (set_creds ui u)) = negb (is_special u)); now rewrite S).
  assert (S'' : scheme (set_creds ui u) = scheme u) by apply creds_scheme. unfold host_part. rewrite S, S', S''. destruct (host_cut false hp) as [h [ps|]].
  - destruct (length h =? 0)%nat; [reflexivity|]. destruct (snd _) as [y|]; [|reflexivity]. cbn [rbind]. destruct (flat_port _ _ _); [|reflexivity]. cbn [rbind on_ok]. unfold set_creds. destruct (split_first 58 ui). reflexivity.
  - destruct (_ && _); [reflexivity|]. destruct (snd _) as [y|]; [|reflexivity]. cbn [rbind on_ok]. unfold set_creds. destruct (split_first 58 ui). reflexivity.
Qed.
Lemma creds_rest ui v w : with_rest v (set_creds ui w) = set_creds ui (with_rest v w).
Proof. unfold set_creds. destruct (split_first 58 ui). reflexivity. Qed.
Lemma tabs_app a b : remove_tabs (a ++ b) = remove_tabs a ++ remove_tabs b. Proof. apply filter_app. Qed.
Lemma tabs_mem x s : mem x s = false -> mem x (remove_tabs s) = false.
Proof. intros H. apply mem_not_In in H. apply mem_not_In. intros K. apply H. unfold remove_tabs in K. apply filter_In in K. apply K. Qed.
Lemma rstrip_last a hp : std_rstrip hp = hp -> hp <> [] -> std_rstrip (a ++ hp) = a ++ hp.
Proof. intros H N. induction a as [|c a IH]; [exact H|]. cbn [app std_rstrip]. rewrite IH. destruct (a ++ hp) eqn:Q; [|reflexivity]. apply app_eq_nil in Q as [_ Q]. congruence. Qed.
Lemma creds_std ui u : is_pystr ui -> set_creds ui u =
  let (user, pass) := std_upto 58 ui in set_password (std_percent_encode userinfo_set false pass) (set_username (std_percent_encode userinfo_set false user) u).
Proof.
  intros H. unfold set_creds. rewrite split_first_std. destruct (upto_pystr 58 ui H) as [P1 P2]. destruct (std_upto 58 ui) as [a b]. unfold enc_userinfo. now rewrite !(encode_conforms _ _ _ _ agree_userinfo) by auto.
Qed.
Lemma userinfo_inert E s ui hp t b1 b2 enc : enc_ok E (normalize_encoding E enc) -> base_parsed E b1 -> base_parsed E b2 -> usable E b1 enc -> usable E b2 enc ->
  std_scheme s = true -> std_lower s <> $"file" -> is_pystr ui -> Forall (fun c => ~ ends_authority (std_lower s) c) ui ->
  authority_text (std_lower s) hp -> std_strip_tabs hp <> [] -> ~ In 64 hp -> rest_text (std_lower s) t ->
  snd (parse_url E (s ++ $"://" ++ ui ++ $"@" ++ hp ++ t) b1 enc) =
  on_ok (fun u => let (user, pass) := std_upto 58 (std_strip_tabs ui) in
           set_password (std_percent_encode userinfo_set false pass) (set_username (std_percent_encode userinfo_set false user) u))
    (snd (parse_url E (s ++ $"://" ++ hp ++ t) b2 enc)).
Proof.
  intros He B1 B2 U1 U2 S NF Pu Hu A NE M T. destruct (usable_flat E b1 enc He B1 U1) as (o1 & ->). destruct (usable_flat E b2 enc He B2 U2) as (o2 & ->).
  assert (N : hp <> []) by (intros ->; now apply NE). pose proof A as (A1 & A2 & A3).
  assert (A' : authority_text (std_lower s) (ui ++ $"@" ++ hp)).
  { split; [apply Forall_app; split; [exact Hu|apply Forall_app; split; [|exact A1]]|].
    - repeat constructor. intros H. apply ends_spec in H. unfold ends_for in H. destruct (special_scheme (std_lower s)); discriminate H.
    - split; [rewrite app_assoc; now apply rstrip_last|]. intros _ Z. rewrite <- strip_tabs_eq, !tabs_app in Z. apply app_eq_nil in Z as [_ Z]. apply app_eq_nil in Z as [_ Z]. now apply NE. }
  replace (ui ++ $"@" ++ hp ++ t) with ((ui ++ $"@" ++ hp) ++ t) by now rewrite <- !app_assoc. rewrite (parts_eq E s _ t o1 enc S NF A' T), (parts_eq E s hp t o2 enc S NF A T).
  apply mem_not_In in M. assert (Q : auth_part E (std_lower s) (remove_tabs (ui ++ $"@" ++ hp)) = on_ok (set_creds (remove_tabs ui)) (auth_part E (std_lower s) (remove_tabs hp))).
  { unfold auth_part. rewrite !tabs_app. change (remove_tabs $"@") with [64]. cbn [app]. rewrite split_last_app by now apply tabs_mem. rewrite (split_last_none 64 (remove_tabs hp)) by now apply tabs_mem.
    rewrite <- strip_tabs_eq in NE. destruct (length (remove_tabs hp) =? 0)%nat eqn:Z; [destruct (remove_tabs hp); [congruence|discriminate Z]|]. apply host_part_creds. }
  rewrite Q. destruct (auth_part E (std_lower s) (remove_tabs hp)) as [w|] eqn:W; [|reflexivity]. cbn [on_ok rbind]. apply auth_part_keeps in W.
  assert (W' : RefLaws.keeps (new_for (std_lower s)) (set_creds (remove_tabs ui) w)). { destruct W as (K1 & K2 & K3 & K4). destruct (keeps_creds (remove_tabs ui) w) as (J1 & J2 & J3 & J4). repeat split; congruence. }
  rewrite (start_new E _ _ _ _ W'), (start_new E _ _ _ _ W). destruct (flat_path_start _ _ (new_for _) _) as [v|]; [|reflexivity]. cbn [on_ok]. f_equal. rewrite creds_rest. apply creds_std. now apply tabs_forall.
Qed.

(* ---------- ports ---------- *)
Lemma port_std E sch ps : flat_port E sch ps = port_meaning (int_limit E) sch ps.
Proof.
  unfold flat_port, port_meaning. assert (F : forallb (fun c => mem c ASCII_DIGITS) ps = forallb std_digit ps) by (induction ps as [|c ps IH]; [reflexivity|]; cbn [forallb]; now rewrite IH, StandardProofs.digit_eq).
  rewrite F. destruct (forallb std_digit ps) eqn:D; [|reflexivity]. cbn [negb]. destruct ps as [|c ps]; [reflexivity|]. change (length (c :: ps) =? 0)%nat with false. cbv iota.
  unfold e_int. rewrite (py_int_digits_eq _ _ _ 10 (c :: ps) (std_decimal (c :: ps))); [|auto|discriminate|now apply StandardProofs.decimal_eq]. change (10 =? 10) with true. cbn [andb]. unfold over_limit.
  destruct (match int_limit E with Some l => _ | None => false end); [reflexivity|]. cbv zeta. rewrite N2Z.id. destruct (65535 <? _); [reflexivity|]. now rewrite StandardProofs.port_of_eq.
Qed.
Lemma host_text_cut h t : host_text h -> t = [] \/ (exists p, t = 58 :: p) -> host_cut false (h ++ t) = (h, match t with [] => None | _ :: p => Some p end).
Proof.
  intros [H|(x & -> & H)] T; [now apply host_cut_plain|]. cbn [app host_cut]. change (91 =? 58) with false. change (91 =? 91) with true. cbn [andb negb]. cbv iota. rewrite <- app_assoc. cbn [app].
  now rewrite (host_cut_in_br x t H T).
Qed.
Lemma host_part_port E u h ps : host_text h -> h <> [] -> host_part E u (h ++ 58 :: ps) = rbind (host_part E u h) (fun w => rbind (flat_port E (scheme u) ps) (fun p => Ok (set_port p w))).
Proof.
  intros H N. unfold host_part. rewrite (host_text_cut h (58 :: ps) H) by eauto. pose proof (host_text_cut h [] H (or_introl eq_refl)) as Q. rewrite app_nil_r in Q. rewrite Q.
  destruct h as [|c h]; [congruence|]. change (length (c :: h) =? 0)%nat with false. rewrite andb_false_r. destruct (snd _); reflexivity.
Qed.
Lemma port_rest v p w : with_rest v (set_port p w) = set_port p (with_rest v w). Proof. reflexivity. Qed.
Lemma rstrip_colon h ps : std_rstrip ps = ps -> std_rstrip (h ++ 58 :: ps) = h ++ 58 :: ps.
Proof. intros H. apply rstrip_last; [|discriminate]. cbn [std_rstrip]. rewrite H. destruct ps; reflexivity. Qed.
Lemma port_inert E s h ps t b1 b2 enc : enc_ok E (normalize_encoding E enc) -> base_parsed E b1 -> base_parsed E b2 -> usable E b1 enc -> usable E b2 enc ->
  std_scheme s = true -> std_lower s <> $"file" -> authority_text (std_lower s) h -> ~ In 64 h -> std_strip_tabs h <> [] -> host_text (std_strip_tabs h) ->
  Forall (fun c => ~ ends_authority (std_lower s) c) ps -> std_rstrip ps = ps -> ~ In 64 ps -> rest_text (std_lower s) t ->
  (forall u, snd (parse_url E (s ++ $"://" ++ h ++ t) b1 enc) = Ok u ->
   snd (parse_url E (s ++ $"://" ++ h ++ $":" ++ ps ++ t) b2 enc) =
   match port_meaning (int_limit E) (std_lower s) (std_strip_tabs ps) with Ok p => Ok (set_port p u) | Err e => Err e end) /\
  (forall e, snd (parse_url E (s ++ $"://" ++ h ++ t) b1 enc) = Err e -> exists e', snd (parse_url E (s ++ $"://" ++ h ++ $":" ++ ps ++ t) b2 enc) = Err e').
Proof.
  intros He B1 B2 U1 U2 S NF A M NE HT Hp Rp Mp T. destruct (usable_flat E b1 enc He B1 U1) as (o1 & ->). destruct (usable_flat E b2 enc He B2 U2) as (o2 & ->).
  pose proof A as (A1 & A2 & A3).
  assert (A' : authority_text (std_lower s) (h ++ $":" ++ ps)).
  { split; [apply Forall_app; split; [exact A1|constructor; [|exact Hp]]|].
    - intros H. apply ends_spec in H. unfold ends_for in H. destruct (special_scheme (std_lower s)); discriminate H.
    - split; [now apply rstrip_colon|]. intros _ Z. rewrite <- strip_tabs_eq, !tabs_app in Z. apply app_eq_nil in Z as [_ Z]. discriminate Z. }
  replace (h ++ $":" ++ ps ++ t) with ((h ++ $":" ++ ps) ++ t) by now rewrite <- !app_assoc. rewrite (parts_eq E s _ t o2 enc S NF A' T), (parts_eq E s h t o1 enc S NF A T).
  apply mem_not_In in M. apply mem_not_In in Mp.
  assert (Q : auth_part E (std_lower s) (remove_tabs (h ++ $":" ++ ps)) = rbind (auth_part E (std_lower s) (remove_tabs h)) (fun w => rbind (flat_port E (std_lower s) (remove_tabs ps)) (fun p => Ok (set_port p w)))).
  { unfold auth_part. rewrite (split_last_none 64 (remove_tabs h)) by now apply tabs_mem. rewrite (split_last_none 64 (remove_tabs (h ++ _))).
    - rewrite !tabs_app. change (remove_tabs $":") with [58]. cbn [app]. now rewrite (host_part_port E _ _ _ HT NE).
    - apply tabs_mem. apply mem_not_In. intros K. apply mem_not_In in M. apply mem_not_In in Mp. apply in_app_or in K as [K|K]; [auto|]. destruct K as [K|K]; [discriminate K|auto]. }
  rewrite Q, port_std. change (std_strip_tabs ps) with (remove_tabs ps). destruct (auth_part E (std_lower s) (remove_tabs h)) as [w|] eqn:W; [|split; [intros u H; discriminate H|cbn [rbind]; eauto]]. cbn [rbind]. apply auth_part_keeps in W.
  destruct (port_meaning _ _ _) as [p|e]; cbn [rbind].
  - assert (W' : RefLaws.keeps (new_for (std_lower s)) (set_port p w)) by exact W. rewrite (start_new E _ _ _ _ W'), (start_new E _ _ _ _ W). destruct (flat_path_start _ _ (new_for _) _) as [v|]; cbn [on_ok]; split; intros u H; try discriminate H; [|eauto].
    injection H as <-. reflexivity.
  - split; [reflexivity|eauto].
Qed.

(* ---------- hosts with percent-encoded bytes ---------- *)
Lemma host_decoded E h h' : is_pystr h -> is_pystr h' -> h <> [] -> h' <> [] -> ~ In 91 h -> ~ In 91 h' -> std_unescape h = std_unescape h' ->
  snd (host_parse E h false) = snd (host_parse E h' false).
Proof.
  intros P P' N N' M M' D. rewrite !host_parse_eq by auto. assert (B : forall x, ~ In 91 x -> starts_with [91] x = false).
  { intros [|c x] H; [reflexivity|]. cbn [starts_with]. rewrite andb_true_r. apply N.eqb_neq. intros <-. apply H. now left. }
  rewrite !B by auto. rewrite !utf8_decode_spec, !string_percent_decode_spec by auto. unfold std_unescape in D. now rewrite D.
Qed.
Lemma decoded_part E sch h h' : std_special sch -> is_pystr h -> is_pystr h' -> h <> [] -> h' <> [] -> host_text h -> host_text h' -> ~ In 91 h -> ~ In 91 h' ->
  std_unescape h = std_unescape h' -> host_part E (new_for sch) h = host_part E (new_for sch) h'.
Proof.
  intros S P P' N N' T T' M M' D. unfold host_part. pose proof (host_text_cut h [] T (or_introl eq_refl)) as Q. rewrite app_nil_r in Q. rewrite Q.
  pose proof (host_text_cut h' [] T' (or_introl eq_refl)) as Q'. rewrite app_nil_r in Q'. rewrite Q'. apply special_spec in S.
  change (is_not_special (new_for sch)) with (negb (special_scheme sch)). rewrite S. cbn [negb]. rewrite (host_decoded E h h') by auto. destruct h; [congruence|]. destruct h'; [congruence|]. reflexivity.
Qed.
Lemma decoded_host E s h h' t b1 b2 enc : enc_ok E (normalize_encoding E enc) -> base_parsed E b1 -> base_parsed E b2 -> usable E b1 enc -> usable E b2 enc ->
  std_scheme s = true -> std_lower s <> $"file" -> std_special (std_lower s) -> is_pystr h -> is_pystr h' ->
  authority_text (std_lower s) h -> authority_text (std_lower s) h' ->
  (forall c, In c (h ++ h') -> c <> 64 /\ c <> 58 /\ c <> 91 /\ c <> 93) -> std_unescape (std_strip_tabs h) = std_unescape (std_strip_tabs h') -> rest_text (std_lower s) t ->
  snd (parse_url E (s ++ $"://" ++ h ++ t) b1 enc) = snd (parse_url E (s ++ $"://" ++ h' ++ t) b2 enc).
Proof.
  intros He B1 B2 U1 U2 S NF SP P P' A A' M D T. destruct (usable_flat E b1 enc He B1 U1) as (o1 & ->). destruct (usable_flat E b2 enc He B2 U2) as (o2 & ->).
  rewrite (parts_eq E s h t o1 enc S NF A T), (parts_eq E s h' t o2 enc S NF A' T). f_equal.
  assert (G : forall x, (forall c, In c x -> c <> 64 /\ c <> 58 /\ c <> 91 /\ c <> 93) -> mem 64 (remove_tabs x) = false /\ host_text (remove_tabs x) /\ ~ In 91 (remove_tabs x)).
  { intros x Hx. assert (R : forall c, In c (remove_tabs x) -> In c x) by (intros c Hc; unfold remove_tabs in Hc; now apply filter_In in Hc). split; [|split].
    - apply mem_not_In. intros K. now apply R, Hx in K.
    - left. intros c Hc. apply R, Hx in Hc. tauto.
    - intros K. now apply R, Hx in K. }
  destruct (G h) as (G1 & G2 & G3); [intros c Hc; apply M, in_or_app; auto|]. destruct (G h') as (G1' & G2' & G3'); [intros c Hc; apply M, in_or_app; auto|].
  unfold auth_part. rewrite (split_last_none 64 _ G1), (split_last_none 64 _ G1'). destruct A as (_ & _ & A). destruct A' as (_ & _ & A'). apply decoded_part; auto; now apply tabs_forall.
Qed.
