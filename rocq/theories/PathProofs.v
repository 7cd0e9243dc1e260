(** Lemmas on backslashes and '..' segments (C45, C73, C74). *)
From Coq Require Import Ascii String.
From Coq Require Import NArith ZArith Bool Arith Lia ZifyBool ZifyN ZifyNat List.
From Verif Require Import PyStr PyInt Codec Env HostModel UrlRecord Parser SpecText SpecHost SpecUrl FlatParser.
From Verif Require Import Lemmas CodecProofs QuoteProofs PyIntProofs LegacyProofs IPv4Proofs IPv6Proofs HostProofs LoopProofs FlatProofs WfProofs RoundTrip ParserProofs RefProofs.
Import ListNotations.
Open Scope N_scope.

Definition fslash (c : N) : N := if c =? 92 then 47 else c.
Lemma slashed_split p r : forallb (fun c => negb (is_qf c)) p = true -> match r with [] => True | c :: _ => is_qf c = true end ->
  slashed (p ++ r) = map fslash p ++ r.
Proof.
  intros H R. induction p as [|c p IH]; cbn [app map].
  - destruct r as [|c r]; [reflexivity|]. cbn [slashed]. rewrite <- qf_eq, R. reflexivity.
  - cbn [forallb] in H. apply andb_true_iff in H as [Hc H]. cbn [slashed]. rewrite <- qf_eq. destruct (is_qf c); [discriminate|]. cbn [app map]. now rewrite IH.
Qed.
Lemma qf_decomp t : exists p r, t = p ++ r /\ forallb (fun c => negb (is_qf c)) p = true /\ match r with [] => True | c :: _ => is_qf c = true end.
Proof.
  exists (fst (span (fun c => negb (is_qf c)) t)), (snd (span (fun c => negb (is_qf c)) t)). split; [apply span_eq|]. split.
  - apply forallb_forall. apply Forall_forall. apply LoopProofs.span_all.
  - pose proof (span_stop (fun c => negb (is_qf c)) t) as H. destruct (snd _); [exact I|]. now apply negb_false_iff.
Qed.
Lemma fslash_c0 c : is_c0_space (fslash c) = is_c0_space c.
Proof. unfold fslash, is_c0_space. destruct (N.eqb_spec c 92); [subst; reflexivity|reflexivity]. Qed.
Lemma fslash_tab c : is_tab_newline (fslash c) = is_tab_newline c.
Proof. unfold fslash. destruct (N.eqb_spec c 92); [subst; reflexivity|reflexivity]. Qed.
Lemma remove_tabs_map p : remove_tabs (map fslash p) = map fslash (remove_tabs p).
Proof. unfold remove_tabs. induction p as [|c p IH]; [reflexivity|]. cbn [map filter]. rewrite fslash_tab. destruct (negb _); cbn [map]; now rewrite IH. Qed.
Lemma drop_map p : drop_while is_c0_space (map fslash p) = map fslash (drop_while is_c0_space p).
Proof. induction p as [|c p IH]; [reflexivity|]. cbn [map drop_while]. rewrite fslash_c0. destruct (is_c0_space c); [exact IH|reflexivity]. Qed.
Lemma rclean_map p : rclean (map fslash p) = map fslash (rclean p).
Proof. unfold rclean, rstrip_by. rewrite <- map_rev, drop_map, <- map_rev. apply remove_tabs_map. Qed.
Lemma rclean_mid x c t : is_c0_space c = false -> rclean (x ++ c :: t) = remove_tabs x ++ c :: rclean t.
Proof.
  intros H. unfold rclean. replace (rstrip_by is_c0_space (x ++ c :: t)) with (x ++ c :: rstrip_by is_c0_space t).
  - unfold remove_tabs. rewrite filter_app. cbn [filter]. replace (negb (is_tab_newline c)) with true; [reflexivity|].
    destruct (is_tab_newline c) eqn:T; [|reflexivity]. apply tab_c0 in T. congruence.
  - change (c :: t) with ([c] ++ t). unfold rstrip_by. rewrite !rev_app_distr. cbn [rev app]. rewrite <- app_assoc. symmetry.
    destruct (existsb (fun c => negb (is_c0_space c)) (rev t)) eqn:X.
    + rewrite drop_stop by auto. rewrite !rev_app_distr, rev_involutive. cbn [rev app]. now rewrite <- app_assoc.
    + assert (A : forallb is_c0_space (rev t) = true).
      { apply forallb_forall. intros d Hd. rewrite existsb_false in X. specialize (X d Hd). cbv beta in X. now destruct (is_c0_space d). }
      rewrite drop_app, (drop_all _ _ A) by auto. cbn [app drop_while rev]. rewrite H. cbn [rev]. now rewrite rev_involutive.
Qed.
Lemma qf_c0 c : is_qf c = true -> is_c0_space c = false.
Proof. rewrite qf_eq. unfold is_c0_space. lia. Qed.
Lemma remove_tabs_qf p : forallb (fun c => negb (is_qf c)) p = true -> forallb (fun c => negb (is_qf c)) (remove_tabs p) = true.
Proof. rewrite !forallb_forall. intros H c Hc. apply filter_In in Hc as [Hc _]. now apply H. Qed.
Lemma rclean_qf p : forallb (fun c => negb (is_qf c)) p = true -> forallb (fun c => negb (is_qf c)) (rclean p) = true.
Proof. rewrite !forallb_forall. intros H c Hc. apply H. now apply rclean_in. Qed.
Lemma rclean_slashed t : rclean (slashed t) = slashed (rclean t).
Proof.
  destruct (qf_decomp t) as (p & r & -> & P & R). rewrite slashed_split by auto. destruct r as [|c r].
  - rewrite !app_nil_r, rclean_map. rewrite <- (app_nil_r (rclean p)) at 2. rewrite slashed_split; [now rewrite app_nil_r|now apply rclean_qf|exact I].
  - rewrite !rclean_mid by now apply qf_c0. rewrite slashed_split; [|now apply remove_tabs_qf|exact R]. now rewrite remove_tabs_map.
Qed.

Lemma slashed_tail t : match t with [] => True | c :: _ => is_qf c = true end -> slashed t = t.
Proof. destruct t as [|c t]; [reflexivity|]. intros H. cbn [slashed]. now rewrite <- qf_eq, H. Qed.
Lemma span_slashed p s : p 92 = p 47 -> (forall c, is_qf c = true -> p c = false) ->
  span p (slashed s) = (map fslash (fst (span p s)), slashed (snd (span p s))).
Proof.
  intros H1 H2. induction s as [|c t IH]; [reflexivity|]. cbn [slashed]. rewrite <- qf_eq. destruct (is_qf c) eqn:Q.
  - cbn [span]. rewrite (H2 c Q). cbn [fst snd map slashed]. now rewrite <- qf_eq, Q.
  - cbn [span]. fold (fslash c). assert (X : p (fslash c) = p c) by (unfold fslash; destruct (N.eqb_spec c 92); [now subst|reflexivity]). rewrite X, IH.
    destruct (p c) eqn:Pc; [destruct (span p t) as [a b]; reflexivity|]. cbn [fst snd map slashed]. rewrite <- qf_eq, Q. reflexivity.
Qed.
Lemma map_fslash_id s : ~ In 92 s -> map fslash s = s.
Proof.
  induction s as [|c s IH]; [reflexivity|]. cbn [map In]. intros H. rewrite IH by tauto. f_equal. unfold fslash. destruct (N.eqb_spec c 92); [subst; tauto|reflexivity].
Qed.
Lemma span_slashed' p s : p 92 = false -> p 47 = false -> (forall c, is_qf c = true -> p c = false) ->
  span p (slashed s) = (fst (span p s), slashed (snd (span p s))).
Proof.
  intros H1 H1' H2. rewrite span_slashed; [|congruence|exact H2]. f_equal. apply map_fslash_id. intros I.
  pose proof (LoopProofs.span_all p s) as A. rewrite Forall_forall in A. specialize (A _ I). cbv beta in A. rewrite H1 in A. discriminate.
Qed.
Section Slash.
Context (E : env) (enc : str).
Lemma slash_path u t : is_special u = true -> flat_path E enc u (slashed t) = flat_path E enc u t.
Proof.
  intros S. unfold flat_path. rewrite span_slashed; [|reflexivity|intros c ->; reflexivity].
  pose proof (span_stop (fun c => negb (is_qf c)) t) as ST. destruct (span _ t) as [p r]. cbn [fst snd] in *. rewrite slashed_tail.
  - do 4 f_equal. rewrite S. unfold pieces, norm_slash. f_equal. unfold replace_char. rewrite map_map. apply map_ext.
    intros c. unfold fslash. destruct (N.eqb_spec c 92); [subst; reflexivity|]. destruct (N.eqb_spec c 92); [congruence|reflexivity].
  - destruct r; [exact I|]. now apply negb_false_iff.
Qed.
Lemma slash_head c t : is_qf c = false -> slashed (c :: t) = fslash c :: slashed t.
Proof. intros H. cbn [slashed]. now rewrite <- qf_eq, H. Qed.
Lemma fslash_slash c : is_slash (fslash c) = is_slash c.
Proof. unfold fslash. destruct (N.eqb_spec c 92); [subst; reflexivity|reflexivity]. Qed.
Lemma slash_path_start u t : is_special u = true -> flat_path_start E enc u (slashed t) = flat_path_start E enc u t.
Proof.
  intros S. unfold flat_path_start. rewrite S. destruct t as [|c t]; [reflexivity|]. destruct (is_qf c) eqn:Q; [now rewrite slashed_tail|].
  rewrite slash_head by auto. rewrite fslash_slash. destruct (is_slash c) eqn:K.
  - now apply slash_path.
  - rewrite <- (slash_head c t Q). now apply slash_path.
Qed.
Lemma slash_host u a t : is_special u = true -> flat_host E enc u a (slashed t) = flat_host E enc u a t.
Proof.
  intros S. unfold flat_host. destruct (host_cut false a) as [h [ps|]].
  - destruct (_ =? _)%nat; [reflexivity|]. destruct (snd _) as [x|]; [|reflexivity]. cbn [rbind]. destruct (flat_port _ _ _) as [p|]; [|reflexivity]. cbn [rbind].
    now apply slash_path_start.
  - destruct (_ && _); [reflexivity|]. destruct (snd _) as [x|]; [|reflexivity]. cbn [rbind]. now apply slash_path_start.
Qed.
Lemma creds_special ui u : is_special (set_creds ui u) = is_special u.
Proof. unfold set_creds. destruct (split_first 58 ui). reflexivity. Qed.
Lemma slash_authority u t : is_special u = true -> flat_authority E enc u (slashed t) = flat_authority E enc u t.
Proof.
  intros S. unfold flat_authority. rewrite S. rewrite span_slashed'; [|reflexivity|reflexivity|].
  - destruct (span _ t) as [a r]. cbn [fst snd]. destruct (split_last 64 a) as [[ui hp]|]; [|now apply slash_host].
    destruct (_ =? _)%nat; [reflexivity|]. apply slash_host. now rewrite creds_special.
  - intros c Q. rewrite qf_eq in Q. unfold ends_auth. change ($"/?#") with [47; 63; 35]. cbn [mem existsb]. lia.
Qed.
Lemma slash_drop t : drop_while is_slash (slashed t) = slashed (drop_while is_slash t).
Proof.
  induction t as [|c t IH]; [reflexivity|]. destruct (is_qf c) eqn:Q.
  - rewrite slashed_tail by exact Q. cbn [drop_while]. replace (is_slash c) with false; [now rewrite slashed_tail|].
    rewrite qf_eq in Q. rewrite slash_eq. lia.
  - rewrite slash_head by auto. cbn [drop_while]. rewrite fslash_slash. destruct (is_slash c); [exact IH|]. now rewrite slash_head.
Qed.
Lemma drive_no_slash x y : is_windows_drive_letter [fslash x; fslash y] = is_windows_drive_letter [x; y].
Proof. unfold fslash. destruct (N.eqb_spec x 92); [subst; reflexivity|]. destruct (N.eqb_spec y 92); [subst; cbn; now rewrite !andb_false_r|reflexivity]. Qed.
Lemma slash_drive t : starts_with_windows_drive_letter (slashed t) = starts_with_windows_drive_letter t.
Proof.
  destruct t as [|x t]; [reflexivity|]. destruct (is_qf x) eqn:Q; [now rewrite slashed_tail|]. rewrite slash_head by auto.
  destruct t as [|y t]; [reflexivity|]. destruct (is_qf y) eqn:Q'.
  { rewrite (slashed_tail (y :: t)) by exact Q'. unfold starts_with_windows_drive_letter. cbn [firstn].
    assert (Y : mem y $":|" = false) by (rewrite qf_eq in Q'; change ($":|") with [58; 124]; cbn [mem existsb]; lia).
    cbn [is_windows_drive_letter]. rewrite Y. now rewrite !andb_false_r. }
  rewrite slash_head by auto. unfold starts_with_windows_drive_letter. cbn [firstn]. rewrite drive_no_slash. cbn [nth_error length].
  destruct t as [|z t]; [reflexivity|]. destruct (is_qf z) eqn:Q3; [rewrite (slashed_tail (z :: t)) by exact Q3; reflexivity|].
  rewrite slash_head by auto. cbn [length]. f_equal. change (S (S (S (length (slashed t)))) =? 2)%nat with false. change (S (S (S (length t))) =? 2)%nat with false.
  cbn [orb]. unfold fslash. destruct (N.eqb_spec z 92); [subst; reflexivity|reflexivity].
Qed.
Lemma file_mem c : is_qf c = true -> negb (mem c $"/\?#") = false.
Proof. rewrite qf_eq. change ($"/\?#") with [47; 92; 63; 35]. cbn [mem existsb]. lia. Qed.
Lemma slash_file_host u t : is_special u = true -> flat_file_host E enc u (slashed t) = flat_file_host E enc u t.
Proof.
  intros S. unfold flat_file_host. rewrite span_slashed'; [|reflexivity|reflexivity|apply file_mem]. destruct (span _ t) as [h r]. cbn [fst snd].
  destruct (is_windows_drive_letter h); [now apply slash_path|]. destruct h; [now apply slash_path_start|]. destruct (snd _) as [x|]; [|reflexivity]. cbn [rbind].
  now apply slash_path_start.
Qed.
Lemma file_slash_special base t u : is_special (file_slash_url base t u) = is_special u.
Proof.
  unfold file_slash_url. destruct base as [b|]; [|reflexivity]. destruct (str_eqb _ _); [|reflexivity]. cbv zeta. destruct (path b) as [|[|s l]]; try reflexivity. destruct (_ && _); reflexivity.
Qed.
Lemma slash_file_slash base u t : is_special u = true -> flat_file_slash E base enc u (slashed t) = flat_file_slash E base enc u t.
Proof.
  intros S. assert (X : file_slash_url base (slashed t) u = file_slash_url base t u) by (unfold file_slash_url; now rewrite slash_drive).
  assert (Y : flat_path E enc (file_slash_url base (slashed t) u) (slashed t) = flat_path E enc (file_slash_url base t u) t).
  { rewrite X. apply slash_path. now rewrite file_slash_special. }
  unfold flat_file_slash. destruct t as [|c t]; [exact Y|]. destruct (is_qf c) eqn:Q; [now rewrite slashed_tail|]. rewrite slash_head in * by auto.
  rewrite fslash_slash. destruct (is_slash c); [now apply slash_file_host|exact Y].
Qed.
Lemma slash_file base t : flat_file E base enc (slashed t) = flat_file E base enc t.
Proof.
  destruct t as [|c t]; [reflexivity|]. destruct (is_qf c) eqn:Q; [now rewrite slashed_tail|].
  unfold flat_file. cbv zeta. rewrite slash_head by auto. rewrite fslash_slash.
  destruct (is_slash c) eqn:K; [now apply slash_file_slash|]. rewrite <- (slash_head c t Q).
  assert (Q' : is_qf (fslash c) = false) by (unfold fslash; destruct (c =? 92); [reflexivity|exact Q]). rewrite Q, Q'.
  rewrite slash_drive. destruct base as [b|]; [destruct (str_eqb _ _)|]; now apply slash_path.
Qed.
Lemma slash_relative_slash b u t : is_special u = true -> scheme u = scheme b -> flat_relative_slash E b enc u (slashed t) = flat_relative_slash E b enc u t.
Proof.
  intros S SS. unfold flat_relative_slash. destruct t as [|c t]; [reflexivity|]. destruct (is_qf c) eqn:Q; [now rewrite slashed_tail|].
  rewrite S. rewrite slash_head by auto. rewrite fslash_slash. cbn [andb]. destruct (is_slash c) eqn:K; [rewrite slash_drop; now apply slash_authority|].
  rewrite <- (slash_head c t Q). assert (c =? 47 = false /\ fslash c =? 47 = false) as [-> ->] by (rewrite slash_eq in K; unfold fslash; destruct (N.eqb_spec c 92); lia).
  now apply slash_path.
Qed.
Lemma slash_relative b t : is_special b = true -> flat_relative E b enc (slashed t) = flat_relative E b enc t.
Proof.
  intros S. unfold flat_relative. cbv zeta. destruct t as [|c t]; [reflexivity|]. destruct (is_qf c) eqn:Q; [rewrite slashed_tail by exact Q; rewrite Q; reflexivity|].
  rewrite slash_head by auto. assert (S' : is_special (set_scheme (scheme b) new_url) = true) by exact S. rewrite S'. cbn [andb].
  assert (K : ((fslash c =? 47) || (fslash c =? 92)) = ((c =? 47) || (c =? 92))) by (unfold fslash; destruct (N.eqb_spec c 92); lia). rewrite K.
  destruct ((c =? 47) || (c =? 92)) eqn:L; [now apply slash_relative_slash|].
  assert (Q' : is_qf (fslash c) = false) by (unfold fslash; destruct (c =? 92); [reflexivity|exact Q]). rewrite Q'.
  rewrite <- (slash_head c t Q). now apply slash_path.
Qed.
Lemma starts2_slashed t : starts_with $"//" t = true -> starts_with $"//" (slashed t) = true.
Proof. intros H. apply sw2 in H as [r ->]. reflexivity. Qed.
Lemma slash_scheme base s t : special_scheme s = true -> flat_scheme E base enc s (slashed t) = flat_scheme E base enc s t.
Proof.
  intros S. unfold flat_scheme. cbv zeta. rewrite S. destruct (str_eqb s $"file"); [apply slash_file|].
  assert (S' : is_special (set_scheme s new_url) = true) by exact S.
  assert (A : flat_authority E enc (set_scheme s new_url) (drop_while is_slash (slashed t)) = flat_authority E enc (set_scheme s new_url) (drop_while is_slash t))
    by (rewrite slash_drop; now apply slash_authority).
  destruct base as [b|]; [|exact A]. destruct (str_eqb (scheme b) s) eqn:Q; [|exact A]. cbn [andb]. apply str_eqb_eq in Q. subst s.
  destruct (starts_with $"//" t) eqn:T; [rewrite (starts2_slashed t T); exact A|]. cbn [negb].
  destruct (starts_with $"//" (slashed t)) eqn:T'; [|now apply slash_relative]. cbn [negb]. rewrite A.
  (* both characters are slashes, one of them a backslash *)
  destruct t as [|c [|d t]].
  - discriminate T'.
  - exfalso. revert T'. cbn [slashed]. destruct (_ || _); intros T'; apply sw2 in T' as [r X]; discriminate.
  - assert (K : is_slash c = true /\ is_slash d = true /\ is_qf c = false).
    { destruct (is_qf c) eqn:Q; [rewrite slashed_tail in T' by exact Q; congruence|]. rewrite slash_head in T' by auto.
      apply sw2 in T' as [r X]. injection X as X1 X2. rewrite <- fslash_slash, X1. split; [reflexivity|]. split; [|reflexivity].
      rewrite <- qf_eq in X2. destruct (is_qf d); injection X2 as X2 _; [subst d; reflexivity|].
      fold (fslash d) in X2. now rewrite <- fslash_slash, X2. }
    destruct K as (K1 & K2 & K3). unfold flat_relative. cbv zeta. rewrite S'. cbn [andb]. rewrite slash_eq in K1. rewrite K1. unfold flat_relative_slash.
    rewrite S', K2. cbn [andb drop_while]. rewrite K2. rewrite slash_eq, K1. reflexivity.
Qed.
End Slash.
Lemma slash_parse E s t base enc : scheme_syntax s -> special_scheme (lower s) = true ->
  flat_parse E (s ++ 58 :: slashed t) base enc = flat_parse E (s ++ 58 :: t) base enc.
Proof. intros H S. rewrite !flat_scheme_input by auto. rewrite rclean_slashed. now apply slash_scheme. Qed.

(* ---------- non-special schemes ---------- *)
Section Keep.
Context {T : Type} (pj : urlrec -> T)
  (K1 : forall p u, pj (set_path p u) = pj u) (K2 : forall p u, pj (set_query p u) = pj u) (K3 : forall p u, pj (set_fragment p u) = pj u).
Definition keeps (u : urlrec) (r : res urlrec) : Prop := match r with Ok v => pj v = pj u | Err _ => True end.
Lemma keeps_frag u t : pj (flat_frag u t) = pj u. Proof. destruct t; [reflexivity|apply K3]. Qed.
Lemma keeps_tail E enc u t : keeps u (flat_tail E enc u t).
Proof.
  destruct t as [|c t]; [reflexivity|]. cbn [flat_tail]. destruct (c =? 63); [|apply keeps_frag]. unfold flat_query. destruct (span _ t) as [q f].
  destruct (enc_query _ _ _ _); [|exact I]. cbn [keeps]. rewrite keeps_frag. apply K2.
Qed.
Lemma keeps_eq u v r : pj u = pj v -> keeps u r -> keeps v r.
Proof. intros H. unfold keeps. now rewrite H. Qed.
Lemma keeps_path E enc u t : keeps u (flat_path E enc u t).
Proof. unfold flat_path. destruct (span _ t). eapply keeps_eq; [|apply keeps_tail]. apply K1. Qed.
Lemma keeps_path_start E enc u t : keeps u (flat_path_start E enc u t).
Proof.
  unfold flat_path_start. destruct t as [|c t]; [destruct (is_special u); [apply keeps_path|reflexivity]|].
  destruct (is_special u); [apply keeps_path|]. destruct (is_qf c); [apply keeps_tail|apply keeps_path].
Qed.
Context (K4 : forall p u, pj (set_host p u) = pj u) (K5 : forall p u, pj (set_port p u) = pj u).
Lemma keeps_host E enc u a t : keeps u (flat_host E enc u a t).
Proof.
  unfold flat_host. destruct (host_cut false a) as [h [ps|]].
  - destruct (_ =? _)%nat; [exact I|]. destruct (snd _) as [x|]; [|exact I]. cbn [rbind]. destruct (flat_port _ _ _) as [p|]; [|exact I]. cbn [rbind].
    eapply keeps_eq; [|apply keeps_path_start]. now rewrite K5, K4.
  - destruct (_ && _); [exact I|]. destruct (snd _) as [x|]; [|exact I]. cbn [rbind]. eapply keeps_eq; [|apply keeps_path_start]. apply K4.
Qed.
End Keep.

Definition no_tabs (s : str) : Prop := Forall (fun c => is_tab_newline c = false) s.
Lemma remove_tabs_id s : no_tabs s -> remove_tabs s = s.
Proof. intros H. unfold remove_tabs. induction H as [|c s Hc Hs IH]; [reflexivity|]. cbn [filter]. rewrite Hc. cbn [negb]. now rewrite IH. Qed.
Lemma vis_no_tabs s : vis s -> no_tabs s.
Proof. apply Forall_impl. intros c H. destruct (is_tab_newline c) eqn:T; [|reflexivity]. apply tab_c0 in T. congruence. Qed.
(** [r] is empty or starts with a character ending the authority *)
Definition ends_head (r : str) : Prop := match r with [] => True | c :: _ => c = 47 \/ c = 63 \/ c = 35 end.
Lemma ends_head_rclean r : ends_head r -> ends_head (rclean r).
Proof.
  destruct r as [|c r]; [reflexivity|]. intros H. change (c :: r) with ([c] ++ r). rewrite rclean_app; [exact H|].
  constructor; [|constructor]. unfold ends_head in H. unfold is_c0_space. lia.
Qed.
Lemma ns_authority_span a r : Forall (fun c => c <> 47 /\ c <> 63 /\ c <> 35) a -> ends_head r ->
  span (fun c => negb (ends_auth false c)) (a ++ r) = (a, r).
Proof.
  intros H R. apply span_app.
  - eapply Forall_impl; [|exact H]. cbv beta. intros c Hc. unfold ends_auth. change ($"/?#") with [47; 63; 35]. cbn [mem existsb]. lia.
  - destruct r as [|c r]; [exact I|]. unfold ends_head in R. unfold ends_auth. change ($"/?#") with [47; 63; 35]. cbn [mem existsb]. lia.
Qed.
Lemma file_special_s : special_scheme $"file" = true. Proof. reflexivity. Qed.
Lemma ns_scheme_authority E base enc s t : special_scheme s = false ->
  flat_scheme E base enc s (47 :: 47 :: t) = flat_authority E enc (set_scheme s new_url) t.
Proof.
  intros S. unfold flat_scheme. cbv zeta. rewrite S. destruct (str_eqb s $"file") eqn:F; [apply str_eqb_eq in F; subst; discriminate|]. reflexivity.
Qed.
Lemma vis2 c d t : is_c0_space c = false -> is_c0_space d = false -> rclean (c :: d :: t) = c :: d :: rclean t.
Proof. intros H1 H2. apply (rclean_app [c; d] t). repeat constructor; auto. Qed.
Lemma ns_input E s t base enc : scheme_syntax s -> special_scheme (lower s) = false ->
  flat_parse E (s ++ $"://" ++ t) base enc = flat_authority E (normalize_encoding E enc) (set_scheme (lower s) new_url) (rclean t).
Proof.
  intros H S. change (s ++ $"://" ++ t) with (s ++ 58 :: 47 :: 47 :: t). rewrite flat_scheme_input by auto. rewrite vis2 by reflexivity.
  now apply ns_scheme_authority.
Qed.
Lemma ns_userinfo E s ui hp r base enc u : scheme_syntax s -> special_scheme (lower s) = false ->
  Forall (fun c => c <> 47 /\ c <> 63 /\ c <> 35) (ui ++ hp) -> no_tabs ui -> vis hp -> mem 64 hp = false -> ends_head r ->
  flat_parse E (s ++ $"://" ++ ui ++ 64 :: hp ++ r) base enc = Ok u ->
  username u = enc_userinfo (fst (split_first 58 ui)) /\ password u = enc_userinfo (snd (split_first 58 ui)).
Proof.
  intros H S A T V M R Q. rewrite ns_input in Q by auto. rewrite rclean_mid in Q by reflexivity. rewrite remove_tabs_id, rclean_app in Q by auto.
  unfold flat_authority in Q. change (is_special (set_scheme (lower s) new_url)) with (special_scheme (lower s)) in Q. rewrite S in Q.
  apply Forall_app in A as [A1 A2].
  change (ui ++ 64 :: hp ++ rclean r) with (ui ++ (64 :: hp) ++ rclean r) in Q. rewrite app_assoc in Q. rewrite ns_authority_span in Q.
  - rewrite split_last_app in Q by auto. destruct (_ =? _)%nat; [discriminate|].
    assert (C : username (set_creds ui (set_scheme (lower s) new_url)) = enc_userinfo (fst (split_first 58 ui)) /\
                password (set_creds ui (set_scheme (lower s) new_url)) = enc_userinfo (snd (split_first 58 ui))).
    { unfold set_creds. destruct (split_first 58 ui). split; reflexivity. }
    destruct C as [<- <-]. split.
    + pose proof (keeps_host username ltac:(reflexivity) ltac:(reflexivity) ltac:(reflexivity) ltac:(reflexivity) ltac:(reflexivity)
        E (normalize_encoding E enc) (set_creds ui (set_scheme (lower s) new_url)) hp (rclean r)) as K. rewrite Q in K. exact K.
    + pose proof (keeps_host password ltac:(reflexivity) ltac:(reflexivity) ltac:(reflexivity) ltac:(reflexivity) ltac:(reflexivity)
        E (normalize_encoding E enc) (set_creds ui (set_scheme (lower s) new_url)) hp (rclean r)) as K. rewrite Q in K. exact K.
  - apply Forall_app. split; [exact A1|]. constructor; [lia|exact A2].
  - now apply ends_head_rclean.
Qed.
Lemma join_chars_sep x l c : In c (join [x] l) -> c = x \/ exists s, In s l /\ In c s.
Proof.
  induction l as [|s l IH]; [intros []|]. destruct l as [|s' l]; [cbn [join]; intros H; right; exists s; split; [now left|exact H]|].
  rewrite join_cons2. rewrite !in_app_iff. intros [H|[[H|[]]|H]]; [right; exists s; split; [now left|exact H]|now left|].
  destruct (IH H) as [K|(y & Y & K)]; [now left|right]. exists y. split; [now right|exact K].
Qed.
(** IPv6 addresses contain no backslash *)
Lemma chunk_plain E i p vs : chunk E i p = Ok vs -> ~ In 92 p.
Proof.
  unfold chunk. destruct (negb (mem 46 p)).
  - destruct (hex_chunk p) as [v|] eqn:Q; [|discriminate]. intros _ I. apply hex_chunk_some in Q. apply orb_false_iff in Q as [_ Q].
    assert (X : existsb (fun x => negb (mem x ASCII_HEX_DIGITS)) p = true) by (apply existsb_exists; exists 92; split; [exact I|reflexivity]). congruence.
  - destruct (6 <? i)%nat; [discriminate|]. unfold v4_chunk. cbv zeta. destruct ((4 <? length (split 46 p))%nat || existsb bad_ipv4_piece (split 46 p)) eqn:Q; [discriminate|].
    intros _ I. apply orb_false_iff in Q as [_ Q]. rewrite <- (join_split 46 p) in I. apply join_chars_sep in I as [I|(s & S & I)]; [discriminate|].
    assert (X : existsb bad_ipv4_piece (split 46 p) = true); [|congruence]. apply existsb_exists. exists s. split; [exact S|].
    unfold bad_ipv4_piece. rewrite (proj2 (existsb_exists (fun x => negb (mem x ASCII_DIGITS)) s)); [now rewrite orb_true_r|]. exists 92. split; [exact I|reflexivity].
Qed.
Lemma v6_loop_plain E : forall n rest l comp prev st, (length rest <= n)%nat -> (prev = None \/ prev = Some 58) -> (length l <= 8)%nat ->
  snd (ipv6_loop E rest (v6st l comp [] prev)) = Ok st -> ~ In 92 rest.
Proof.
  induction n as [|n IH]; intros rest l comp prev st Hn Hprev Hl;
  (destruct (Nat.eq_dec (length l) 8) as [L8|L8]; [rewrite loop_full by lia; discriminate|];
   assert (Hl' : (length l < 8)%nat) by lia).
  - destruct rest; [intros _ []|cbn in Hn; lia].
  - destruct (chunk_split rest) as [Hc|(p & t & -> & Hc)].
    + destruct rest as [|c rest]; [intros _ []|]. rewrite L_piece_eof by (auto; discriminate).
      destruct (chunk E (length l) (c :: rest)) as [vs|e] eqn:K; [|discriminate]. intros _. eapply chunk_plain; eauto.
    + rewrite app_length in Hn. cbn [length] in Hn. rewrite in_app_iff. destruct p as [|c p].
      * cbn [app length]. destruct Hprev as [-> | ->].
        -- rewrite L_start_colon by auto. intros H [[]|[H'|H']]; [discriminate|]. revert H'. apply (IH t _ _ _ st) in H; auto; [lia|rewrite app_length; cbn; lia].
        -- rewrite L_colon_colon by auto. destruct comp as [k|]; [discriminate|]. intros H [[]|[H'|H']]; [discriminate|]. revert H'.
           apply (IH t _ _ _ st) in H; auto; [lia|rewrite app_length; cbn; lia].
      * rewrite L_piece_colon by (auto; discriminate). destruct (chunk E (length l) (c :: p)) as [vs|e] eqn:K; [|discriminate].
        pose proof (chunk_len _ _ _ _ K Hl'). intros H'' [H'|[H'|H']]; [revert H'; eapply chunk_plain; eauto|discriminate|]. revert H'.
        apply (IH t _ _ _ st) in H''; auto; [cbn [length] in Hn; lia|rewrite app_length; lia].
Qed.
Lemma ipv6_plain E s a : snd (ipv6_parse E s) = Ok a -> ~ In 92 s.
Proof.
  rewrite ipv6_parse_eq. destruct (starts_with [58] s) eqn:S1; [destruct (starts_with [58; 58] s) eqn:S2; [|discriminate]|].
  - destruct (snd (ipv6_loop E (skipn 2 s) _)) as [st|] eqn:Q; [|discriminate]. intros _.
    apply (v6_loop_plain E (length (skipn 2 s))) in Q; [|lia|auto|cbn; lia].
    destruct s as [|x s]; [discriminate|]. destruct (N.eqb_spec 58 x) as [<-|NX]; [|apply N.eqb_neq in NX; cbn [starts_with] in S2; rewrite NX in S2; discriminate].
    destruct s as [|y s]; [discriminate|]. destruct (N.eqb_spec 58 y) as [<-|NY]; [|apply N.eqb_neq in NY; cbn [starts_with] in S2; rewrite NY, andb_false_r in S2; discriminate].
    cbn [skipn] in Q. intros [H|[H|H]]; [discriminate|discriminate|tauto].
  - destruct (snd (ipv6_loop E s _)) as [st|] eqn:Q; [|discriminate]. intros _. apply (v6_loop_plain E (length s)) in Q; auto. cbn; lia.
Qed.
Lemma opaque_host_backslash E h : h <> [] -> In 92 h -> exists e, snd (host_parse E h true) = Err e.
Proof.
  intros N H. destruct (snd (host_parse E h true)) as [x|e] eqn:Q; [|now exists e]. exfalso.
  destruct (starts_with $"[" h) eqn:B.
  - destruct h as [|c t]; [congruence|]. change ($"[") with [91] in B. cbn [starts_with] in B. destruct (N.eqb_spec 91 c) as [<-|]; [|discriminate].
    cbn [host_parse] in Q. change (91 =? 91) with true in Q. cbv iota in Q. destruct (ends_with_char (91 :: t) 93) eqn:X; [|discriminate].
    rewrite snd_wbind' in Q. destruct (snd (ipv6_parse E (removelast t))) as [a|] eqn:V; [|discriminate]. apply ipv6_plain in V.
    destruct H as [H|H]; [discriminate|]. destruct t as [|d t' _] using rev_ind; [destruct H|]. rewrite removelast_last in V. apply in_app_iff in H as [H|[H|[]]]; [tauto|]. subst d.
    unfold ends_with_char in X. rewrite app_comm_cons, rev_app_distr in X. discriminate X.
  - rewrite host_parse_eq in Q by auto. revert Q. change ($"[") with [91] in B. rewrite B.
    destruct (snd (parse_opaque_host h)) as [y|] eqn:O; [|discriminate]. intros _.
    apply opaque_ok in O as [_ O]. specialize (O 92 H). discriminate.
Qed.
Lemma host_cut_in2 br a c : In c a -> c <> 58 -> In c (fst (host_cut br a)) \/ exists ps, snd (host_cut br a) = Some ps /\ In c ps.
Proof.
  intros H N. rewrite (host_cut_eq br a) in H. apply in_app_iff in H as [H|H]; [now left|]. right. destruct (snd (host_cut br a)) as [ps|]; [|destruct H].
  destruct H as [H|H]; [congruence|]. now exists ps.
Qed.
Lemma ns_host_backslash E enc u hp t : is_special u = false -> In 92 hp ->
  exists e, flat_host E enc u hp t = Err e.
Proof.
  intros S H. unfold flat_host. pose proof (host_cut_in2 false hp 92 H ltac:(lia)) as C.
  destruct (host_cut false hp) as [h p]. cbn [fst snd] in C. unfold is_not_special. rewrite S. unfold is_special in S. rewrite S. cbn [negb].
  destruct p as [ps|].
  - destruct (length h =? 0)%nat eqn:L; [now exists EURLParse|]. destruct (snd (host_parse E h true)) as [x|e] eqn:Q; [|now exists e].
    destruct C as [C|(ps' & C & C')].
    + assert (Hn : h <> []) by (destruct h; [destruct C|discriminate]). destruct (opaque_host_backslash E h Hn C) as [e X]. congruence.
    + apply Some_inj in C. subst ps'. cbn [rbind]. unfold flat_port. replace (forallb _ ps) with false; [now exists EURLParse|].
      symmetry. destruct (forallb _ ps) eqn:F; [|reflexivity]. rewrite forallb_forall in F. specialize (F 92 C'). discriminate.
  - destruct C as [C|(ps' & C & _)]; [|discriminate]. cbn [andb]. assert (Hn : h <> []) by (destruct h; [destruct C|discriminate]).
    destruct (opaque_host_backslash E h Hn C) as [e Q]. rewrite Q. exists e. reflexivity.
Qed.
Lemma ns_host_input E s a hp r base enc : scheme_syntax s -> special_scheme (lower s) = false ->
  a = [] \/ (exists ui, a = ui ++ [64] /\ no_tabs ui) -> Forall (fun c => c <> 47 /\ c <> 63 /\ c <> 35) (a ++ hp) -> vis hp ->
  mem 64 hp = false -> ends_head r -> In 92 hp ->
  exists e, flat_parse E (s ++ $"://" ++ a ++ hp ++ r) base enc = Err e.
Proof.
  intros H S A F V M R I. rewrite ns_input by auto.
  assert (X : rclean (a ++ hp ++ r) = a ++ hp ++ rclean r).
  { destruct A as [-> | (ui & -> & T)]; [cbn [app]; now apply rclean_app|]. rewrite <- !app_assoc. cbn [app]. rewrite rclean_mid by reflexivity. now rewrite remove_tabs_id, rclean_app. }
  rewrite X. unfold flat_authority. change (is_special (set_scheme (lower s) new_url)) with (special_scheme (lower s)). rewrite S.
  rewrite app_assoc, ns_authority_span; [|auto|now apply ends_head_rclean].
  destruct A as [-> | (ui & -> & T)].
  - cbn [app]. rewrite split_last_none by auto. now apply ns_host_backslash.
  - rewrite <- app_assoc. cbn [app]. rewrite split_last_app by auto. destruct (_ =? _)%nat; [now exists EURLParse|]. apply ns_host_backslash; auto. now rewrite creds_special.
Qed.

(* ---------- dot segments ---------- *)
Lemma dd_enc p : str_in p DOUBLE_DOT = true -> utf8_percent_encode p SAFE_PATH false = p.
Proof.
  intros H. unfold str_in in H. apply existsb_exists in H as (q & Q & X). apply str_eqb_eq in X. subst q.
  repeat (destruct Q as [<-|Q]; [vm_compute; reflexivity|]). destruct Q.
Qed.
Lemma sd_enc p : str_in p SINGLE_DOT = true -> utf8_percent_encode p SAFE_PATH false = p.
Proof.
  intros H. unfold str_in in H. apply existsb_exists in H as (q & Q & X). apply str_eqb_eq in X. subst q.
  repeat (destruct Q as [<-|Q]; [vm_compute; reflexivity|]). destruct Q.
Qed.
Lemma push_dd sch sep segs p : str_in p DOUBLE_DOT = true ->
  push sch sep segs p = if sep then shorten_segs sch segs else shorten_segs sch segs ++ [[]].
Proof. intros H. unfold push. cbv zeta. rewrite (dd_enc p H), H. reflexivity. Qed.
Lemma walk_app sch segs a b : b <> [] -> walk sch segs (a ++ b) = walk sch (fold_left (push sch true) a segs) b.
Proof.
  intros Hb. revert segs. induction a as [|p a IH]; intros segs; [reflexivity|]. cbn [app walk fold_left]. rewrite <- IH.
  destruct (a ++ b) eqn:Q; [|reflexivity]. apply app_eq_nil in Q as [_ Q]. congruence.
Qed.
(** a piece is a dot segment iff its encoding is one *)
Fixpoint okd (d : str) : bool :=
  match d with
  | [] => true
  | c :: r => (negb (c =? 37) || match r with h :: l :: _ => (h =? 50) && ((l =? 101) || (l =? 69)) | _ => false end) && okd r
  end.
Lemma okd_dots : forallb okd (DOUBLE_DOT ++ SINGLE_DOT) = true. Proof. vm_compute. reflexivity. Qed.
Lemma hex_upper_50 d : d < 16 -> hex_upper d = 50 -> d = 2.
Proof. unfold hex_upper. intros H. destruct (d <? 10) eqn:Q; lia. Qed.
Lemma hex_upper_e d : d < 16 -> hex_upper d = 101 \/ hex_upper d = 69 -> d = 14.
Proof. unfold hex_upper. intros H. destruct (d <? 10) eqn:Q; lia. Qed.
Lemma okd_bytes bs d : Forall (fun b => b < 256) bs -> okd d = true -> flat_map (enc_b false SAFE_PATH) bs = d -> bs = d.
Proof.
  intros H. revert d. induction H as [|b bs Hb Hbs IH]; intros d O Q; [exact Q|]. cbn [flat_map] in Q. unfold enc_b in Q at 1. cbn [andb] in Q.
  destruct (quote_safe SAFE_PATH b) eqn:S.
  - cbn [app] in Q. subst d. f_equal. apply IH; [|reflexivity]. cbn [okd] in O. apply andb_true_iff in O. apply O.
  - exfalso. unfold percent_byte in Q. cbn [app] in Q. subst d. cbn [okd] in O. change (37 =? 37) with true in O. cbn [negb orb] in O.
    apply andb_true_iff in O as [O _]. apply andb_true_iff in O as [O1 O2]. apply N.eqb_eq in O1. apply hex_upper_50 in O1; [|apply N.div_lt_upper_bound; lia].
    assert (O3 : b mod 16 = 14) by (apply hex_upper_e; [apply N.mod_lt; lia|lia]).
    pose proof (N.div_mod b 16 ltac:(lia)) as D. rewrite O1, O3 in D. change (16 * 2 + 14) with 46 in D. subst b. discriminate S.
Qed.
Lemma svs_ascii_id s : ascii_str (scalar_value_string s) -> scalar_value_string s = s.
Proof.
  intros H. apply svs_id. remember (length s) as n eqn:L. assert (L' : (length s <= n)%nat) by lia. clear L. revert s L' H.
  induction n as [|n IH]; intros s L H; [destruct s; [constructor|cbn in L; lia]|]. destruct s as [|c t]; [constructor|].
  assert (A : forall x, In x (scalar_value_string (c :: t)) -> x < 128) by (unfold ascii_str in H; rewrite Forall_forall in H; exact H).
  destruct t as [|d t].
  - cbn [scalar_value_string] in A. constructor; [|constructor]. rewrite is_high_low. destruct (leading c || trailing c) eqn:Q; [|exact Q].
    specialize (A _ (or_introl eq_refl)). lia.
  - rewrite svs_cons2 in A, H. destruct (leading c && trailing d).
    + specialize (A _ (or_introl eq_refl)). lia.
    + constructor; [rewrite is_high_low; destruct (leading c || trailing c) eqn:Q; [|exact Q]; specialize (A _ (or_introl eq_refl)); lia|].
      apply IH; [cbn [length] in *; lia|]. now inversion H.
Qed.
Lemma enc_dot p d : is_pystr p -> okd d = true -> ascii_str d -> utf8_percent_encode p SAFE_PATH false = d -> p = d.
Proof.
  intros Hp O A Q. rewrite utf8_percent_encode_eq in Q. apply okd_bytes in Q; [|now apply utf8_encode_bytes|exact O].
  pose proof (utf8_round_trip p Hp) as R. rewrite Q, decode_ascii in R by auto. rewrite R. symmetry. apply svs_ascii_id. now rewrite <- R.
Qed.
Lemma dots_ascii : forallb (forallb (fun c => c <? 128)) (DOUBLE_DOT ++ SINGLE_DOT) = true. Proof. vm_compute. reflexivity. Qed.
Lemma enc_in_dots p l : is_pystr p -> (forall d, In d l -> In d (DOUBLE_DOT ++ SINGLE_DOT)) ->
  str_in (utf8_percent_encode p SAFE_PATH false) l = str_in p l.
Proof.
  intros Hp HL.
  assert (D : forall d, In d l -> (utf8_percent_encode p SAFE_PATH false = d <-> p = d)).
  { intros d Hd. specialize (HL d Hd). pose proof okd_dots as O. pose proof dots_ascii as A. rewrite forallb_forall in O, A. specialize (O d HL). specialize (A d HL).
    assert (A' : ascii_str d) by (apply Forall_forall; intros c Hc; rewrite forallb_forall in A; specialize (A c Hc); cbv beta in A; lia).
    split; [now apply enc_dot|]. intros ->. apply in_app_iff in HL as [HL|HL].
    - apply dd_enc. unfold str_in. apply existsb_exists. exists d. split; [exact HL|now apply str_eqb_eq].
    - apply sd_enc. unfold str_in. apply existsb_exists. exists d. split; [exact HL|now apply str_eqb_eq]. }
  unfold str_in. apply eq_true_iff_eq. rewrite !existsb_exists. split; intros (d & Hd & X); exists d; (split; [exact Hd|]); apply str_eqb_eq in X; apply str_eqb_eq; now apply D.
Qed.
Lemma enc_dd p : is_pystr p -> str_in (utf8_percent_encode p SAFE_PATH false) DOUBLE_DOT = str_in p DOUBLE_DOT.
Proof. intros H. apply enc_in_dots; [exact H|]. intros d Hd. apply in_app_iff. now left. Qed.
Lemma enc_sd p : is_pystr p -> str_in (utf8_percent_encode p SAFE_PATH false) SINGLE_DOT = str_in p SINGLE_DOT.
Proof. intros H. apply enc_in_dots; [exact H|]. intros d Hd. apply in_app_iff. now right. Qed.
(** the model's lists and the specification *)
Lemma lower_inv c x : std_lower1 c = x -> c = x \/ (65 <= c <= 90 /\ c + 32 = x).
Proof. unfold std_lower1. destruct ((65 <=? c) && (c <=? 90)) eqn:Q; lia. Qed.
Lemma lower_cons s x t : std_lower s = x :: t -> exists c s', s = c :: s' /\ std_lower1 c = x /\ std_lower s' = t.
Proof. destruct s as [|c s]; [discriminate|]. cbn [std_lower map]. intros H. exists c, s. split; [reflexivity|]. split; [now injection H|now injection H]. Qed.
Ltac low H := repeat (apply lower_cons in H; destruct H as (? & ? & -> & ?L & H)); match type of H with std_lower ?s = [] => destruct s; [|discriminate] end;
  repeat match goal with L : std_lower1 _ = _ |- _ => apply lower_inv in L; destruct L as [-> | L] end;
  repeat match goal with L : _ <= ?c <= _ /\ ?c + 32 = ?n |- _ => is_var c; let v := eval vm_compute in (n - 32) in assert (c = v) by lia; subst c end.
Lemma dd_spec p : str_in p DOUBLE_DOT = std_double_dot p.
Proof.
  unfold std_double_dot. destruct (existsb _ _) eqn:X.
  - apply existsb_exists in X as (d & D & X). apply str_eqb_eq in X. vm_compute in D. destruct D as [<-|[<-|[<-|[<-|[]]]]]; low X; first [lia|reflexivity].
  - destruct (str_in p DOUBLE_DOT) eqn:Y; [|reflexivity]. exfalso. unfold str_in in Y. apply existsb_exists in Y as (d & D & Y). apply str_eqb_eq in Y. subst d.
    revert X. repeat (destruct D as [<-|D]; [vm_compute; discriminate|]). destruct D.
Qed.
Lemma sd_spec p : str_in p SINGLE_DOT = std_single_dot p.
Proof.
  unfold std_single_dot. destruct (existsb _ _) eqn:X.
  - apply existsb_exists in X as (d & D & X). apply str_eqb_eq in X. vm_compute in D. destruct D as [<-|[<-|[]]]; low X; first [lia|reflexivity].
  - destruct (str_in p SINGLE_DOT) eqn:Y; [|reflexivity]. exfalso. unfold str_in in Y. apply existsb_exists in Y as (d & D & Y). apply str_eqb_eq in Y. subst d.
    revert X. repeat (destruct D as [<-|D]; [vm_compute; discriminate|]). destruct D.
Qed.
Lemma removelast_len {A} (l : list A) : length (removelast l) = pred (length l).
Proof. induction l as [|x [|y l] IH]; [reflexivity|reflexivity|]. cbn [removelast length] in *. now rewrite IH. Qed.
Lemma shorten_len sch segs : sch <> $"file" -> length (shorten_segs sch segs) = pred (length segs).
Proof.
  intros H. destruct segs as [|s [|x l]]; [reflexivity| |unfold shorten_segs; apply removelast_len]. cbn [shorten_segs].
  destruct (str_eqb sch $"file") eqn:Q; [apply str_eqb_eq in Q; congruence|reflexivity].
Qed.
Lemma push_len sch segs p : sch <> $"file" -> is_pystr p ->
  length (push sch true segs p) = if std_double_dot p then pred (length segs) else if std_single_dot p then length segs else S (length segs).
Proof.
  intros H Hp. unfold push. cbv zeta. rewrite enc_dd, enc_sd, dd_spec, sd_spec by auto. destruct (std_double_dot p); [now apply shorten_len|].
  destruct (std_single_dot p); [reflexivity|]. rewrite app_length. cbn [length]. lia.
Qed.
Lemma fold_depth sch a segs : sch <> $"file" -> Forall (fun p => is_pystr p) a ->
  length (fold_left (push sch true) a segs) = net_depth (length segs) a.
Proof.
  intros H A. revert segs. induction A as [|p a Hp Ha IH]; intros segs; [reflexivity|]. cbn [fold_left net_depth]. rewrite IH, push_len by auto. reflexivity.
Qed.
Lemma walk_excess sch a b : sch <> $"file" -> Forall (fun p => is_pystr p) a -> b <> [] -> net_depth 0 a = 0%nat -> walk sch [] (a ++ b) = walk sch [] b.
Proof.
  intros H A Hb D. rewrite walk_app by auto. pose proof (fold_depth sch a [] H A) as L. cbn [length] in L. rewrite D in L.
  destruct (fold_left (push sch true) a []); [reflexivity|discriminate].
Qed.
Lemma fold_dd sch segs a : Forall (fun p => std_double_dot p = true) a -> shorten_segs sch segs = segs -> fold_left (push sch true) a segs = segs.
Proof.
  intros A S. induction A as [|p a Hp Ha IH]; [reflexivity|]. cbn [fold_left]. rewrite push_dd by now rewrite dd_spec. now rewrite S.
Qed.
(** every segment of the result comes from the input *)
Definition drive_norm (b : str) : str := firstn 1 b ++ $":".
Definition seg_from (ps : list str) (s : str) : Prop :=
  s = [] \/ exists p, In p ps /\ (s = utf8_percent_encode p SAFE_PATH false \/
    (is_windows_drive_letter (utf8_percent_encode p SAFE_PATH false) = true /\ s = drive_norm (utf8_percent_encode p SAFE_PATH false))).
Lemma shorten_incl sch segs x : In x (shorten_segs sch segs) -> In x segs.
Proof. destruct (shorten_prefix sch segs) as [y Q]. intros H. rewrite Q. apply in_app_iff. now left. Qed.
Lemma push_from sch sep segs p x : In x (push sch sep segs p) -> In x segs \/ x = [] \/
  x = utf8_percent_encode p SAFE_PATH false \/
    (sch = $"file" /\ is_windows_drive_letter (utf8_percent_encode p SAFE_PATH false) = true /\ x = drive_norm (utf8_percent_encode p SAFE_PATH false)).
Proof.
  unfold push. cbv zeta. set (b := utf8_percent_encode p SAFE_PATH false). destruct (str_in b DOUBLE_DOT).
  - destruct sep; [intros H; left; now apply shorten_incl in H|]. rewrite in_app_iff. intros [H|[H|[]]]; [left; now apply shorten_incl in H|right; left; auto].
  - destruct (str_in b SINGLE_DOT).
    + destruct sep; [now left|]. rewrite in_app_iff. intros [H|[H|[]]]; [now left|right; left; auto].
    + rewrite in_app_iff. intros [H|[H|[]]]; [now left|]. right; right. destruct (_ && _) eqn:C; [|left; auto]. right.
      apply andb_true_iff in C as [C W]. apply andb_true_iff in C as [C _]. apply str_eqb_eq in C. split; [exact C|]. split; [exact W|]. now symmetry.
Qed.
Lemma walk_from sch ps segs x : In x (walk sch segs ps) -> In x segs \/ x = [] \/ exists p, In p ps /\
  (x = utf8_percent_encode p SAFE_PATH false \/
    (sch = $"file" /\ is_windows_drive_letter (utf8_percent_encode p SAFE_PATH false) = true /\ x = drive_norm (utf8_percent_encode p SAFE_PATH false))).
Proof.
  revert segs. induction ps as [|p ps IH]; intros segs H; [now left|]. cbn [walk] in H.
  assert (G : forall sep, In x (push sch sep segs p) -> In x segs \/ x = [] \/ exists p', In p' (p :: ps) /\
    (x = utf8_percent_encode p' SAFE_PATH false \/
    (sch = $"file" /\ is_windows_drive_letter (utf8_percent_encode p' SAFE_PATH false) = true /\ x = drive_norm (utf8_percent_encode p' SAFE_PATH false)))).
  { intros sep X. apply push_from in X as [X|[X|X]]; [now left|right; now left|]. right; right. exists p. split; [now left|exact X]. }
  destruct ps as [|p' ps]; [eapply G; exact H|]. apply IH in H as [H|[H|(q & Q & H)]]; [eapply G; exact H|right; now left|]. right; right. exists q. split; [now right|exact H].
Qed.
(** a normalized drive letter at the head stays *)
Definition drive_head (d : str) (l : list str) : Prop := exists l', l = d :: l'.
Lemma shorten_drive d l : is_normalized_windows_drive_letter d = true -> drive_head d l -> drive_head d (shorten_segs $"file" l).
Proof.
  intros N [l' ->]. destruct l' as [|x l']; [cbn [shorten_segs]; rewrite N; now exists []|]. cbn [shorten_segs]. exists (removelast (x :: l')). reflexivity.
Qed.
Lemma push_drive d sep l p : is_normalized_windows_drive_letter d = true -> drive_head d l -> drive_head d (push $"file" sep l p).
Proof.
  intros N H. unfold push. cbv zeta. set (b := utf8_percent_encode p SAFE_PATH false). pose proof (shorten_drive d l N H) as H'.
  assert (A : forall l x, drive_head d l -> drive_head d (l ++ x)) by (intros l0 x [l' ->]; now exists (l' ++ x)).
  destruct (str_in b DOUBLE_DOT); [destruct sep; auto|]. destruct (str_in b SINGLE_DOT); [destruct sep; auto|]. auto.
Qed.
Lemma walk_drive d ps l : is_normalized_windows_drive_letter d = true -> drive_head d l -> drive_head d (walk $"file" l ps).
Proof.
  intros N. revert l. induction ps as [|p ps IH]; intros l H; [exact H|]. cbn [walk]. destruct ps; [now apply push_drive|]. apply IH. now apply push_drive.
Qed.

(* ---------- C73 ---------- *)
Lemma alpha_class c : mem c ASCII_ALPHA = true -> std_alpha c = true.
Proof.
  intros H. assert (Q : forallb std_alpha ASCII_ALPHA = true) by (vm_compute; reflexivity). rewrite forallb_forall in Q. apply Q. now apply mem_In.
Qed.
Lemma alpha_class_inv c : std_alpha c = true -> mem c ASCII_ALPHA = true.
Proof.
  intros H. apply mem_In. unfold std_alpha in H. assert (Q : forall n, (n < 26)%nat -> In (N.of_nat n + 65) ASCII_ALPHA /\ In (N.of_nat n + 97) ASCII_ALPHA).
  { intros n Hn. do 26 (destruct n as [|n]; [split; vm_compute; tauto|]). lia. }
  destruct ((65 <=? c) && (c <=? 90)) eqn:X.
  - specialize (Q (N.to_nat (c - 65)) ltac:(lia)) as [Q _]. now replace (N.of_nat (N.to_nat (c - 65)) + 65) with c in Q by lia.
  - specialize (Q (N.to_nat (c - 97)) ltac:(lia)) as [_ Q]. now replace (N.of_nat (N.to_nat (c - 97)) + 97) with c in Q by lia.
Qed.
Lemma drive_spec d : std_drive_letter d = true -> is_normalized_windows_drive_letter d = true.
Proof.
  destruct d as [|a [|b [|x l]]]; try discriminate. unfold std_drive_letter. intros H. apply andb_true_iff in H as [A B]. apply N.eqb_eq in B. subst b.
  unfold is_normalized_windows_drive_letter, is_windows_drive_letter. now rewrite alpha_class_inv.
Qed.
Lemma drive_not_starts c t : mem c ASCII_ALPHA = false -> starts_with_windows_drive_letter (c :: t) = false.
Proof.
  intros H. unfold starts_with_windows_drive_letter. destruct t as [|d t]; [reflexivity|]. cbn [firstn is_windows_drive_letter]. rewrite H. now rewrite andb_false_r.
Qed.
Lemma tail_path E enc u t v : flat_tail E enc u t = Ok v -> path v = path u.
Proof. intros H. pose proof (keeps_tail path ltac:(reflexivity) ltac:(reflexivity) E enc u t) as K. rewrite H in K. exact K. Qed.
Lemma file_dots P E enc b d l c t u : wf P b -> scheme b = $"file" -> path b = PList (d :: l) -> std_drive_letter d = true -> c = 46 \/ c = 37 ->
  flat_parse E (c :: t) (Some b) enc = Ok u -> (exists l', path u = PList (d :: l')) /\ uhost u = uhost b.
Proof.
  intros W S Q D C H. assert (A : mem c ASCII_ALPHA = false /\ is_c0_space c = false /\ is_slash c = false /\ is_qf c = false) by (destruct C as [-> | ->]; vm_compute; auto).
  destruct A as (A1 & A2 & A3 & A4). rewrite flat_ref in H by auto. unfold flat_no_scheme, has_opaque_path in H. rewrite Q, S in H.
  change (str_eqb $"file" $"file") with true in H. cbv iota in H. unfold flat_file in H. cbv zeta in H. rewrite A3, S in H.
  change (str_eqb $"file" $"file") with true in H. cbv iota in H. rewrite A4, drive_not_starts in H by auto.
  split.
  - unfold flat_path in H. destruct (span _ _) as [p r]. apply tail_path in H. rewrite H. cbn [path set_path]. unfold path_segs at 1. cbn [path set_path].
    change (scheme (set_path _ _)) with $"file". change (scheme (set_query _ _)) with $"file".
    unfold path_segs. rewrite Q.
    destruct (walk_drive d (pieces (is_special (set_path (PList (shorten_segs $"file" (d :: l))) (set_query None (file_base_url b file_url)))) p)
                (shorten_segs $"file" (d :: l)) (drive_spec d D)) as [l' L]; [apply shorten_drive; [now apply drive_spec|now exists l]|]. exists l'. f_equal. exact L.
  - pose proof (keeps_path uhost ltac:(reflexivity) ltac:(reflexivity) ltac:(reflexivity) E (normalize_encoding E enc)
      (set_path (PList (shorten_segs (scheme (set_query None (file_base_url b file_url))) (path_segs b))) (set_query None (file_base_url b file_url))) (c :: rclean t)) as K.
    rewrite H in K. exact K.
Qed.

(* ---------- C74 ---------- *)
Definition piece_char (c : N) : Prop := c <> 47 /\ c <> 92 /\ c <> 63 /\ c <> 35 /\ is_tab_newline c = false.
Definition slash_each (a : list str) : str := flat_map (fun p => p ++ [47]) a.
Definition excess (sch : str) (a : list str) : Prop :=
  (sch <> $"file" /\ net_depth 0 a = 0%nat) \/ Forall (fun p => std_double_dot p = true) a.
Lemma piece_tabs p : Forall piece_char p -> no_tabs p. Proof. apply Forall_impl. unfold piece_char. tauto. Qed.
Lemma rclean_pieces a rest : Forall (Forall piece_char) a -> rclean (slash_each a ++ rest) = slash_each a ++ rclean rest.
Proof.
  intros H. induction H as [|p a Hp Ha IH]; [reflexivity|]. unfold slash_each in *. cbn [flat_map]. rewrite <- !app_assoc. cbn [app].
  rewrite rclean_mid by reflexivity. rewrite remove_tabs_id, IH by now apply piece_tabs. reflexivity.
Qed.
Lemma piece_no92 p : Forall piece_char p -> map (fun c => if c =? 92 then 47 else c) p = p.
Proof. induction 1 as [|c p Hc Hp IH]; [reflexivity|]. cbn [map]. rewrite IH. unfold piece_char in Hc. destruct (N.eqb_spec c 92); [tauto|reflexivity]. Qed.
Lemma piece_no47 p : Forall piece_char p -> mem 47 p = false.
Proof. intros H. apply mem_not_In. intros I. rewrite Forall_forall in H. destruct (H _ I). congruence. Qed.
Lemma pieces_app sp p x : Forall piece_char p -> pieces sp (p ++ 47 :: x) = p :: pieces sp x.
Proof.
  intros H. unfold pieces, norm_slash. destruct sp; [|now apply split_app, piece_no47]. unfold replace_char. rewrite map_app, piece_no92 by auto.
  cbn [map]. change (47 =? 92) with false. cbv iota. apply split_app. now apply piece_no47.
Qed.
Lemma pieces_each sp a x : Forall (Forall piece_char) a -> pieces sp (slash_each a ++ x) = a ++ pieces sp x.
Proof.
  intros H. induction H as [|p a Hp Ha IH]; [reflexivity|]. unfold slash_each in *. cbn [flat_map]. rewrite <- !app_assoc. cbn [app].
  rewrite pieces_app by auto. now rewrite IH.
Qed.
Lemma pieces_ne sp x : pieces sp x <> []. Proof. apply split_not_nil. Qed.
Lemma walk_excess' sch a b segs : excess sch a -> Forall (fun p => is_pystr p) a -> b <> [] ->
  segs = [] \/ (Forall (fun p => std_double_dot p = true) a /\ shorten_segs sch segs = segs) -> walk sch segs (a ++ b) = walk sch segs b.
Proof.
  intros X A Hb [-> | [D S]].
  - destruct X as [[H D]|D]; [now apply walk_excess|]. rewrite walk_app by auto. now rewrite fold_dd.
  - rewrite walk_app by auto. now rewrite fold_dd.
Qed.
Lemma each_qf a : Forall (Forall piece_char) a -> Forall (fun c => negb (is_qf c) = true) (slash_each a).
Proof.
  intros H. induction H as [|p a Hp Ha IH]; [constructor|]. unfold slash_each in *. cbn [flat_map]. rewrite !Forall_app. split; [split|exact IH].
  - eapply Forall_impl; [|exact Hp]. intros c (_ & _ & C & D & _). cbv beta. rewrite qf_eq. lia.
  - constructor; [reflexivity|constructor].
Qed.
Lemma span_app' p a t : Forall (fun c => p c = true) a -> span p (a ++ t) = (a ++ fst (span p t), snd (span p t)).
Proof. intros H. induction H as [|c a Hc Ha IH]; [cbn [app]; now destruct (span p t)|]. cbn [app span]. rewrite Hc, IH. reflexivity. Qed.
Section Excess.
Context (E : env) (enc : str) (a : list str) (x : str).
Context (HA : Forall (Forall piece_char) a) (HP : Forall (fun p => is_pystr p) a).
Lemma ex_path u : excess (scheme u) a -> path_segs u = [] -> flat_path E enc u (slash_each a ++ x) = flat_path E enc u x.
Proof.
  intros X S. unfold flat_path. rewrite span_app' by now apply each_qf. destruct (span _ x) as [p r]. cbn [fst snd]. rewrite S.
  rewrite pieces_each by auto. rewrite walk_excess'; auto. apply pieces_ne.
Qed.
Lemma ex_path_start u : excess (scheme u) a -> path_segs u = [] -> flat_path_start E enc u (47 :: slash_each a ++ x) = flat_path_start E enc u (47 :: x).
Proof.
  intros X S. unfold flat_path_start. change (is_slash 47) with true. change (is_qf 47) with false. change (47 =? 47) with true. cbv iota.
  rewrite ex_path by auto. reflexivity.
Qed.
Lemma ex_host u hp : excess (scheme u) a -> path_segs u = [] -> flat_host E enc u hp (47 :: slash_each a ++ x) = flat_host E enc u hp (47 :: x).
Proof.
  intros X S. unfold flat_host. destruct (host_cut false hp) as [h [ps|]].
  - destruct (_ =? _)%nat; [reflexivity|]. destruct (snd _) as [y|]; [|reflexivity]. cbn [rbind]. destruct (flat_port _ _ _) as [p|]; [|reflexivity]. cbn [rbind].
    now apply ex_path_start.
  - destruct (_ && _); [reflexivity|]. destruct (snd _) as [y|]; [|reflexivity]. cbn [rbind]. now apply ex_path_start.
Qed.
Lemma creds_scheme ui u : scheme (set_creds ui u) = scheme u /\ path_segs (set_creds ui u) = path_segs u.
Proof. unfold set_creds. destruct (split_first 58 ui). split; reflexivity. Qed.
Lemma ex_authority u auth : Forall piece_char auth -> excess (scheme u) a -> path_segs u = [] ->
  flat_authority E enc u (auth ++ 47 :: slash_each a ++ x) = flat_authority E enc u (auth ++ 47 :: x).
Proof.
  intros HU X S. unfold flat_authority. rewrite !span_app; try reflexivity.
  - destruct (split_last 64 auth) as [[ui hp]|]; [|now apply ex_host]. destruct (_ =? _)%nat; [reflexivity|].
    destruct (creds_scheme ui u) as [C1 C2]. apply ex_host; congruence.
  - eapply Forall_impl; [|exact HU]. intros c (H1 & H2 & H3 & H4 & _). cbv beta. unfold ends_auth. change ($"/?#") with [47; 63; 35]. cbn [mem existsb].
    destruct (is_special u); lia.
  - eapply Forall_impl; [|exact HU]. intros c (H1 & H2 & H3 & H4 & _). cbv beta. unfold ends_auth. change ($"/?#") with [47; 63; 35]. cbn [mem existsb].
    destruct (is_special u); lia.
Qed.
Lemma drive_pieces auth : is_windows_drive_letter auth = true -> exists d, push $"file" true [] auth = [d] /\ is_normalized_windows_drive_letter d = true.
Proof.
  intros W. destruct (firstn1_wdl auth W) as (y & z & -> & Y). assert (Z : z = 58 \/ z = 124).
  { unfold is_windows_drive_letter in W. apply andb_true_iff in W as [_ W]. change ($":|") with [58; 124] in W. cbn [mem existsb] in W. lia. }
  exists [y; 58].
  assert (ND : forall q, str_in [y; q] DOUBLE_DOT = true -> y = 46).
  { intros q I. unfold str_in in I. apply existsb_exists in I as (d & D & I). apply str_eqb_eq in I. subst d. vm_compute in D. repeat (destruct D as [D|D]; [first [discriminate D|injection D as <- _; reflexivity]|]). destruct D. }
  assert (NS : forall q, str_in [y; q] SINGLE_DOT = false).
  { intros q. destruct (str_in _ _) eqn:I; [|reflexivity]. unfold str_in in I. apply existsb_exists in I as (d & D & I). apply str_eqb_eq in I. subst d. vm_compute in D. repeat (destruct D as [D|D]; [discriminate D|]). destruct D. }
  assert (Y46 : y <> 46) by (intros ->; discriminate Y).
  split; [|unfold is_normalized_windows_drive_letter, is_windows_drive_letter; now rewrite Y].
  assert (EN : utf8_percent_encode [y; z] SAFE_PATH false = [y; z]).
  { apply qs_id. unfold qs. cbn [forallb]. rewrite alpha_safe by auto. destruct Z as [-> | ->]; reflexivity. }
  unfold push. cbv zeta. rewrite EN, NS. destruct (str_in [y; z] DOUBLE_DOT) eqn:I; [apply ND in I; congruence|]. rewrite W. reflexivity.
Qed.
Lemma ex_file_host auth : Forall piece_char auth -> Forall (fun p => std_double_dot p = true) a ->
  flat_file_host E enc file_url (auth ++ 47 :: slash_each a ++ x) = flat_file_host E enc file_url (auth ++ 47 :: x).
Proof.
  intros HU X. assert (SP : Forall (fun c => negb (mem c $"/\?#") = true) auth).
  { eapply Forall_impl; [|exact HU]. intros c (H1 & H2 & H3 & H4 & _). cbv beta. change ($"/\?#") with [47; 92; 63; 35]. cbn [mem existsb]. lia. }
  unfold flat_file_host. rewrite !span_app by (auto; reflexivity). destruct (is_windows_drive_letter auth) eqn:W.
  - unfold flat_path. assert (Q : Forall (fun c => negb (is_qf c) = true) (auth ++ [47])).
    { apply Forall_app. split; [|constructor; [reflexivity|constructor]]. eapply Forall_impl; [|exact HU]. intros c (_ & _ & C & D & _). cbv beta. rewrite qf_eq. lia. }
    change (auth ++ 47 :: slash_each a ++ x) with (auth ++ [47] ++ slash_each a ++ x). change (auth ++ 47 :: x) with (auth ++ [47] ++ x).
    rewrite !(app_assoc auth). rewrite !(span_app' _ (auth ++ [47])) by auto. rewrite span_app' by now apply each_qf. destruct (span _ x) as [p r]. cbn [fst snd].
    do 3 f_equal. rewrite <- !app_assoc. cbn [app]. rewrite !pieces_app, pieces_each by auto. destruct (drive_pieces auth W) as (d & D & N).
    assert (PS : path_segs file_url = []) by reflexivity. assert (SF : scheme file_url = $"file") by reflexivity. rewrite PS, SF.
    cbn [walk]. rewrite D. pose proof (pieces_ne (is_special file_url) p) as NE. set (w := pieces (is_special file_url) p) in *.
    destruct (a ++ w) eqn:AW; [apply app_eq_nil in AW as [_ AW]; congruence|]. rewrite <- AW. f_equal. destruct w; [congruence|].
    apply walk_excess'; [now right|exact HP|discriminate|]. right. split; [exact X|]. cbn [shorten_segs]. now rewrite N.
  - destruct auth as [|c auth].
    + cbn [app]. now apply ex_path_start; [right|].
    + destruct (snd _) as [y|]; [|reflexivity]. cbn [rbind]. now apply ex_path_start; [right|].
Qed.
End Excess.
Lemma excess_input E s auth a rest base enc : scheme_syntax s -> Forall piece_char auth -> (special_scheme (lower s) = true -> lower s <> $"file" -> auth <> []) ->
  Forall (Forall piece_char) a -> Forall (fun p => is_pystr p) a -> excess (lower s) a ->
  flat_parse E (s ++ $"://" ++ auth ++ $"/" ++ slash_each a ++ rest) base enc = flat_parse E (s ++ $"://" ++ auth ++ $"/" ++ rest) base enc.
Proof.
  intros H HU HN HA HP X. 
  change (s ++ $"://" ++ auth ++ $"/" ++ slash_each a ++ rest) with (s ++ 58 :: 47 :: 47 :: auth ++ 47 :: slash_each a ++ rest).
  change (s ++ $"://" ++ auth ++ $"/" ++ rest) with (s ++ 58 :: 47 :: 47 :: auth ++ 47 :: rest).
  rewrite !flat_scheme_input by auto. rewrite !vis2 by reflexivity. rewrite !rclean_mid by reflexivity. rewrite remove_tabs_id by now apply piece_tabs.
  rewrite rclean_pieces by auto. set (x := rclean rest). unfold flat_scheme. cbv zeta. destruct (str_eqb (lower s) $"file") eqn:F.
  - apply str_eqb_eq in F. assert (D : Forall (fun p => std_double_dot p = true) a) by (destruct X as [[X _]|X]; [congruence|exact X]).
    unfold flat_file. cbv zeta. change (is_slash 47) with true. cbv iota. unfold flat_file_slash. change (is_slash 47) with true. cbv iota. now apply ex_file_host.
  - destruct (special_scheme (lower s)) eqn:S.
    + assert (N : auth <> []) by (apply HN; [auto|intros Q; rewrite Q in F; discriminate F]).
      assert (DW : forall y, drop_while is_slash (47 :: 47 :: auth ++ 47 :: y) = auth ++ 47 :: y).
      { intros y. rewrite drop_slash2. apply drop_while_stop. destruct auth as [|c auth]; [congruence|]. cbn [app]. inversion HU as [|? ? (C1 & C2 & _) ?]; subst. rewrite slash_eq. lia. }
      assert (A : forall y, match base with
        | Some b => if str_eqb (scheme b) (lower s) && negb (starts_with $"//" (47 :: 47 :: auth ++ 47 :: y)) then flat_relative E b (normalize_encoding E enc) (47 :: 47 :: auth ++ 47 :: y)
          else flat_authority E (normalize_encoding E enc) (set_scheme (lower s) new_url) (drop_while is_slash (47 :: 47 :: auth ++ 47 :: y))
        | None => flat_authority E (normalize_encoding E enc) (set_scheme (lower s) new_url) (drop_while is_slash (47 :: 47 :: auth ++ 47 :: y)) end
        = flat_authority E (normalize_encoding E enc) (set_scheme (lower s) new_url) (auth ++ 47 :: y)).
      { intros y. rewrite DW. change (starts_with $"//" (47 :: 47 :: auth ++ 47 :: y)) with true. destruct base; [|reflexivity]. now rewrite andb_false_r. }
      rewrite !A. now apply ex_authority.
    + change (47 =? 47) with true. cbv iota. now apply ex_authority.
Qed.

(** the path after an authority *)
Definition path_of (u : urlrec) (X : str) : upath :=
  PList (walk (scheme u) (path_segs u) (pieces (is_special u) (fst (span (fun c => negb (is_qf c)) X)))).
Lemma path_path E enc u X v : flat_path E enc u X = Ok v -> path v = path_of u X.
Proof. unfold flat_path, path_of. destruct (span _ X) as [p r]. intros H. apply tail_path in H. exact H. Qed.
Lemma path_start_path E enc u X v : flat_path_start E enc u (47 :: X) = Ok v -> path v = path_of u X.
Proof.
  unfold flat_path_start. change (is_slash 47) with true. change (is_qf 47) with false. change (47 =? 47) with true. cbv iota.
  destruct (is_special u); apply path_path.
Qed.
Lemma host_path E enc u hp X v : flat_host E enc u hp (47 :: X) = Ok v -> path v = path_of u X.
Proof.
  unfold flat_host. destruct (host_cut false hp) as [h [ps|]].
  - destruct (_ =? _)%nat; [discriminate|]. destruct (snd _) as [y|]; [|discriminate]. cbn [rbind]. destruct (flat_port _ _ _) as [p|]; [|discriminate]. cbn [rbind].
    intros H. apply path_start_path in H. exact H.
  - destruct (_ && _); [discriminate|]. destruct (snd _) as [y|]; [|discriminate]. cbn [rbind]. intros H. apply path_start_path in H. exact H.
Qed.
Lemma authority_path E enc u auth X v : Forall piece_char auth -> flat_authority E enc u (auth ++ 47 :: X) = Ok v -> path v = path_of u X.
Proof.
  intros HU. unfold flat_authority. rewrite span_app; try reflexivity.
  - destruct (split_last 64 auth) as [[ui hp]|]; [|now apply host_path]. destruct (_ =? _)%nat; [discriminate|].
    intros H. apply host_path in H. rewrite H. unfold path_of. rewrite creds_special. now destruct (creds_scheme ui u) as [-> ->].
  - eapply Forall_impl; [|exact HU]. intros c (H1 & H2 & H3 & H4 & _). cbv beta. unfold ends_auth. change ($"/?#") with [47; 63; 35]. cbn [mem existsb].
    destruct (is_special u); lia.
Qed.
Lemma input_path E s auth X base enc v : scheme_syntax s -> lower s <> $"file" -> Forall piece_char auth -> (special_scheme (lower s) = true -> auth <> []) ->
  flat_parse E (s ++ $"://" ++ auth ++ $"/" ++ X) base enc = Ok v ->
  path v = PList (walk (lower s) [] (pieces (special_scheme (lower s)) (fst (span (fun c => negb (is_qf c)) (rclean X))))).
Proof.
  intros H NF HU HN. change (s ++ $"://" ++ auth ++ $"/" ++ X) with (s ++ 58 :: 47 :: 47 :: auth ++ 47 :: X).
  rewrite flat_scheme_input by auto. rewrite vis2 by reflexivity. rewrite rclean_mid by reflexivity. rewrite remove_tabs_id by now apply piece_tabs.
  unfold flat_scheme. cbv zeta. destruct (str_eqb (lower s) $"file") eqn:F; [apply str_eqb_eq in F; congruence|].
  set (x := rclean X). intros Q. change (path v = path_of (set_scheme (lower s) new_url) x).
  assert (Q' : flat_authority E (normalize_encoding E enc) (set_scheme (lower s) new_url) (auth ++ 47 :: x) = Ok v).
  { destruct (special_scheme (lower s)) eqn:S; [|exact Q].
    assert (N : auth <> []) by (apply HN; auto).
    assert (DW : drop_while is_slash (47 :: 47 :: auth ++ 47 :: x) = auth ++ 47 :: x).
    { rewrite drop_slash2. apply drop_while_stop. destruct auth as [|c auth]; [congruence|]. cbn [app]. inversion HU as [|? ? (C1 & C2 & _) ?]; subst. rewrite slash_eq. lia. }
    rewrite DW in Q. change (starts_with $"//" (47 :: 47 :: auth ++ 47 :: x)) with true in Q. destruct base; [|exact Q]. now rewrite andb_false_r in Q. }
  now apply authority_path in Q'.
Qed.
(** pieces joined by '/', followed by nothing or by '?' or '#' *)
Definition seg_char (sp : bool) (c : N) : Prop := c <> 47 /\ c <> 63 /\ c <> 35 /\ is_c0_space c = false /\ (sp = true -> c <> 92).
Lemma join_vis ps sp : Forall (Forall (seg_char sp)) ps -> Forall (fun c => is_qf c = false /\ is_c0_space c = false /\ (sp = true -> c <> 92)) (join [47] ps).
Proof.
  intros H. apply Forall_forall. intros c Hc. apply join_chars in Hc as [-> | (s & S & Hc)]; [split; [reflexivity|split; [reflexivity|lia]]|].
  rewrite Forall_forall in H. specialize (H s S). rewrite Forall_forall in H. destruct (H c Hc) as (H1 & H2 & H3 & H4 & H5). split; [rewrite qf_eq; lia|]. split; auto.
Qed.
Lemma join_pieces sp ps : ps <> [] -> Forall (Forall (seg_char sp)) ps -> pieces sp (join [47] ps) = ps.
Proof.
  intros N H. unfold pieces, norm_slash. assert (X : (if sp then replace_char 92 47 (join [47] ps) else join [47] ps) = join [47] ps).
  { destruct sp; [|reflexivity]. unfold replace_char. pose proof (join_vis ps true H) as V. induction V as [|c l Hc Hl IH]; [reflexivity|]. cbn [map]. rewrite IH.
    destruct Hc as (_ & _ & Hc). destruct (N.eqb_spec c 92); [now apply Hc in e|reflexivity]. }
  rewrite X. apply split_join; [exact N|]. intros p Hp. apply mem_not_In. rewrite Forall_forall in H. specialize (H p Hp). rewrite Forall_forall in H. intros I. specialize (H _ I). unfold seg_char in H. lia.
Qed.
Lemma text_pieces sp ps r : ps <> [] -> Forall (Forall (seg_char sp)) ps -> match r with [] => True | c :: _ => is_qf c = true end ->
  pieces sp (fst (span (fun c => negb (is_qf c)) (rclean (join [47] ps ++ r)))) = ps.
Proof.
  intros N H R. pose proof (join_vis ps sp H) as V. rewrite rclean_app; [|eapply Forall_impl; [|exact V]; cbv beta; tauto].
  rewrite span_app'.
  - assert (X : fst (span (fun c => negb (is_qf c)) (rclean r)) = []).
    { destruct r as [|c r]; [reflexivity|]. change (c :: r) with ([c] ++ r). rewrite rclean_app; [|constructor; [now apply qf_c0|constructor]]. cbn [app span]. now rewrite R. }
    cbn [fst]. rewrite X, app_nil_r. now apply join_pieces.
  - eapply Forall_impl; [|exact V]. cbv beta. intros c (-> & _). reflexivity.
Qed.
Lemma walk_plain sch ps segs : sch <> $"file" -> Forall (fun p => is_pystr p /\ std_single_dot p = false /\ std_double_dot p = false) ps ->
  walk sch segs ps = segs ++ map (fun p => utf8_percent_encode p SAFE_PATH false) ps.
Proof.
  intros NF H. revert segs. induction H as [|p ps (P1 & P2 & P3) Hps IH]; intros segs; [cbn; now rewrite app_nil_r|].
  assert (X : forall sep, push sch sep segs p = segs ++ [utf8_percent_encode p SAFE_PATH false]).
  { intros sep. unfold push. cbv zeta. rewrite enc_dd, enc_sd, dd_spec, sd_spec, P2, P3 by auto. destruct (str_eqb sch $"file") eqn:F; [apply str_eqb_eq in F; congruence|]. reflexivity. }
  cbn [walk map]. rewrite !X. destruct ps as [|p' ps]; [reflexivity|]. rewrite IH. now rewrite <- app_assoc.
Qed.
Lemma plain_path E s auth ps r base enc v : scheme_syntax s -> lower s <> $"file" -> Forall piece_char auth -> (special_scheme (lower s) = true -> auth <> []) ->
  ps <> [] -> Forall (Forall (seg_char (special_scheme (lower s)))) ps -> match r with [] => True | c :: _ => is_qf c = true end ->
  Forall (fun p => is_pystr p /\ std_single_dot p = false /\ std_double_dot p = false) ps ->
  flat_parse E (s ++ $"://" ++ auth ++ $"/" ++ join [47] ps ++ r) base enc = Ok v ->
  path v = PList (map (fun p => utf8_percent_encode p SAFE_PATH false) ps).
Proof.
  intros H NF HU HN N HS R HP Q. apply input_path in Q; auto. rewrite text_pieces in Q by auto. rewrite Q, walk_plain by auto. reflexivity.
Qed.
Lemma from_path E s auth ps r base enc v : scheme_syntax s -> lower s <> $"file" -> Forall piece_char auth -> (special_scheme (lower s) = true -> auth <> []) ->
  ps <> [] -> Forall (Forall (seg_char (special_scheme (lower s)))) ps -> match r with [] => True | c :: _ => is_qf c = true end ->
  flat_parse E (s ++ $"://" ++ auth ++ $"/" ++ join [47] ps ++ r) base enc = Ok v ->
  exists l, path v = PList l /\ forall x, In x l -> x = [] \/ exists p, In p ps /\ x = utf8_percent_encode p SAFE_PATH false.
Proof.
  intros H NF HU HN N HS R Q. apply input_path in Q; auto. rewrite text_pieces in Q by auto. eexists. split; [exact Q|].
  intros x Hx. apply walk_from in Hx as [[]|[Hx|(p & P & [Hx|(Hx & _)])]]; [now left|right; now exists p|congruence].
Qed.
