(** Lemmas on references against file URLs (C134): what RefLaws.v has for the
    other schemes. *)
From Coq Require Import Ascii String.
From Coq Require Import NArith ZArith Bool Arith Lia ZifyBool ZifyN ZifyNat List.
From Verif Require Import PyStr PyInt Codec Env HostModel UrlRecord Parser SpecText SpecHost FlatParser.
From Verif Require Import Lemmas CodecProofs QuoteProofs PyIntProofs LegacyProofs IPv4Proofs HostProofs LoopProofs FlatProofs WfProofs RoundTrip ParserProofs RefProofs PathProofs UrlProps SuffixProofs RefLaws StandardProofs.
From Verif Require Import SpecUrl SpecParser SpecReference SpecFileReference.
Import ListNotations.
Open Scope N_scope.

Lemma file_special b : scheme b = $"file" -> is_special b = true.
Proof. intros F. unfold is_special. now rewrite F. Qed.
Lemma file_bare P b : wf P b -> scheme b = $"file" -> set_host (uhost b) file_url = bare_of b.
Proof.
  intros W F. destruct (wf_file_bare P b W F) as (A & B & C).
  apply urlrec_ext; cbn [file_url scheme username password uhost port path query fragment set_query set_path set_host set_scheme set_fragment new_url bare_of]; auto.
Qed.

Section FileSite.
Context (E : env) (enc : str) (b : urlrec) (WF : wf (host_rt E) b) (F : scheme b = $"file").
Lemma file_site_main base x : flat_main E base enc (site b ++ 47 :: x) = flat_path E enc (bare_of b) x.
Proof.
  assert (SO : scheme_ok (scheme b)) by apply WF. rewrite site_eq, <- app_assoc. cbn [app]. unfold flat_main. rewrite scheme_split_app by exact SO. rewrite scheme_lower by exact SO.
  unfold flat_scheme. cbv zeta. rewrite F at 1. change (str_eqb $"file" $"file") with true. cbv iota.
  pose proof WF as ((_ & _ & _ & W & _) & _). unfold wf_host in W. pose proof (file_special b F) as SP. pose proof (file_bare _ b WF F) as FB.
  destruct (creds_none E b WF F) as [IC PN].
  unfold auth_text, creds_str, port_str. rewrite IC, PN. destruct (uhost b) as [h|] eqn:HU; [|congruence]. rewrite app_nil_r. cbn [app flat_file].
  change (is_slash 47) with true. cbv iota. cbn [flat_file_slash]. change (is_slash 47) with true. cbv iota. unfold flat_file_host.
  assert (SPAN : (forall c, In c (host_serialize h) -> mem c $"/\?#" = false) ->
    span (fun c => negb (mem c $"/\?#")) (host_serialize h ++ 47 :: x) = (host_serialize h, 47 :: x)).
  { intros X. apply span_app; [|reflexivity]. apply Forall_forall. intros c Hc. now rewrite X. }
  assert (ST : forall v, v = set_host (Some h) file_url -> flat_path_start E enc v (47 :: x) = flat_path E enc (bare_of b) x).
  { intros v ->. rewrite FB. unfold flat_path_start. change (is_special (bare_of b)) with (is_special b). rewrite SP. reflexivity. }
  destruct W as [[-> _]|[HN R]].
  - rewrite SPAN by (intros c []). cbn [host_serialize is_windows_drive_letter]. now apply ST.
  - rewrite SPAN.
    2:{ intros c Hc. destruct (rt_char _ _ _ R c Hc) as [_ X]. rewrite mem4 in X. change ($"/\?#") with [47; 92; 63; 35]. cbn [mem existsb] in *. lia. }
    rewrite (rt_drive _ _ _ R F). pose proof (rt_parse _ _ _ R) as RP. rewrite F in RP. change (negb (special_scheme $"file")) with false in RP.
    change (is_not_special file_url) with false. pose proof (rt_nonempty _ _ _ R). destruct (host_serialize h); [congruence|].
    rewrite RP. cbn [rbind]. rewrite (rt_local _ _ _ R F). now apply ST.
Qed.
End FileSite.

Lemma file_push_all sp l : Forall (seg_ok sp) l -> forall a, file_first $"file" (a ++ l) -> fold_left (push $"file" true) l a = a ++ l.
Proof.
  intros H. induction H as [|s l Hs Hl IH]; intros a FF; [now rewrite app_nil_r|]. cbn [fold_left].
  rewrite (rt_push $"file" true a s sp Hs) by (intros X; specialize (FF X); destruct a; exact FF).
  rewrite IH, <- app_assoc; [reflexivity|]. rewrite <- app_assoc. exact FF.
Qed.
Lemma file_dir_path E enc u a x : Forall (seg_ok true) a -> file_first $"file" a -> scheme u = $"file" -> path u = PList [] ->
  flat_path E enc u (flat_map (fun s => s ++ [47]) a ++ x) = flat_path E enc (set_path (PList a) u) x.
Proof.
  intros H FF S P. rewrite no_qf_path by now apply (dir_no_qf true). unfold flat_path. destruct (span _ x) as [p t].
  change (is_special (set_path (PList a) u)) with (is_special u). change (scheme (set_path (PList a) u)) with (scheme u). change (path_segs (set_path (PList a) u)) with a.
  change (set_path ?y (set_path (PList a) u)) with (set_path y u). do 3 f_equal. unfold path_segs. rewrite P. rewrite (file_special u S).
  rewrite pieces_dir by (eapply Forall_impl; [|exact H]; intros s; apply seg_ok_text). rewrite walk_app by apply pieces_ne. f_equal. rewrite S. now apply (file_push_all true).
Qed.

(** drive and directory as lists of segments *)
Definition drive_segs (l : list str) : list str := match l with s :: _ => if is_normalized_windows_drive_letter s then [s] else [] | [] => [] end.
Lemma drive_text l : drive l = flat_map (fun s => s ++ [47]) (drive_segs l).
Proof. destruct l as [|s l]; [reflexivity|]. cbn [drive drive_segs]. rewrite drive_eq. destruct (std_drive_letter s); cbn [flat_map]; rewrite ?app_nil_r; reflexivity. Qed.
Lemma directory_text l : file_directory l = flat_map (fun s => s ++ [47]) (shorten_segs $"file" l).
Proof.
  destruct l as [|s [|s' l]]; [reflexivity| |reflexivity]. cbn [file_directory drive shorten_segs]. rewrite drive_eq. change (str_eqb $"file" $"file") with true. cbn [andb].
  destruct (std_drive_letter s); cbn [flat_map]; rewrite ?app_nil_r; reflexivity.
Qed.
Lemma drive_segs_ok l : Forall (seg_ok true) (drive_segs l) /\ file_first $"file" (drive_segs l).
Proof.
  destruct l as [|s l]; [split; [constructor|intros _; exact I]|]. cbn [drive_segs]. destruct (is_normalized_windows_drive_letter s) eqn:Q; [now apply normalized_ok|].
  split; [constructor|intros _; exact I].
Qed.
Lemma segs_vis a : Forall (seg_ok true) a -> vis (flat_map (fun s => s ++ [47]) a).
Proof.
  intros WP. induction WP as [|s a Hs Ha IH]; [constructor|].
  cbn [flat_map]. apply vis_app. split; [|exact IH]. apply vis_app. split; [|repeat constructor]. apply Forall_forall. intros d Hd. destruct Hs as (Hs & _).
  assert (R : 32 < d <= 126) by (apply (qs_range SAFE_PATH s d); [vm_compute; reflexivity|exact Hs|exact Hd]). unfold is_c0_space. lia.
Qed.

Lemma file_slash_main P E enc b l c x : wf P b -> scheme b = $"file" -> path b = PList l -> is_slash c = true -> match x with d :: _ => is_slash d = false | [] => True end ->
  flat_main E (Some b) enc (c :: x) = flat_path E enc (bare_of b) (unless_drive x (drive l) ++ x).
Proof.
  intros W F L Hc Hx. assert (C2 : mem c ASCII_ALPHA = false). { rewrite slash_eq in Hc. apply orb_true_iff in Hc as [Hc|Hc]; apply N.eqb_eq in Hc; subst; reflexivity. }
  unfold flat_main. cbn [scheme_split]. rewrite C2. unfold flat_no_scheme. rewrite (parsed_list_opaque b l L). rewrite F at 1. change (str_eqb $"file" $"file") with true. cbv iota.
  unfold flat_file. cbv zeta. rewrite Hc.
  assert (Q : flat_file_slash E (Some b) enc file_url x = flat_path E enc (file_slash_url (Some b) x file_url) x).
  { unfold flat_file_slash. destruct x as [|d x]; [reflexivity|]. now rewrite Hx. }
  rewrite Q. unfold file_slash_url, unless_drive. rewrite F. change (str_eqb $"file" $"file") with true. cbv iota zeta. rewrite (file_bare P b W F), L, starts_drive_eq.
  destruct l as [|s l]; [cbn [drive]; now destruct (std_starts_drive_letter x)|].
  destruct (std_starts_drive_letter x); cbn [negb andb]; [reflexivity|]. destruct (drive_segs_ok (s :: l)) as [D1 D2]. rewrite drive_text, file_dir_path; auto.
  cbn [drive_segs]. destruct (is_normalized_windows_drive_letter s); reflexivity.
Qed.
Lemma file_relative_main P E enc b l c x : wf P b -> scheme b = $"file" -> path b = PList l -> scheme_split (c :: x) = None -> is_slash c = false -> is_qf c = false ->
  flat_main E (Some b) enc (c :: x) = flat_path E enc (bare_of b) (unless_drive (c :: x) (file_directory l) ++ c :: x).
Proof.
  intros W F L S Hc Q. unfold flat_main. rewrite S. unfold flat_no_scheme. rewrite (parsed_list_opaque b l L). rewrite F at 1. change (str_eqb $"file" $"file") with true. cbv iota.
  unfold flat_file. cbv zeta. rewrite Hc, F. change (str_eqb $"file" $"file") with true. cbv iota. rewrite Q. rewrite (file_base_eq P b W F). unfold unless_drive. rewrite starts_drive_eq.
  assert (WP : Forall (seg_ok true) l /\ file_first $"file" l). { destruct W as (_ & WP & _). unfold wf_path in WP. rewrite L, (file_special b F), F in WP. tauto. }
  destruct (std_starts_drive_letter (c :: x)); [reflexivity|]. destruct (shorten_ok $"file" true l) as [D1 D2]; try tauto. rewrite directory_text, file_dir_path; auto.
  cbn [scheme set_query set_fragment]. rewrite F. unfold path_segs. rewrite L. reflexivity.
Qed.

Lemma file_slash_for c : slash_for $"file" c = is_slash c.
Proof. unfold slash_for. rewrite slash_eq. change (special_scheme $"file") with true. reflexivity. Qed.
Lemma file_absolute_path E b c t base enc l : limit_ok E -> idna_ok E -> enc_ok E (normalize_encoding E enc) -> parsed E b -> url_v4_ok b -> base_parsed E base -> usable E base enc ->
  path b = PList l -> scheme b = $"file" -> c = 47 \/ c = 92 -> ~ starts (fun d => d = 47 \/ d = 92) (std_seen t) ->
  snd (parse_url E (c :: t) (BRec b) enc) = snd (parse_url E (site b ++ $"/" ++ unless_drive (std_seen t) (drive l) ++ t) base enc).
Proof.
  intros HL HI He Hb V Hb' U L F Hc Ht. pose proof (parsed_rt E b HL HI Hb V) as W. rewrite parsed_flat by exact Hb. destruct (usable_flat E base enc He Hb' U) as (o & Q). rewrite Q.
  assert (C3 : is_slash c = true) by (rewrite slash_eq; lia). assert (C1 : is_c0_space c = false) by (unfold is_c0_space; lia).
  change (site b ++ $"/" ++ ?y) with (site b ++ 47 :: y). unfold flat_parse. rewrite (site_clean E b W). rewrite clean_prefix by exact C1. rewrite <- rclean_eq in *.
  rewrite (file_site_main E _ b W F). rewrite (file_slash_main _ E _ b l c _ W F L C3).
  - f_equal. symmetry. apply rclean_app. unfold unless_drive. destruct (std_starts_drive_letter _); [constructor|]. rewrite drive_text. apply segs_vis, drive_segs_ok.
  - destruct (rclean t) as [|d x]; [exact I|]. cbn [starts] in Ht. rewrite slash_eq. lia.
Qed.
Lemma file_relative_path E b r base enc l : limit_ok E -> idna_ok E -> enc_ok E (normalize_encoding E enc) -> parsed E b -> url_v4_ok b -> base_parsed E base -> usable E base enc ->
  path b = PList l -> scheme b = $"file" -> std_lstrip r = r -> r <> [] -> ~ has_scheme (std_trim r) -> ~ starts (fun c => c = 47 \/ c = 92 \/ c = 63 \/ c = 35) r ->
  snd (parse_url E r (BRec b) enc) = snd (parse_url E (site b ++ $"/" ++ unless_drive (std_trim r) (file_directory l) ++ r) base enc).
Proof.
  intros HL HI He Hb V Hb' U L F T N S H. pose proof (parsed_rt E b HL HI Hb V) as W. rewrite parsed_flat by exact Hb. destruct (usable_flat E base enc He Hb' U) as (o & Q). rewrite Q.
  apply lstrip_head in T. destruct r as [|c r]; [congruence|]. unfold flat_parse. change (site b ++ $"/" ++ ?y) with (site b ++ 47 :: y).
  rewrite (site_clean E b W). rewrite <- clean_std in *. rewrite clean_prefix in S |- * by exact T. cbn [starts] in H.
  rewrite (file_site_main E _ b W F). rewrite (file_relative_main _ E _ b l c _ W F L).
  - f_equal. rewrite rclean_app; [change (c :: r) with ([c] ++ r); rewrite (rclean_app [c] r); [reflexivity|repeat constructor; exact T]|].
    unfold unless_drive. destruct (std_starts_drive_letter _); [constructor|]. rewrite directory_text. apply segs_vis. destruct W as (_ & WP & _). unfold wf_path in WP. rewrite L, (file_special b F), F in WP.
    apply (shorten_ok $"file" true l); tauto.
  - now apply no_scheme_split.
  - rewrite slash_eq. lia.
  - rewrite qf_eq. lia.
Qed.
