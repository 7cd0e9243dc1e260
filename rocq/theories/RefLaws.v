(** Lemmas on what references mean: scheme-relative, absolute-path and
    relative-path references (C91 - C94). *)
From Coq Require Import Ascii String.
From Coq Require Import NArith ZArith Bool Arith Lia ZifyBool ZifyN ZifyNat List.
From Verif Require Import PyStr PyInt Codec Env HostModel UrlRecord Parser SpecText SpecHost FlatParser.
From Verif Require Import Lemmas CodecProofs QuoteProofs PyIntProofs LegacyProofs IPv4Proofs HostProofs LoopProofs FlatProofs WfProofs RoundTrip ParserProofs RefProofs PathProofs UrlProps SuffixProofs.
From Verif Require Import SpecUrl SpecReference.
Import ListNotations.
Open Scope N_scope.

(* ---------- scheme-relative references ---------- *)
Definition slash_for (sch : str) (c : N) : bool := (c =? 47) || (special_scheme sch && (c =? 92)).
Lemma slash_for_spec sch c : std_slash sch c <-> slash_for sch c = true.
Proof.
  unfold std_slash, slash_for. rewrite orb_true_iff, andb_true_iff, !N.eqb_eq, special_spec. tauto.
Qed.
Lemma slash_c0 sch c : slash_for sch c = true -> is_c0_space c = false /\ mem c ASCII_ALPHA = false /\ is_slash c = true.
Proof.
  unfold slash_for. intros H. apply orb_true_iff in H as [H|H]; [apply N.eqb_eq in H; subst; repeat split|].
  apply andb_true_iff in H as [_ H]. apply N.eqb_eq in H; subst; repeat split.
Qed.
Lemma scheme_relative_flat E b base c d t enc : scheme_ok (scheme b) -> has_opaque_path b = false -> slash_for (scheme b) c = true -> slash_for (scheme b) d = true ->
  flat_parse E (c :: d :: t) (Some b) enc = flat_parse E (scheme b ++ 58 :: 47 :: 47 :: t) base enc.
Proof.
  intros S O Hc Hd. destruct (slash_c0 _ _ Hc) as (C1 & C2 & C3). destruct (slash_c0 _ _ Hd) as (D1 & D2 & D3).
  unfold flat_parse. change (c :: d :: t) with ([c; d] ++ t). rewrite (clean_vis [c; d] t); [cbn [app]|repeat constructor; auto|discriminate].
  assert (V : vis (scheme b ++ [58; 47; 47])).
  { apply vis_app. split; [|repeat constructor]. apply Forall_forall. intros x Hx. assert (W : 32 < x <= 126). 
    { destruct (scheme b) as [|y s]; [destruct Hx|]. destruct S as [S1 S2]. destruct Hx as [<-|Hx]; [lia|]. rewrite forallb_forall in S2. specialize (S2 x Hx).
      unfold scheme_tail_char in S2. change ($"+-.") with [43; 45; 46] in S2. cbn [mem existsb] in S2. lia. }
    unfold is_c0_space. lia. }
  change (scheme b ++ 58 :: 47 :: 47 :: t) with (scheme b ++ [58; 47; 47] ++ t). rewrite app_assoc. rewrite clean_vis; [|exact V|destruct (scheme b); discriminate].
  rewrite <- app_assoc. cbn [app]. set (x := rclean t). set (e := normalize_encoding E enc). unfold flat_main. rewrite scheme_split_app by exact S. rewrite scheme_lower by exact S.
  cbn [scheme_split]. rewrite C2. unfold flat_no_scheme. rewrite O. unfold flat_scheme. cbv zeta. destruct (str_eqb (scheme b) $"file") eqn:F.
  - unfold flat_file. cbv zeta. change (is_slash 47) with true. rewrite C3. cbv iota. unfold flat_file_slash. change (is_slash 47) with true. rewrite D3. reflexivity.
  - unfold flat_relative. cbv zeta. unfold is_special. cbn [scheme set_scheme]. unfold slash_for in Hc. rewrite Hc. unfold flat_relative_slash, is_special. cbn [scheme set_scheme].
    destruct (special_scheme (scheme b)) eqn:SP.
    + rewrite D3. cbn [andb]. change (starts_with $"//" (47 :: 47 :: x)) with true. rewrite drop_slash2. destruct base as [b'|]; [|reflexivity]. now rewrite andb_false_r.
    + cbn [andb]. unfold slash_for in Hd. rewrite SP in Hd. cbn [andb] in Hd. rewrite orb_false_r in Hd. rewrite Hd. change (47 =? 47) with true. reflexivity.
Qed.
Lemma parsed_list_opaque b l : path b = PList l -> has_opaque_path b = false.
Proof. intros H. unfold has_opaque_path. now rewrite H. Qed.
Lemma usable_flat E base enc : enc_ok E (normalize_encoding E enc) -> base_parsed E base -> usable E base enc ->
  exists o, forall s, snd (parse_url E s base enc) = flat_parse E s o enc.
Proof.
  intros He Hb [-> |(b & B)].
  - exists None. intros s. rewrite parse_url_none. now apply parse_new_flat.
  - exists (Some b). now apply parse_url_base.
Qed.
Lemma scheme_relative E b c d t base enc l : enc_ok E (normalize_encoding E enc) -> parsed E b -> base_parsed E base -> usable E base enc -> path b = PList l ->
  std_slash (scheme b) c -> std_slash (scheme b) d ->
  snd (parse_url E (c :: d :: t) (BRec b) enc) = snd (parse_url E (scheme b ++ $"://" ++ t) base enc).
Proof.
  intros He Hb Hb' U L Hc Hd. rewrite parsed_flat by exact Hb. pose proof (parsed_wf E b Hb) as W. destruct (usable_flat E base enc He Hb' U) as (o & Q). rewrite Q.
  change (scheme b ++ $"://" ++ t) with (scheme b ++ 58 :: 47 :: 47 :: t).
  apply scheme_relative_flat; [apply W|exact (parsed_list_opaque b l L)|now apply slash_for_spec|now apply slash_for_spec].
Qed.

(* ---------- absolute-path references ---------- *)
Definition bare_of (u : urlrec) : urlrec := set_fragment None (set_query None (set_path (PList []) u)).
Definition root_of (u : urlrec) : urlrec := set_fragment None (set_query None (set_path (PList [[]]) u)).
Lemma base_auth_bare b : base_auth b (set_scheme (scheme b) new_url) = bare_of b. Proof. reflexivity. Qed.
Lemma seg_ok_nil sp : seg_ok sp []. Proof. repeat split; reflexivity. Qed.
Lemma root_wf P b : wf P b -> wf P (root_of b).
Proof.
  intros (A & _ & _). split; [exact A|]. split.
  - unfold wf_path. cbn [path root_of set_fragment set_query set_path]. split; [constructor; [apply seg_ok_nil|constructor]|]. split; [discriminate|]. intros _ K. discriminate K.
  - split; cbn [query fragment root_of set_fragment set_query set_path]; discriminate.
Qed.
Lemma path_nil E enc w : path w = PList [] -> flat_path E enc w [] = Ok (set_path (PList [[]]) w).
Proof.
  intros H. unfold flat_path. cbn [span flat_tail]. unfold path_segs. rewrite H. unfold pieces, norm_slash.
  assert (X : walk (scheme w) [] [[]] = [[]]). { cbn [walk]. unfold push. change (utf8_percent_encode [] SAFE_PATH false) with (@nil N). change (is_windows_drive_letter []) with false. now rewrite andb_false_r. }
  destruct (is_special w); cbn [replace_char map split]; now rewrite X.
Qed.
Lemma path_start_slash E enc w x : flat_path_start E enc w (47 :: x) = flat_path E enc w x.
Proof. unfold flat_path_start. change (is_slash 47) with true. change (is_qf 47) with false. change (47 =? 47) with true. destruct (is_special w); reflexivity. Qed.
Definition keeps (u w : urlrec) : Prop := scheme w = scheme u /\ path w = path u /\ query w = query u /\ fragment w = fragment u.
Lemma keeps_creds ui u : keeps u (set_creds ui u).
Proof. unfold set_creds. destruct (split_first 58 ui). repeat split. Qed.
Lemma host_split E enc u hp : exists R, (forall x, flat_host E enc u hp (47 :: x) = rbind R (fun w => flat_path E enc w x)) /\ forall w, R = Ok w -> keeps u w.
Proof.
  destruct (host_cut false hp) as [h [ps|]] eqn:H.
  - exists (if (length h =? 0)%nat then Err EURLParse else rbind (snd (host_parse E h (is_not_special u))) (fun y => rbind (flat_port E (scheme u) ps) (fun p => Ok (set_port p (set_host (Some y) u))))).
    split.
    + intros x. unfold flat_host. rewrite H. destruct (length h =? 0)%nat; [reflexivity|]. rewrite rbind_assoc. apply rbind_ext. intros y. rewrite rbind_assoc. apply rbind_ext. intros p. apply path_start_slash.
    + destruct (length h =? 0)%nat; [discriminate|]. destruct (snd _) as [y|]; [|discriminate]. cbn [rbind]. destruct (flat_port _ _ _); [|discriminate]. cbn [rbind]. intros w Q. injection Q as <-. repeat split.
  - exists (if is_special u && (length h =? 0)%nat then Err EURLParse else rbind (snd (host_parse E h (is_not_special u))) (fun y => Ok (set_host (Some y) u))).
    split.
    + intros x. unfold flat_host. rewrite H. destruct (_ && _); [reflexivity|]. rewrite rbind_assoc. apply rbind_ext. intros y. apply path_start_slash.
    + destruct (_ && _); [discriminate|]. destruct (snd _) as [y|]; [|discriminate]. cbn [rbind]. intros w Q. injection Q as <-. repeat split.
Qed.
Lemma authority_split E enc u a : Forall (fun c => negb (ends_auth (is_special u) c) = true) a ->
  exists R, (forall x, flat_authority E enc u (a ++ 47 :: x) = rbind R (fun w => flat_path E enc w x)) /\ forall w, R = Ok w -> keeps u w.
Proof.
  intros H. assert (S : forall x, span (fun c => negb (ends_auth (is_special u) c)) (a ++ 47 :: x) = (a, 47 :: x)) by (intros x; apply span_app; [exact H|reflexivity]).
  destruct (split_last 64 a) as [[ui hp]|] eqn:L.
  - destruct (length hp =? 0)%nat eqn:Z.
    + exists (Err EURLParse). split; [|discriminate]. intros x. unfold flat_authority. now rewrite S, L, Z.
    + destruct (host_split E enc (set_creds ui u) hp) as (R & R1 & R2). exists R. split.
      * intros x. unfold flat_authority. rewrite S, L, Z. apply R1.
      * intros w Q. destruct (R2 w Q) as (K1 & K2 & K3 & K4). destruct (keeps_creds ui u) as (J1 & J2 & J3 & J4). repeat split; congruence.
  - destruct (host_split E enc u a) as (R & R1 & R2). exists R. split; [|exact R2]. intros x. unfold flat_authority. rewrite S, L. apply R1.
Qed.
Section Site.
Context (E : env) (enc : str) (HE : enc_ok E enc) (HL : limit_ok E) (b : urlrec) (WF : wf (host_rt E) b) (NF : scheme b <> $"file").
Definition auth_text : str := match uhost b with Some h => creds_str b ++ host_serialize h ++ port_str b | None => [] end.
Lemma site_eq : site b = scheme b ++ 58 :: match uhost b with Some _ => 47 :: 47 :: auth_text | None => [] end.
Proof.
  unfold site. rewrite href_eq. unfold auth_of_url, dot_str, serialize_path, tail_str, auth_text, creds_str, port_str, includes_credentials.
  cbn [uhost path query fragment scheme username password port set_fragment set_query set_path serialize_segs flat_map]. destruct (uhost b); cbn [app]; rewrite ?app_nil_r; reflexivity.
Qed.
Lemma nonempty_host h : uhost b = Some h -> is_special b = true -> host_rt E (scheme b) h.
Proof. intros H S. destruct WF as ((_ & _ & _ & W & _) & _). unfold wf_host in W. rewrite H in W. destruct W as [[_ W]|[_ W]]; [exfalso; now apply NF, W|exact W]. Qed.
Lemma auth_ok h : uhost b = Some h -> host_rt E (scheme b) h \/ (h = HStr [] /\ is_special b = false).
Proof.
  intros H. destruct (is_special b) eqn:S; [left; now apply nonempty_host|]. destruct WF as ((_ & _ & _ & W & _) & _). unfold wf_host in W. rewrite H in W.
  destruct W as [[-> _]|[_ W]]; [now right|now left].
Qed.
Lemma auth_text_chars c : In c auth_text -> authc c = true \/ c = 64.
Proof.
  unfold auth_text. destruct (uhost b) as [h|] eqn:H; [|intros []]. destruct (auth_ok h H) as [R|[-> NS]].
  - intros Hc. apply in_app_iff in Hc as [Hc|Hc]; [|left; now apply (hostport_chars E b h)].
    unfold creds_str in Hc. destruct (includes_credentials b); [|destruct Hc]. apply in_app_iff in Hc as [Hc|Hc]; [left; apply (creds_chars E b WF); now left|].
    apply in_app_iff in Hc as [Hc|[<-|[]]]; [|now right]. destruct (password b) as [|d p] eqn:P; [destruct Hc|].
    destruct Hc as [<-|Hc]; [left; reflexivity|]. left. apply (creds_chars E b WF). right. now rewrite P.
  - destruct WF as ((_ & _ & _ & _ & W3 & _) & _).
    assert (NC : includes_credentials b = false /\ port b = None).
    { destruct (includes_credentials b) eqn:IC; [destruct (W3 (or_introl eq_refl)) as (h & X & Y & _); congruence|]. split; auto.
      destruct (port b) eqn:P; [|reflexivity]. destruct W3 as (h & X & Y & _); [right; discriminate|congruence]. }
    destruct NC as [IC PN]. unfold creds_str, port_str. rewrite IC, PN. intros [].
Qed.
Lemma auth_text_head : is_special b = true -> match auth_text with c :: _ => is_slash c = false | [] => False end.
Proof.
  intros S. unfold auth_text. destruct (uhost b) as [h|] eqn:H.
  2:{ destruct WF as ((_ & _ & _ & W & _) & _). unfold wf_host in W. rewrite H in W. congruence. }
  pose proof (nonempty_host h H S) as R. pose proof (rt_nonempty _ _ _ R) as NE.
  assert (A : creds_str b ++ host_serialize h ++ port_str b <> []) by (destruct (creds_str b); [cbn [app]; destruct (host_serialize h); [congruence|discriminate]|discriminate]).
  destruct (creds_str b ++ host_serialize h ++ port_str b) as [|c r] eqn:Q; [congruence|].
  destruct (auth_text_chars c) as [X| ->]; [unfold auth_text; rewrite H, Q; now left| |reflexivity].
  unfold authc in X. rewrite mem4 in X. rewrite slash_eq. lia.
Qed.
Lemma site_authority : uhost b <> None -> forall x,
  flat_authority E enc (set_scheme (scheme b) new_url) (auth_text ++ 47 :: x) = flat_path E enc (bare_of b) x.
Proof.
  intros HN. destruct (authority_split E enc (set_scheme (scheme b) new_url) auth_text) as (R & R1 & R2).
  { apply Forall_forall. intros c Hc. destruct (auth_text_chars c Hc) as [X| ->]; [now apply authc_ends|]. destruct (is_special _); reflexivity. }
  destruct (uhost b) as [h|] eqn:H; [|congruence].
  pose proof (rt_authority E enc HE HL (root_of b) (root_wf _ b WF) h H (auth_ok h H)) as Q.
  assert (A : (creds_str (root_of b) ++ host_serialize h ++ port_str (root_of b)) ++ serialize_path (root_of b) ++ tail_str (root_of b) = auth_text ++ [47]).
  { unfold auth_text. rewrite H. reflexivity. }
  rewrite A in Q. change (scheme (root_of b)) with (scheme b) in Q. rewrite R1 in Q. destruct R as [w|e]; [|discriminate Q]. cbn [rbind] in Q.
  destruct (R2 w eq_refl) as (K1 & K2 & K3 & K4). cbn [path set_scheme new_url] in K2. rewrite path_nil in Q by exact K2. apply (f_equal (fun r => match r with Ok y => y | Err _ => w end)) in Q. cbv beta iota in Q.
  assert (Z : w = bare_of b). { transitivity (set_path (PList []) (root_of b)); [|reflexivity]. rewrite <- Q. clear - K2. apply urlrec_ext; try reflexivity. exact K2. }
  intros x. rewrite R1, Z. reflexivity.
Qed.
Lemma site_main base x : match x with c :: _ => c <> 47 | [] => True end \/ uhost b <> None ->
  flat_main E base enc (site b ++ 47 :: x) = flat_path E enc (bare_of b) x.
Proof.
  intros X. assert (SO : scheme_ok (scheme b)) by apply WF. rewrite site_eq, <- app_assoc. cbn [app]. unfold flat_main. rewrite scheme_split_app by exact SO. rewrite scheme_lower by exact SO.
  unfold flat_scheme. cbv zeta. destruct (str_eqb (scheme b) $"file") eqn:F; [apply str_eqb_eq in F; contradiction|].
  destruct (special_scheme (scheme b)) eqn:S.
  - assert (HN : uhost b <> None). { destruct WF as ((_ & _ & _ & W & _) & _). unfold wf_host, is_special in W. destruct (uhost b); [discriminate|congruence]. }
    pose proof (site_authority HN x) as G. pose proof (auth_text_head S) as NH. destruct (uhost b) as [h|]; [|congruence]. cbn [app].
    change (starts_with $"//" (47 :: 47 :: auth_text ++ 47 :: x)) with true. rewrite drop_slash2.
    assert (D : drop_while is_slash (auth_text ++ 47 :: x) = auth_text ++ 47 :: x).
    { destruct auth_text as [|c r]; [destruct NH|]. cbn [app drop_while]. now rewrite NH. }
    rewrite D, G. destruct base; [|reflexivity]. now rewrite andb_false_r.
  - destruct (uhost b) as [h|] eqn:H.
    + cbn [app]. change (47 =? 47) with true. cbv iota. apply site_authority. congruence.
    + cbn [app]. change (47 =? 47) with true. cbv iota. assert (B : set_scheme (scheme b) new_url = bare_of b).
      { destruct WF as ((_ & _ & _ & _ & W3 & _) & _). assert (N : ~ (includes_credentials b = true \/ port b <> None)) by (intros K; destruct (W3 K) as (h & Y & _); congruence).
        unfold includes_credentials in N. apply urlrec_ext; cbn [scheme username password uhost port path query fragment set_scheme new_url bare_of set_fragment set_query set_path]; auto.
        - destruct (username b); [reflexivity|]. exfalso. apply N. now left.
        - destruct (password b); [reflexivity|]. exfalso. apply N. left. now destruct (username b).
        - destruct (port b); [|reflexivity]. exfalso. apply N. right. discriminate. }
      rewrite B. destruct x as [|c r]; [reflexivity|]. destruct X as [X|X]; [|congruence]. destruct (N.eqb_spec c 47); [contradiction|reflexivity].
Qed.
Lemma site_vis : vis (site b).
Proof.
  apply Forall_forall. intros c Hc. assert (W : 32 < c <= 126); [|unfold is_c0_space; lia].
  assert (K : In c (href (root_of b))).
  { rewrite href_eq. rewrite site_eq in Hc. apply in_app_iff in Hc as [Hc|[<-|Hc]]; apply in_app_iff; [now left|right; now left|right; right].
    apply in_app_iff. left. unfold auth_of_url. change (uhost (root_of b)) with (uhost b). unfold auth_text in Hc. destruct (uhost b); exact Hc. }
  apply (href_chars E (root_of b) (root_wf _ b WF)) in K. destruct K as [K|(_ & s & K & _)]; [exact K|discriminate K].
Qed.
Lemma site_clean x : clean (site b ++ 47 :: x) = site b ++ 47 :: rclean x.
Proof.
  change (site b ++ 47 :: x) with (site b ++ [47] ++ x). rewrite app_assoc, clean_vis; [now rewrite <- app_assoc|apply vis_app; split; [exact site_vis|repeat constructor]|].
  destruct (site b); discriminate.
Qed.
(** a reference that starts with one slash *)
Lemma slash_main c x : has_opaque_path b = false -> slash_for (scheme b) c = true -> match x with d :: _ => slash_for (scheme b) d = false | [] => True end ->
  flat_main E (Some b) enc (c :: x) = flat_path E enc (bare_of b) x.
Proof.
  intros O Hc Hx. destruct (slash_c0 _ _ Hc) as (C1 & C2 & C3). unfold flat_main. cbn [scheme_split]. rewrite C2. unfold flat_no_scheme. rewrite O.
  destruct (str_eqb (scheme b) $"file") eqn:F; [apply str_eqb_eq in F; contradiction|]. unfold flat_relative. cbv zeta. unfold is_special. cbn [scheme set_scheme].
  unfold slash_for in Hc. rewrite Hc. unfold flat_relative_slash. rewrite base_auth_bare. destruct x as [|d x]; [reflexivity|]. unfold is_special. cbn [scheme set_scheme].
  unfold slash_for in Hx. apply orb_false_iff in Hx as [H1 H2]. rewrite slash_eq, H1. cbn [orb]. now rewrite H2.
Qed.
End Site.

Lemma parsed_rt E b : limit_ok E -> idna_ok E -> parsed E b -> url_v4_ok b -> wf (host_rt E) b.
Proof. intros H1 H2 H3 H4. apply wf_val_rt; auto. now apply parsed_wf. Qed.
Lemma starts_false sch x : ~ starts (std_slash sch) x -> match x with d :: _ => slash_for sch d = false | [] => True end.
Proof. destruct x as [|d x]; [auto|]. cbn [starts]. intros H. destruct (slash_for sch d) eqn:Q; [exfalso; apply H; now apply slash_for_spec|reflexivity]. Qed.
Lemma absolute_path E b c t base enc l : limit_ok E -> idna_ok E -> enc_ok E (normalize_encoding E enc) -> parsed E b -> url_v4_ok b -> base_parsed E base -> usable E base enc ->
  path b = PList l -> scheme b <> $"file" -> std_slash (scheme b) c -> ~ starts (std_slash (scheme b)) (std_seen t) ->
  snd (parse_url E (c :: t) (BRec b) enc) = snd (parse_url E (site b ++ $"/" ++ t) base enc).
Proof.
  intros HL HI He Hb V Hb' U L NF Hc Ht. pose proof (parsed_rt E b HL HI Hb V) as W. rewrite parsed_flat by exact Hb. destruct (usable_flat E base enc He Hb' U) as (o & Q). rewrite Q.
  apply slash_for_spec in Hc. destruct (slash_c0 _ _ Hc) as (C1 & _). change (site b ++ $"/" ++ t) with (site b ++ 47 :: t). unfold flat_parse.
  rewrite (site_clean E b W). rewrite clean_prefix by exact C1. rewrite <- rclean_eq in Ht. apply starts_false in Ht.
  rewrite (slash_main E _ b NF c (rclean t) (parsed_list_opaque b l L) Hc Ht). symmetry. apply site_main; auto. left. destruct (rclean t) as [|d x]; [exact I|].
  intros ->. discriminate Ht.
Qed.

(* ---------- relative-path references ---------- *)
Definition seg_text (sp : bool) (p : str) : Prop := mem 47 p = false /\ (sp = true -> mem 92 p = false).
Lemma no92_id p : mem 92 p = false -> map (fun c => if c =? 92 then 47 else c) p = p.
Proof.
  intros H. apply mem_not_In in H. rewrite <- (map_id p) at 2. apply map_ext_in. intros c Hc. destruct (N.eqb_spec c 92); [subst; contradiction|reflexivity].
Qed.
Lemma pieces_cons sp p x : seg_text sp p -> pieces sp (p ++ 47 :: x) = p :: pieces sp x.
Proof.
  intros [H1 H2]. unfold pieces, norm_slash. destruct sp; [|now apply split_app]. unfold replace_char. rewrite map_app, no92_id by auto.
  cbn [map]. change (47 =? 92) with false. cbv iota. now apply split_app.
Qed.
Lemma pieces_dir sp a x : Forall (seg_text sp) a -> pieces sp (flat_map (fun s => s ++ [47]) a ++ x) = a ++ pieces sp x.
Proof.
  intros H. induction H as [|p a Hp Ha IH]; [reflexivity|]. cbn [flat_map]. rewrite <- !app_assoc. cbn [app]. rewrite pieces_cons by auto. now rewrite IH.
Qed.
Lemma seg_ok_text sp s : seg_ok sp s -> seg_text sp s. Proof. intros (_ & A & B & _). split; auto. Qed.
Lemma push_dot sch segs : push sch true segs [46] = segs.
Proof. reflexivity. Qed.
Lemma push_all sch sp l : Forall (seg_ok sp) l -> sch <> $"file" -> forall a, fold_left (push sch true) l a = a ++ l.
Proof.
  intros H NF. induction H as [|s l Hs Hl IH]; intros a; [now rewrite app_nil_r|]. cbn [fold_left]. rewrite (rt_push sch true a s sp Hs) by (intros X; contradiction).
  rewrite IH, <- app_assoc. reflexivity.
Qed.
Lemma no_qf_path E enc u a x : no_qf a -> flat_path E enc u (a ++ x) =
  let (p, t) := span (fun c => negb (is_qf c)) x in flat_tail E enc (set_path (PList (walk (scheme u) (path_segs u) (pieces (is_special u) (a ++ p)))) u) t.
Proof.
  intros H. unfold flat_path. rewrite span_app'; [|eapply Forall_impl; [|exact H]; intros c Hc; cbv beta; now rewrite Hc]. destruct (span _ x). reflexivity.
Qed.
Lemma seg_no_qf sp s : seg_ok sp s -> no_qf s.
Proof.
  intros (Q & _). apply Forall_forall. intros c Hc. destruct (is_qf c) eqn:X; [|reflexivity]. exfalso. assert (N : mem c (ALWAYS_SAFE ++ SAFE_PATH) = false).
  { rewrite qf_eq in X. apply orb_true_iff in X as [X|X]; apply N.eqb_eq in X; subst; reflexivity. }
  apply (qs_no _ _ _ N) in Q. apply mem_not_In in Q. contradiction.
Qed.
Lemma dir_no_qf sp a : Forall (seg_ok sp) a -> no_qf (flat_map (fun s => s ++ [47]) a).
Proof.
  intros H. induction H as [|s a Hs Ha IH]; [constructor|]. cbn [flat_map]. apply Forall_app. split; [|exact IH]. apply Forall_app. split; [now apply (seg_no_qf sp)|repeat constructor].
Qed.
Lemma dot_path E enc u x : flat_path E enc u (46 :: 47 :: x) = flat_path E enc u x.
Proof.
  change (46 :: 47 :: x) with ([46; 47] ++ x). rewrite no_qf_path by (repeat constructor). unfold flat_path. destruct (span _ x) as [p t]. do 3 f_equal. cbn [app].
  change (46 :: 47 :: p) with ([46] ++ 47 :: p). rewrite pieces_cons by (split; reflexivity). pose proof (pieces_ne (is_special u) p). destruct (pieces (is_special u) p) as [|y r]; [congruence|].
  cbn [walk]. now rewrite push_dot.
Qed.
Lemma dir_path E enc u a x : Forall (seg_ok (is_special u)) a -> scheme u <> $"file" -> path u = PList [] ->
  flat_path E enc u (flat_map (fun s => s ++ [47]) a ++ x) = flat_path E enc (set_path (PList a) u) x.
Proof.
  intros H NF P. rewrite no_qf_path by now apply (dir_no_qf (is_special u)). unfold flat_path. destruct (span _ x) as [p t].
  change (is_special (set_path (PList a) u)) with (is_special u). change (scheme (set_path (PList a) u)) with (scheme u). change (path_segs (set_path (PList a) u)) with a.
  change (set_path ?y (set_path (PList a) u)) with (set_path y u). do 3 f_equal. unfold path_segs. rewrite P.
  rewrite pieces_dir by (eapply Forall_impl; [|exact H]; intros s; apply seg_ok_text). rewrite walk_app by apply pieces_ne. f_equal. now apply (push_all _ (is_special u)).
Qed.
Lemma shorten_plain sch l : sch <> $"file" -> shorten_segs sch l = removelast l.
Proof. intros H. destruct l as [|s [|s' l]]; [reflexivity| |reflexivity]. cbn [shorten_segs removelast]. destruct (str_eqb sch $"file") eqn:F; [apply str_eqb_eq in F; contradiction|reflexivity]. Qed.
Lemma removelast_forall {A} (P : A -> Prop) l : Forall P l -> Forall P (removelast l).
Proof. induction 1 as [|x l Hx Hl IH]; [constructor|]. cbn [removelast]. destruct l; [constructor|now constructor]. Qed.
Lemma relative_main P E enc b l c x : wf P b -> path b = PList l -> scheme b <> $"file" -> scheme_split (c :: x) = None -> slash_for (scheme b) c = false -> is_qf c = false ->
  flat_main E (Some b) enc (c :: x) = flat_path E enc (bare_of b) (46 :: 47 :: directory l ++ c :: x).
Proof.
  intros W L NF S Hc Q. unfold flat_main. rewrite S. unfold flat_no_scheme. rewrite (parsed_list_opaque b l L). destruct (str_eqb (scheme b) $"file") eqn:F; [apply str_eqb_eq in F; contradiction|].
  unfold flat_relative. cbv zeta. unfold slash_for in Hc. unfold is_special. cbn [scheme set_scheme]. rewrite Hc, Q.
  destruct W as (_ & WP & _). unfold wf_path in WP. rewrite L in WP. destruct WP as (WP & _).
  rewrite dot_path. unfold directory. rewrite dir_path; [|now apply removelast_forall|exact NF|reflexivity].
  cbn [scheme base_all base_auth set_query set_path set_port set_host set_password set_username set_scheme]. rewrite shorten_plain by exact NF. unfold path_segs. rewrite L. reflexivity.
Qed.
Lemma mem_alpha_std c : mem c ASCII_ALPHA = true -> std_alpha c = true.
Proof.
  intros H. apply mem_In in H. assert (Q : forallb std_alpha ASCII_ALPHA = true) by (vm_compute; reflexivity). rewrite forallb_forall in Q. now apply Q.
Qed.
Lemma scheme_char_std c : is_scheme_char c = true -> std_scheme_char c = true.
Proof.
  intros H. unfold is_scheme_char in H. assert (Q : forallb std_scheme_char (ASCII_ALPHANUMERIC ++ $"+-.") = true) by (vm_compute; reflexivity).
  rewrite forallb_forall in Q. apply Q. apply in_app_iff. apply orb_true_iff in H as [H|H]; apply mem_In in H; auto.
Qed.
Lemma no_scheme_split s : ~ has_scheme s -> scheme_split s = None.
Proof.
  intros H. destruct (scheme_split s) as [[a t]|] eqn:Q; [|reflexivity]. exfalso. apply H. exists a, t. pose proof (split_no_qf _ _ _ Q) as Z. split; [exact Z|]. clear H Z.
  destruct s as [|c s]; [discriminate|]. cbn [scheme_split] in Q. destruct (mem c ASCII_ALPHA) eqn:A; [|discriminate]. pose proof (LoopProofs.span_all is_scheme_char s) as K.
  destruct (span is_scheme_char s) as [y [|z r]]; [discriminate|]. destruct (z =? 58); [|discriminate]. injection Q as <- <-. cbn [std_scheme fst] in *. rewrite mem_alpha_std by exact A.
  apply forallb_forall. intros d Hd. rewrite Forall_forall in K. apply scheme_char_std. now apply K.
Qed.
Lemma lstrip_head r : std_lstrip r = r -> match r with c :: _ => std_c0_space c = false | [] => True end.
Proof.
  destruct r as [|c r]; [auto|]. cbn [std_lstrip]. destruct (std_c0_space c) eqn:C; [|auto]. intros H. exfalso. 
  assert (LE : forall s, (length (std_lstrip s) <= length s)%nat) by (induction s as [|x s IH]; [reflexivity|]; cbn [std_lstrip]; destruct (std_c0_space x); cbn [length]; lia).
  specialize (LE r). rewrite H in LE. cbn [length] in LE. lia.
Qed.
Lemma relative_path E b r base enc l : limit_ok E -> idna_ok E -> enc_ok E (normalize_encoding E enc) -> parsed E b -> url_v4_ok b -> base_parsed E base -> usable E base enc ->
  path b = PList l -> scheme b <> $"file" -> std_lstrip r = r -> r <> [] -> ~ has_scheme (std_trim r) -> ~ starts (fun c => std_slash (scheme b) c \/ c = 63 \/ c = 35) r ->
  snd (parse_url E r (BRec b) enc) = snd (parse_url E (site b ++ $"/./" ++ directory l ++ r) base enc).
Proof.
  intros HL HI He Hb V Hb' U L NF T N S H. pose proof (parsed_rt E b HL HI Hb V) as W. rewrite parsed_flat by exact Hb. destruct (usable_flat E base enc He Hb' U) as (o & Q). rewrite Q.
  apply lstrip_head in T. destruct r as [|c r]; [congruence|]. unfold flat_parse. change (site b ++ $"/./" ++ directory l ++ c :: r) with (site b ++ 47 :: [46; 47] ++ directory l ++ c :: r).
  rewrite (site_clean E b W). rewrite <- clean_std in S. rewrite clean_prefix in S |- * by exact T. cbn [starts] in H.
  rewrite (relative_main (host_rt E) E _ b l c (rclean r) W L NF).
  - rewrite (site_main E _ He HL b W NF).
    + rewrite (rclean_app [46; 47]) by (repeat constructor). rewrite rclean_app; [change (c :: r) with ([c] ++ r); rewrite (rclean_app [c] r); [reflexivity|repeat constructor; exact T]|].
      destruct W as (_ & WP & _). unfold wf_path in WP. rewrite L in WP. destruct WP as (WP & _). apply removelast_forall in WP. unfold directory. clear - WP. induction WP as [|s a Hs Ha IH]; [constructor|].
      cbn [flat_map]. apply vis_app. split; [|exact IH]. apply vis_app. split; [|repeat constructor]. apply Forall_forall. intros d Hd. destruct Hs as (Hs & _).
      assert (R : 32 < d <= 126) by (apply (qs_range SAFE_PATH s d); [vm_compute; reflexivity|exact Hs|exact Hd]). unfold is_c0_space. lia.
    + left. rewrite (rclean_app [46; 47]) by (repeat constructor). discriminate.
  - now apply no_scheme_split.
  - destruct (slash_for (scheme b) c) eqn:X; [exfalso; apply H; left; now apply slash_for_spec|reflexivity].
  - rewrite qf_eq. destruct (N.eqb_spec c 63); [exfalso; apply H; tauto|]. destruct (N.eqb_spec c 35); [exfalso; apply H; tauto|reflexivity].
Qed.

(* ---------- the relative form of a URL ---------- *)
Lemma href_site u : path u <> PList [] -> has_opaque_path u = false -> exists x, href u = site u ++ 47 :: x /\ (match x with c :: _ => c <> 47 | [] => True end \/ uhost u <> None \/ exists s l, path u = PList (s :: l) /\ mem 47 s = true).
Proof.
  intros H O. rewrite href_eq, site_eq. unfold has_opaque_path in O. destruct (path u) as [|l] eqn:P; [discriminate|]. destruct l as [|s l]; [congruence|].
  unfold auth_of_url, dot_str, serialize_path, auth_text. rewrite P. destruct (uhost u) as [h|] eqn:U.
  - exists (s ++ serialize_segs l ++ tail_str u). split; [|right; left; discriminate]. unfold serialize_segs. cbn [app flat_map]. rewrite <- !app_assoc. cbn [app]. rewrite <- !app_assoc. reflexivity.
  - cbn [app]. destruct s as [|c s].
    + destruct l as [|s' l].
      * exists (tail_str u). split; [rewrite <- app_assoc; reflexivity|]. left. pose proof (tail_head u) as T. destruct (tail_str u) as [|c r]; [exact I|]. intros ->. discriminate T.
      * exists (46 :: serialize_segs ([] :: s' :: l) ++ tail_str u). split; [rewrite <- app_assoc; reflexivity|]. left. discriminate.
    + exists ((c :: s) ++ serialize_segs l ++ tail_str u). split; [rewrite <- !app_assoc; cbn [app serialize_segs flat_map]; rewrite <- !app_assoc; reflexivity|].
      destruct (N.eqb_spec c 47) as [-> |N]; [right; right; exists (47 :: s), l; split; [reflexivity|reflexivity]|left; exact N].
Qed.
Lemma same_site_bare u b : scheme u = scheme b -> username u = username b -> password u = password b -> uhost u = uhost b -> port u = port b -> bare_of u = bare_of b.
Proof. intros. apply urlrec_ext; auto. Qed.
Lemma rest_path E enc u x : limit_ok E -> enc_ok E enc -> wf (host_rt E) u -> scheme u <> $"file" -> path u <> PList [] -> has_opaque_path u = false -> href u = site u ++ 47 :: x ->
  flat_path E enc (bare_of u) x = Ok u.
Proof.
  intros HL He W NF H O Q. pose proof (rt_main E enc He HL u W None) as R. rewrite Q in R. rewrite <- R. symmetry. apply site_main; auto.
  destruct (href_site u H O) as (y & Y & K). rewrite Q in Y. apply app_inv_head in Y. injection Y as ->. destruct K as [K|[K|(s & l & P & M)]]; [now left|now right|].
  exfalso. destruct W as (_ & WP & _). unfold wf_path in WP. rewrite P in WP. destruct WP as (WP & _). inversion WP as [|? ? (_ & Z & _) _]; subst. congruence.
Qed.
Lemma href_vis E u x : wf (host_rt E) u -> has_opaque_path u = false -> href u = site u ++ x -> vis x.
Proof.
  intros W O Q. apply Forall_forall. intros c Hc. assert (K : In c (href u)) by (rewrite Q; apply in_app_iff; now right). apply (href_chars E u W) in K.
  assert (R : 32 < c <= 126); [|unfold is_c0_space; lia]. destruct K as [K|(_ & s & K & _)]; [exact K|]. unfold has_opaque_path in O. rewrite K in O. discriminate O.
Qed.
Lemma relative_form E u b x enc : limit_ok E -> idna_ok E -> enc_ok E (normalize_encoding E enc) -> parsed E u -> url_v4_ok u -> parsed E b ->
  scheme u = scheme b -> username u = username b -> password u = password b -> uhost u = uhost b -> port u = port b -> scheme u <> $"file" ->
  has_opaque_path u = false -> has_opaque_path b = false -> path u <> PList [] -> href u = site u ++ x ->
  snd (parse_url E ($"/." ++ x) (BRec b) enc) = Ok u /\
  ((forall t, x <> 47 :: 47 :: t) -> snd (parse_url E x (BRec b) enc) = Ok u).
Proof.
  intros HL HI He Hu V Hb E1 E2 E3 E4 E5 NF O O' P Q. pose proof (parsed_rt E u HL HI Hu V) as W. assert (NF' : scheme b <> $"file") by congruence.
  destruct (href_site u P O) as (y & Y & _). rewrite Q in Y. apply app_inv_head in Y. subst x. pose proof (href_vis E u (47 :: y) W O Q) as VX. 
  pose proof (rest_path E (normalize_encoding E enc) u y HL He W NF P O Q) as R. rewrite (same_site_bare u b E1 E2 E3 E4 E5) in R. rewrite !parsed_flat by exact Hb. unfold flat_parse. split.
  - assert (C : clean ($"/." ++ 47 :: y) = 47 :: 46 :: 47 :: y).
    { rewrite <- (app_nil_r ($"/." ++ 47 :: y)). rewrite clean_vis; [change (rclean []) with (@nil N); now rewrite app_nil_r| |discriminate]. apply vis_app. split; [repeat constructor|exact VX]. }
    rewrite C, (slash_main E _ b NF' 47); [|exact O'|reflexivity|cbv beta iota; unfold slash_for; change (46 =? 47) with false; change (46 =? 92) with false; now rewrite andb_false_r]. now rewrite dot_path.
  - intros NN. assert (C : clean (47 :: y) = 47 :: y). { rewrite <- (app_nil_r (47 :: y)) at 1. rewrite clean_vis; [change (rclean []) with (@nil N); now rewrite app_nil_r|exact VX|discriminate]. }
    rewrite C, (slash_main E _ b NF' 47); [exact R|exact O'|reflexivity|]. destruct y as [|c y]; [exact I|]. unfold slash_for. destruct (N.eqb_spec c 47); [subst; now destruct (NN y)|]. cbn [orb].
    destruct (special_scheme (scheme b)) eqn:S; [|reflexivity]. cbn [andb]. destruct (N.eqb_spec c 92) as [-> |]; [|reflexivity]. exfalso.
    assert (K : forall l, path u = PList l -> forall s, In s l -> mem 92 s = false).
    { intros l L s I. destruct W as (_ & WP & _). unfold wf_path in WP. rewrite L in WP. destruct WP as (WP & _). rewrite Forall_forall in WP. destruct (WP s I) as (_ & _ & Z & _). apply Z.
      unfold is_special. rewrite E1. exact S. }
    assert (HH : uhost u <> None). { destruct W as ((_ & _ & _ & WH & _) & _). unfold wf_host, is_special in WH. rewrite E1, S in WH. destruct (uhost u); [discriminate|congruence]. }
    rewrite href_eq, site_eq in Q. unfold auth_of_url, dot_str, serialize_path, auth_text in Q. unfold has_opaque_path in O. destruct (path u) as [|l] eqn:L; [discriminate O|].
    destruct (uhost u) as [h|]; [|congruence]. cbn [app] in Q. rewrite <- !app_assoc in Q. apply app_inv_head in Q. cbn [app] in Q. injection Q as Q. rewrite <- ?app_assoc in Q. do 3 apply app_inv_head in Q.
    destruct l as [|s l]; [congruence|]. unfold serialize_segs in Q. cbn [flat_map app] in Q. injection Q as Q. rewrite <- ?app_assoc in Q. destruct s as [|d s].
    + cbn [app] in Q. destruct l as [|s' l]; cbn [flat_map app] in Q; [|discriminate Q]. pose proof (tail_head u) as T. rewrite Q in T. discriminate T.
    + injection Q as -> _. specialize (K _ eq_refl (92 :: s) (or_introl eq_refl)). discriminate K.
Qed.
