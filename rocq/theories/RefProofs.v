(** Lemmas on relative references, on the encoding argument, on backslashes and
    on '..' segments. *)
From Coq Require Import Ascii String.
From Coq Require Import NArith ZArith Bool Arith Lia ZifyBool ZifyN ZifyNat List.
From Verif Require Import PyStr PyInt Codec Env HostModel UrlRecord Parser SpecText SpecHost FlatParser.
From Verif Require Import Lemmas CodecProofs QuoteProofs PyIntProofs LegacyProofs HostProofs LoopProofs FlatProofs WfProofs RoundTrip ParserProofs.
Import ListNotations.
Open Scope N_scope.

(* ---------- references that keep the path (C38, C39, C40) ---------- *)
Lemma wf_file_bare P b : wf P b -> scheme b = $"file" -> username b = [] /\ password b = [] /\ port b = None.
Proof.
  intros ((_ & _ & _ & _ & H & _) & _) S.
  assert (N : ~ (includes_credentials b = true \/ port b <> None)) by (intros X; destruct (H X) as (h & _ & _ & X'); congruence).
  unfold includes_credentials in N. destruct (username b), (password b), (port b); repeat split; try reflexivity; exfalso; apply N; first [left; reflexivity|right; discriminate].
Qed.
Lemma wf_opaque_bare P b s : wf P b -> path b = POpaque s -> username b = [] /\ password b = [] /\ port b = None /\ uhost b = None.
Proof.
  intros ((_ & _ & _ & _ & H & _) & B & _) S. unfold wf_path in B. rewrite S in B. destruct B as (B & _).
  assert (N : ~ (includes_credentials b = true \/ port b <> None)) by (intros X; destruct (H X) as (h & X' & _); congruence).
  unfold includes_credentials in N. destruct (username b), (password b), (port b); repeat split; try reflexivity; try exact B; exfalso; apply N; first [left; reflexivity|right; discriminate].
Qed.
Lemma urlrec_ext u v : scheme u = scheme v -> username u = username v -> password u = password v -> uhost u = uhost v ->
  port u = port v -> path u = path v -> query u = query v -> fragment u = fragment v -> u = v.
Proof. destruct u, v; cbn; intros; subst; reflexivity. Qed.
Lemma base_all_eq b : base_all b (set_scheme (scheme b) new_url) = set_fragment None b.
Proof. reflexivity. Qed.
Lemma file_base_eq P b : wf P b -> scheme b = $"file" -> file_base_url b file_url = set_fragment None b.
Proof. intros W S. destruct (wf_file_bare P b W S) as (A & B & C). apply urlrec_ext; cbn [file_base_url file_url scheme username password uhost port path query fragment set_query set_path set_host set_scheme set_fragment new_url]; auto. Qed.
Lemma opaque_base_eq P b s : wf P b -> path b = POpaque s -> set_query (query b) (set_path (path b) (set_scheme (scheme b) new_url)) = set_fragment None b.
Proof.
  intros W S. destruct (wf_opaque_bare P b s W S) as (A & B & C & D).
  apply urlrec_ext; cbn [scheme username password uhost port path query fragment set_query set_path set_host set_scheme set_fragment new_url]; auto.
Qed.
(** a reference starting with '?' or '#', against a base whose path is a list *)
Lemma qf_ref P E b enc rest : wf P b -> has_opaque_path b = false ->
  match rest with [] => False | c :: _ => is_qf c = true end ->
  flat_no_scheme E (Some b) enc rest = flat_tail E enc (set_fragment None b) rest.
Proof.
  intros W O H. unfold flat_no_scheme. rewrite O. destruct rest as [|c t]; [destruct H|].
  assert (N : (c =? 47) = false /\ (c =? 92) = false /\ is_slash c = false) by (rewrite qf_eq in H; rewrite slash_eq; lia).
  destruct N as (N1 & N2 & N3). destruct (str_eqb (scheme b) $"file") eqn:F.
  - unfold flat_file. cbv zeta. rewrite N3, F, H. apply str_eqb_eq in F. now rewrite (file_base_eq P b W F).
  - unfold flat_relative. cbv zeta. rewrite N1, N2, andb_false_r, H. reflexivity.
Qed.
Lemma hash_ref P E b enc f : wf P b ->
  flat_no_scheme E (Some b) enc (35 :: f) = Ok (set_fragment (Some (enc_fragment f)) b).
Proof.
  intros W. destruct (has_opaque_path b) eqn:O; [|now rewrite (qf_ref P) by auto].
  unfold flat_no_scheme. rewrite O. unfold has_opaque_path in O. destruct (path b) as [s|] eqn:S; [|discriminate].
  change (35 =? 35) with true. cbv iota. rewrite <- S, (opaque_base_eq P b s W S). reflexivity.
Qed.
Lemma span_all p s : forallb p s = true -> span p s = (s, []).
Proof. intros H. rewrite <- (app_nil_r s) at 1. rewrite span_app; [reflexivity| |exact I]. apply Forall_forall. now apply forallb_forall. Qed.
Lemma query_ref P E b enc q : wf P b -> has_opaque_path b = false -> mem 35 q = false ->
  flat_no_scheme E (Some b) enc (63 :: q) =
  match enc_query E enc b q with Some x => Ok (set_fragment None (set_query (Some x) b)) | None => Err EUnicode end.
Proof.
  intros W O H. rewrite (qf_ref P) by auto. cbn [flat_tail]. change (63 =? 63) with true. cbv iota. unfold flat_query.
  rewrite span_all; [reflexivity|]. apply forallb_forall. intros c Hc. destruct (N.eqb_spec c 35); [|reflexivity]. subst. apply mem_not_In in H. tauto.
Qed.
Lemma empty_ref E b enc : has_opaque_path b = false -> scheme b <> $"file" ->
  flat_no_scheme E (Some b) enc [] = Ok (set_fragment None b).
Proof.
  intros O S. unfold flat_no_scheme. rewrite O. destruct (str_eqb (scheme b) $"file") eqn:F; [apply str_eqb_eq in F; contradiction|]. reflexivity.
Qed.
Lemma empty_ref_file P E b enc p : wf P b -> path b = PList p -> scheme b = $"file" ->
  flat_no_scheme E (Some b) enc [] = Ok (set_path (PList (p ++ [[]])) (set_fragment None b)).
Proof.
  intros W O S. unfold flat_no_scheme, has_opaque_path. rewrite O, S. change (str_eqb $"file" $"file") with true. cbv iota.
  unfold flat_file. cbv zeta. rewrite S. change (str_eqb $"file" $"file") with true. cbv iota. rewrite (file_base_eq P b W S).
  unfold flat_path. cbn [span flat_tail]. unfold path_segs. cbn [path set_fragment]. rewrite O. cbn [walk]. unfold pieces, norm_slash.
  destruct (is_special _); cbn [replace_char map split walk]; unfold push; change (utf8_percent_encode [] SAFE_PATH false) with (@nil N);
    change (is_windows_drive_letter []) with false; rewrite andb_false_r; reflexivity.
Qed.
(** empty and '#', '?' inputs have no scheme *)
Lemma clean_prefix c t : is_c0_space c = false -> clean (c :: t) = c :: rclean t.
Proof. intros H. apply (clean_vis [c] t); [constructor; auto|discriminate]. Qed.
Lemma flat_ref E c t base enc : is_c0_space c = false -> mem c ASCII_ALPHA = false ->
  flat_parse E (c :: t) base enc = flat_no_scheme E base (normalize_encoding E enc) (c :: rclean t).
Proof. intros H1 H2. unfold flat_parse, flat_main. rewrite clean_prefix by auto. cbn [scheme_split]. rewrite H2. reflexivity. Qed.

(* ---------- the encoding argument (C44) ---------- *)
(** schemes whose queries are always encoded as UTF-8 *)
Definition utf8_only (sch : str) : Prop := special_scheme sch = false \/ sch = $"ws" \/ sch = $"wss".
Definition qrel (a b : urlrec) : Prop := exists q, a = set_query q b /\ (utf8_only (scheme b) -> a = b).
Definition qres (a b : res urlrec) : Prop :=
  match a, b with Ok x, Ok y => qrel x y | Err e, Err e' => e = e' | _, _ => False end.
Lemma utf8_only_enc E u q e1 e2 : utf8_only (scheme u) -> enc_query E e1 u q = enc_query E e2 u q.
Proof.
  intros H. unfold enc_query. assert (Q : forall e, enc_of E (query_encoding u e) = enc_of E $"utf-8").
  { intros e. unfold query_encoding. destruct (str_eqb e $"utf-8") eqn:X; [apply str_eqb_eq in X; subst; now rewrite andb_false_l|]. cbn [negb andb].
    replace (is_not_special u || _) with true; [reflexivity|]. symmetry. unfold is_not_special. destruct H as [H|H]; [rewrite H; reflexivity|].
    apply orb_true_iff. right. destruct H as [-> | ->]; reflexivity. }
  now rewrite !Q.
Qed.
Section Enc.
Context (E : env) (e1 e2 : str) (H1 : enc_ok E e1) (H2 : enc_ok E e2).
Definition qok (q : option str) (u : urlrec) : Prop := utf8_only (scheme u) -> q = query u.
Lemma qrel_of q u : qok q u -> qrel (set_query q u) u.
Proof. intros H. exists q. split; [reflexivity|]. intros X. rewrite (H X). destruct u; reflexivity. Qed.
Lemma frag_R q u t : qok q u -> qrel (flat_frag (set_query q u) t) (flat_frag u t).
Proof. intros H. destruct t as [|c t]; [now apply qrel_of|]. apply (qrel_of q (set_fragment _ u)). exact H. Qed.
Lemma enc_query_set E' e u q x : enc_query E' e (set_query q u) x = enc_query E' e u x. Proof. reflexivity. Qed.
Lemma query_R q u t : is_pystr t -> qres (flat_query E e1 (set_query q u) t) (flat_query E e2 u t).
Proof.
  intros Hp. unfold flat_query. pose proof (span_pystr (fun c => negb (c =? 35)) t Hp) as [P1 P2]. destruct (span _ t) as [x f].
  rewrite enc_query_set. destruct (enc_query_ok E e1 u x H1 P1) as (y1 & Y1 & _). destruct (enc_query_ok E e2 u x H2 P1) as (y2 & Y2 & _). rewrite Y1, Y2.
  apply (frag_R (Some y1) (set_query (Some y2) u)). intros X. cbn [query set_query]. rewrite (utf8_only_enc E u x e1 e2 X) in Y1. congruence.
Qed.
Lemma tail_R q u t : is_pystr t -> qok q u -> qres (flat_tail E e1 (set_query q u) t) (flat_tail E e2 u t).
Proof.
  intros Hp Hq. destruct t as [|c t]; [now apply qrel_of|]. cbn [flat_tail]. destruct (c =? 63); [|now apply frag_R]. apply query_R. now apply (pystr_app [c] t).
Qed.
Lemma path_R q u t : is_pystr t -> qok q u -> qres (flat_path E e1 (set_query q u) t) (flat_path E e2 u t).
Proof.
  intros Hp Hq. unfold flat_path. pose proof (span_pystr (fun c => negb (is_qf c)) t Hp) as [P1 P2]. destruct (span _ t) as [x f].
  match goal with |- qres _ (flat_tail _ _ ?v _) => apply (tail_R q v) end; auto.
Qed.
Lemma opaque_R q u t : is_pystr t -> qok q u -> qres (flat_opaque E e1 (set_query q u) t) (flat_opaque E e2 u t).
Proof.
  intros Hp Hq. unfold flat_opaque. pose proof (span_pystr (fun c => negb (is_qf c)) t Hp) as [P1 P2]. destruct (span _ t) as [x f].
  match goal with |- qres _ (flat_tail _ _ ?v _) => apply (tail_R q v) end; auto.
Qed.
Lemma path_start_R q u t : is_pystr t -> qok q u -> qres (flat_path_start E e1 (set_query q u) t) (flat_path_start E e2 u t).
Proof.
  intros Hp Hq. unfold flat_path_start. change (is_special (set_query q u)) with (is_special u). destruct t as [|c t].
  - destruct (is_special u); [now apply path_R|now apply qrel_of].
  - pose proof (proj2 (proj1 (pystr_app [c] t) Hp)) as Ht.
    destruct (is_special u); [destruct (is_slash c); now apply path_R|]. destruct (is_qf c); [now apply tail_R|]. destruct (c =? 47); now apply path_R.
Qed.
(** the functions below start from a record without query *)
Lemma fresh_qok u : qok (query u) u. Proof. intros _. reflexivity. Qed.
Lemma set_query_id u : set_query (query u) u = u. Proof. destruct u; reflexivity. Qed.
Lemma path_R0 u t : is_pystr t -> qres (flat_path E e1 u t) (flat_path E e2 u t).
Proof. intros H. rewrite <- (set_query_id u) at 1. apply path_R; [auto|apply fresh_qok]. Qed.
Lemma path_start_R0 u t : is_pystr t -> qres (flat_path_start E e1 u t) (flat_path_start E e2 u t).
Proof. intros H. rewrite <- (set_query_id u) at 1. apply path_start_R; [auto|apply fresh_qok]. Qed.
Lemma opaque_R0 u t : is_pystr t -> qres (flat_opaque E e1 u t) (flat_opaque E e2 u t).
Proof. intros H. rewrite <- (set_query_id u) at 1. apply opaque_R; [auto|apply fresh_qok]. Qed.
Lemma rbind_R {A} (r : res A) f g : (forall a, qres (f a) (g a)) -> qres (rbind r f) (rbind r g).
Proof. intros H. destruct r; [apply H|reflexivity]. Qed.
Lemma host_R u a t : is_pystr t -> qres (flat_host E e1 u a t) (flat_host E e2 u a t).
Proof.
  intros Ht. unfold flat_host. destruct (host_cut false a) as [h [ps|]].
  - destruct (_ =? _)%nat; [reflexivity|]. apply rbind_R; intros x. apply rbind_R; intros p. now apply path_start_R0.
  - destruct (_ && _); [reflexivity|]. apply rbind_R; intros x. now apply path_start_R0.
Qed.
Lemma authority_R u t : is_pystr t -> qres (flat_authority E e1 u t) (flat_authority E e2 u t).
Proof.
  intros Hp. unfold flat_authority. pose proof (span_pystr (fun c => negb (ends_auth (is_special u) c)) t Hp) as [P1 P2]. destruct (span _ t) as [a r].
  destruct (split_last 64 a) as [[ui hp]|]; [|now apply host_R]. destruct (_ =? _)%nat; [reflexivity|now apply host_R].
Qed.
Lemma file_host_R u t : is_pystr t -> qres (flat_file_host E e1 u t) (flat_file_host E e2 u t).
Proof.
  intros Hp. unfold flat_file_host. pose proof (span_pystr (fun c => negb (mem c $"/\?#")) t Hp) as [P1 P2]. destruct (span _ t) as [h r].
  destruct (is_windows_drive_letter h); [now apply path_R0|]. destruct h; [now apply path_start_R0|]. apply rbind_R; intros x. now apply path_start_R0.
Qed.
(** two bases that differ at most in the query *)
Definition brel (b1 b2 : option urlrec) : Prop :=
  match b1, b2 with Some x, Some y => qrel x y | None, None => True | _, _ => False end.
Lemma file_slash_R b1 b2 u t : brel b1 b2 -> is_pystr t -> qres (flat_file_slash E b1 e1 u t) (flat_file_slash E b2 e2 u t).
Proof.
  intros HB Hp.
  assert (S : file_slash_url b1 t u = file_slash_url b2 t u).
  { destruct b1 as [x|], b2 as [y|]; try destruct HB; try reflexivity. destruct H as [-> _]. reflexivity. }
  unfold flat_file_slash. rewrite S. destruct t as [|c t]; [now apply path_R0|]. destruct (is_slash c); [|now apply path_R0].
  apply file_host_R. now apply (pystr_app [c] t).
Qed.
Lemma file_R b1 b2 t : brel b1 b2 -> is_pystr t -> qres (flat_file E b1 e1 t) (flat_file E b2 e2 t).
Proof.
  intros HB Hp. unfold flat_file. cbv zeta.
  match goal with |- qres (match t with [] => ?x | _ => _ end) (match t with [] => ?y | _ => _ end) => assert (G : qres x y) end.
  { destruct b1 as [x|], b2 as [y|]; try destruct HB as []; try now apply path_R0. rename x0 into q. destruct H as [-> Hq].
    change (scheme (set_query q y)) with (scheme y). destruct (str_eqb (scheme y) $"file") eqn:F; [|now apply path_R0].
    assert (Q : qok q (file_base_url y file_url)) by (intros [X|[X|X]]; cbn in X; discriminate).
    destruct t as [|c t]; [exact (path_R q (file_base_url y file_url) [] Hp Q)|].
    destruct (is_qf c); [exact (tail_R q (file_base_url y file_url) (c :: t) Hp Q)|]. now apply path_R0. }
  destruct t as [|c t]; [exact G|]. destruct (is_slash c); [|exact G]. apply file_slash_R; [exact HB|]. now apply (pystr_app [c] t).
Qed.
Lemma drop_pystr p t : is_pystr t -> is_pystr (drop_while p t). Proof. apply pystr_sub. intros c. apply drop_while_in. Qed.
Lemma relative_slash_R b q u t : is_pystr t -> qres (flat_relative_slash E (set_query q b) e1 u t) (flat_relative_slash E b e2 u t).
Proof.
  intros Hp. unfold flat_relative_slash. change (base_auth (set_query q b) u) with (base_auth b u). destruct t as [|c t]; [now apply path_R0|].
  pose proof (proj2 (proj1 (pystr_app [c] t) Hp)) as Ht.
  destruct (_ && _); [apply authority_R; now apply drop_pystr|]. destruct (c =? 47); [now apply authority_R|now apply path_R0].
Qed.
Lemma relative_R b q t : is_pystr t -> qok q b -> qres (flat_relative E (set_query q b) e1 t) (flat_relative E b e2 t).
Proof.
  intros Hp Hq. unfold flat_relative. cbv zeta. change (scheme (set_query q b)) with (scheme b).
  assert (Q : qok q (base_all b (set_scheme (scheme b) new_url))) by exact Hq.
  destruct t as [|c t]; [exact (qrel_of q _ Q)|]. pose proof (proj2 (proj1 (pystr_app [c] t) Hp)) as Ht.
  destruct (_ || _); [now apply relative_slash_R|].
  destruct (is_qf c); [exact (tail_R q _ (c :: t) Hp Q)|]. now apply path_R0.
Qed.
Lemma scheme_R b1 b2 s t : brel b1 b2 -> is_pystr t -> qres (flat_scheme E b1 e1 s t) (flat_scheme E b2 e2 s t).
Proof.
  intros HB Hp. unfold flat_scheme. cbv zeta. destruct (str_eqb s $"file"); [now apply file_R|]. pose proof (drop_pystr is_slash t Hp) as Hd.
  destruct (special_scheme s).
  - destruct b1 as [x|], b2 as [y|]; try destruct HB as []; try now apply authority_R. rename x0 into q. destruct H as [-> Hq].
    change (scheme (set_query q y)) with (scheme y). destruct (_ && _); [|now apply authority_R]. apply relative_R; auto.
    intros X. now rewrite <- (Hq X).
  - destruct t as [|c t]; [now apply opaque_R0|]. pose proof (proj2 (proj1 (pystr_app [c] t) Hp)) as Ht. destruct (c =? 47); [|now apply opaque_R0].
    destruct t as [|d t]; [now apply path_R0|]. pose proof (proj2 (proj1 (pystr_app [d] t) Ht)) as Ht'. destruct (d =? 47); [now apply authority_R|now apply path_R0].
Qed.
Lemma no_scheme_R b1 b2 t : brel b1 b2 -> is_pystr t -> qres (flat_no_scheme E b1 e1 t) (flat_no_scheme E b2 e2 t).
Proof.
  intros HB Hp. unfold flat_no_scheme. destruct b1 as [x|], b2 as [y|]; try destruct HB as []; try reflexivity. pose proof H as [X Hq].
  subst x. rename x0 into q. change (has_opaque_path (set_query q y)) with (has_opaque_path y). change (scheme (set_query q y)) with (scheme y).
  change (path (set_query q y)) with (path y).
  assert (Q : qok q y) by (intros Z; now rewrite <- (Hq Z)).
  destruct (has_opaque_path y).
  - destruct t as [|c t]; [reflexivity|]. destruct (c =? 35); [|reflexivity].
    exact (frag_R q (set_query (query y) (set_path (path y) (set_scheme (scheme y) new_url))) (c :: t) Q).
  - destruct (str_eqb _ _); [apply file_R; [exists q; split; [reflexivity|exact Hq]|auto]|now apply relative_R].
Qed.
Lemma main_R b1 b2 s : brel b1 b2 -> is_pystr s -> qres (flat_main E b1 e1 s) (flat_main E b2 e2 s).
Proof.
  intros HB Hs. unfold flat_main. destruct (scheme_split s) as [[sch t]|] eqn:Q; [|now apply no_scheme_R]. apply scheme_R; auto.
  apply scheme_split_ok in Q as [_ ->]. apply pystr_app in Hs as [_ Hs]. now apply (pystr_app [58] t).
Qed.
End Enc.
Lemma qrel_base_ok a b : qrel a b -> base_ok (Some b) -> base_ok (Some a).
Proof. intros [q [-> _]] H. exact H. Qed.
Lemma parse_new_R E s b1 b2 e1 e2 : enc_ok E (normalize_encoding E e1) -> enc_ok E (normalize_encoding E e2) -> is_pystr s ->
  brel b1 b2 -> base_ok b2 -> qres (snd (parse_new E s b1 e1)) (snd (parse_new E s b2 e2)).
Proof.
  intros H1 H2 Hs HB HO. rewrite !parse_new_flat; auto.
  - unfold flat_parse. apply main_R; auto. now apply clean_pystr.
  - destruct b1, b2; try destruct HB as []; auto. eapply qrel_base_ok; eauto. now exists x.
Qed.
