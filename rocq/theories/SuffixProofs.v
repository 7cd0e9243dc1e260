(** Lemmas on adding a query or a fragment to an input (C89, C90). *)
From Coq Require Import Ascii String.
From Coq Require Import NArith ZArith Bool Arith Lia ZifyBool ZifyN ZifyNat List.
From Verif Require Import PyStr PyInt Codec Env HostModel UrlRecord Parser SpecText SpecHost FlatParser.
From Verif Require Import Lemmas CodecProofs QuoteProofs PyIntProofs LegacyProofs HostProofs LoopProofs FlatProofs WfProofs RoundTrip ParserProofs RefProofs PathProofs UrlProps.
From Verif Require Import SpecUrl SpecReference.
Import ListNotations.
Open Scope N_scope.

(** starts with '?' or '#' *)
Definition qf_head (t : str) : Prop := match t with c :: _ => is_qf c = true | [] => False end.
Definition no_qf (s : str) : Prop := Forall (fun c => is_qf c = false) s.

Lemma span_tail p s t : (forall c, is_qf c = true -> p c = false) -> qf_head t ->
  span p (s ++ t) = (fst (span p s), snd (span p s) ++ t).
Proof.
  intros H T. rewrite (span_eq p s) at 1. rewrite <- app_assoc. rewrite span_app; [reflexivity|apply LoopProofs.span_all|].
  pose proof (span_stop p s) as K. destruct (snd (span p s)); [|exact K]. cbn [app]. destruct t as [|c t]; [exact I|]. now apply H.
Qed.
Lemma no_qf_span s : no_qf s -> span (fun c => negb (is_qf c)) s = (s, []).
Proof. intros H. apply RefProofs.span_all. apply forallb_forall. intros c Hc. unfold no_qf in H. rewrite Forall_forall in H. now rewrite H. Qed.
Lemma no_qf_snd p s : no_qf s -> no_qf (snd (span p s)).
Proof. unfold no_qf. rewrite !Forall_forall. intros H c Hc. apply H. now apply span_in in Hc. Qed.
Lemma rbind_assoc {A B C} (r : res A) (f : A -> res B) (g : B -> res C) : rbind (rbind r f) g = rbind r (fun a => rbind (f a) g).
Proof. destruct r; reflexivity. Qed.
Lemma rbind_ext {A B} (r : res A) (f g : A -> res B) : (forall a, f a = g a) -> rbind r f = rbind r g.
Proof. intros H. destruct r; [apply H|reflexivity]. Qed.

Section Tail.
Variable E : env.
Variable enc : str.
Variable t : str.
Hypothesis T : qf_head t.
Let K (u : urlrec) : res urlrec := flat_tail E enc u t.

Lemma path_tail u s : no_qf s -> flat_path E enc u (s ++ t) = rbind (flat_path E enc u s) K.
Proof.
  intros H. unfold flat_path. rewrite span_tail; [|intros c ->; reflexivity|exact T]. rewrite no_qf_span by exact H. cbn [fst snd app flat_tail rbind]. reflexivity.
Qed.
Lemma head_qf : exists c r, t = c :: r /\ is_qf c = true /\ (c =? 47) = false /\ is_slash c = false /\ (c =? 92) = false /\ (c =? 58) = false /\ is_scheme_char c = false /\ mem c ASCII_ALPHA = false.
Proof.
  destruct t as [|c r]; [destruct T|]. exists c, r. cbn [qf_head] in T. pose proof T as Q. rewrite qf_eq in Q. apply orb_true_iff in Q.
  split; [reflexivity|]. split; [exact T|]. destruct Q as [Q|Q]; apply N.eqb_eq in Q; subst c; vm_compute; repeat split; reflexivity.
Qed.
Lemma path_start_tail u s : no_qf s -> flat_path_start E enc u (s ++ t) = rbind (flat_path_start E enc u s) K.
Proof.
  intros H. destruct s as [|c s].
  - destruct head_qf as (c & r & Q & Q1 & Q2 & Q3 & _). cbn [app]. unfold flat_path_start at 1. rewrite Q. rewrite Q3, Q1. rewrite <- Q. unfold flat_path_start.
    destruct (is_special u); [|reflexivity]. change t with ([] ++ t) at 1. now apply path_tail.
  - cbn [app]. unfold flat_path_start. inversion H; subst. destruct (is_special u).
    + destruct (is_slash c); [now apply path_tail|]. change (c :: s ++ t) with ((c :: s) ++ t). now apply path_tail.
    + rewrite H2. destruct (c =? 47); [now apply path_tail|]. change (c :: s ++ t) with ((c :: s) ++ t). now apply path_tail.
Qed.
Lemma opaque_tail u s : no_qf s -> flat_opaque E enc u (s ++ t) = rbind (flat_opaque E enc u s) K.
Proof.
  intros H. unfold flat_opaque. rewrite span_tail; [|intros c ->; reflexivity|exact T]. rewrite no_qf_span by exact H. cbn [fst snd app flat_tail rbind]. reflexivity.
Qed.
Lemma host_tail u a s : no_qf s -> flat_host E enc u a (s ++ t) = rbind (flat_host E enc u a s) K.
Proof.
  intros H. unfold flat_host. destruct (host_cut false a) as [h [ps|]].
  - destruct (length h =? 0)%nat; [reflexivity|]. rewrite rbind_assoc. apply rbind_ext. intros x. rewrite rbind_assoc. apply rbind_ext. intros p. now apply path_start_tail.
  - destruct (is_special u && _); [reflexivity|]. rewrite rbind_assoc. apply rbind_ext. intros x. now apply path_start_tail.
Qed.
Lemma qf_ends sp c : is_qf c = true -> ends_auth sp c = true.
Proof. rewrite qf_eq. intros H. apply orb_true_iff in H. destruct H as [H|H]; apply N.eqb_eq in H; subst c; reflexivity. Qed.
Lemma authority_tail u s : no_qf s -> flat_authority E enc u (s ++ t) = rbind (flat_authority E enc u s) K.
Proof.
  intros H. unfold flat_authority. rewrite span_tail; [|intros c Hc; now rewrite qf_ends|exact T].
  pose proof (no_qf_snd (fun c => negb (ends_auth (is_special u) c)) s H) as H2. destruct (span _ s) as [a r]. cbn [fst snd] in *.
  destruct (split_last 64 a) as [[ui hp]|]; [|now apply host_tail]. destruct (length hp =? 0)%nat; [reflexivity|]. now apply host_tail.
Qed.
Lemma file_host_tail u s : no_qf s -> flat_file_host E enc u (s ++ t) = rbind (flat_file_host E enc u s) K.
Proof.
  intros H. unfold flat_file_host. rewrite span_tail; [|intros c Hc|exact T].
  - pose proof (no_qf_snd (fun c => negb (mem c $"/\?#")) s H) as H2. destruct (span _ s) as [a r]. cbn [fst snd] in *.
    destruct (is_windows_drive_letter a); [now apply path_tail|]. destruct a; [now apply path_start_tail|]. rewrite rbind_assoc. apply rbind_ext. intros x. now apply path_start_tail.
  - rewrite qf_eq in Hc. apply orb_true_iff in Hc. destruct Hc as [Q|Q]; apply N.eqb_eq in Q; subst c; reflexivity.
Qed.
Lemma drive_tail s : starts_with_windows_drive_letter (s ++ t) = starts_with_windows_drive_letter s.
Proof.
  destruct head_qf as (c & r & Q & Q1 & _). assert (M : mem c $"/\?#" = true).
  { rewrite qf_eq in Q1. apply orb_true_iff in Q1. destruct Q1 as [K1|K1]; apply N.eqb_eq in K1; subst c; reflexivity. }
  assert (D : is_windows_drive_letter [c] = false) by reflexivity.
  rewrite Q. destruct s as [|x [|y [|z s]]].
  - unfold starts_with_windows_drive_letter. cbn [app length Nat.leb andb]. destruct r as [|d r]; [reflexivity|]. cbn [length Nat.leb andb firstn].
    assert (X : is_windows_drive_letter [c; d] = false).
    { unfold is_windows_drive_letter. rewrite qf_eq in Q1. apply orb_true_iff in Q1. destruct Q1 as [K1|K1]; apply N.eqb_eq in K1; subst c; reflexivity. }
    rewrite X. reflexivity.
  - unfold starts_with_windows_drive_letter. cbn [app length Nat.leb andb firstn].
    assert (X : is_windows_drive_letter [x; c] = false).
    { unfold is_windows_drive_letter. rewrite qf_eq in Q1. apply orb_true_iff in Q1. destruct Q1 as [K1|K1]; apply N.eqb_eq in K1; subst c; cbn [length Nat.eqb andb nth_error]; apply andb_false_r. }
    now rewrite X.
  - unfold starts_with_windows_drive_letter. cbn [app length Nat.leb andb firstn Nat.eqb nth_error]. rewrite M. cbn [orb]. rewrite ?orb_true_r. reflexivity.
  - unfold starts_with_windows_drive_letter. cbn [app length Nat.leb andb firstn Nat.eqb nth_error]. reflexivity.
Qed.
Lemma file_slash_tail base u s : no_qf s -> flat_file_slash E base enc u (s ++ t) = rbind (flat_file_slash E base enc u s) K.
Proof.
  intros H. assert (F : file_slash_url base (s ++ t) u = file_slash_url base s u) by (unfold file_slash_url; now rewrite drive_tail).
  destruct s as [|c s].
  - cbn [app] in *. unfold flat_file_slash. destruct head_qf as (c & r & Q & Q1 & Q2 & Q3 & _). rewrite Q. rewrite Q3. rewrite <- Q, F. change t with ([] ++ t) at 1. now apply path_tail.
  - cbn [app] in *. unfold flat_file_slash. destruct (is_slash c); [apply file_host_tail; now inversion H|]. rewrite F. change (c :: s ++ t) with ((c :: s) ++ t). now apply path_tail.
Qed.
(** the only inputs that the file state treats differently: the empty remainder with a file base *)
Lemma file_tail base s : no_qf s -> (s = [] -> same_scheme base $"file" = false) -> flat_file E base enc (s ++ t) = rbind (flat_file E base enc s) K.
Proof.
  intros H N. destruct s as [|c s].
  - specialize (N eq_refl). destruct head_qf as (c & r & Q & Q1 & Q2 & Q3 & _). cbn [app]. unfold flat_file. cbv zeta. rewrite Q at 1. rewrite Q3.
    assert (X : flat_path E enc file_url t = rbind (flat_path E enc file_url []) K) by (change t with ([] ++ t) at 1; now apply path_tail).
    destruct base as [b|]; [|exact X]. cbn [same_scheme] in N. rewrite N. exact X.
  - cbn [app]. unfold flat_file. cbv zeta. destruct (is_slash c) eqn:S; [apply file_slash_tail; now inversion H|].
    assert (X : forall u, flat_path E enc u (c :: s ++ t) = rbind (flat_path E enc u (c :: s)) K) by (intros u; change (c :: s ++ t) with ((c :: s) ++ t); now apply path_tail).
    destruct base as [b|]; [|apply X]. destruct (str_eqb (scheme b) $"file"); [|apply X]. inversion H; subst. rewrite H2.
    change (c :: s ++ t) with ((c :: s) ++ t) at 1. rewrite drive_tail. apply X.
Qed.
Lemma drop_tail s : drop_while is_slash (s ++ t) = drop_while is_slash s ++ t.
Proof.
  induction s as [|c s IH]; cbn [app drop_while]; [|destruct (is_slash c); [exact IH|reflexivity]].
  destruct head_qf as (c & r & Q & Q1 & Q2 & Q3 & _). rewrite Q. cbn [drop_while]. now rewrite Q3.
Qed.
Lemma no_qf_drop s : no_qf s -> no_qf (drop_while is_slash s).
Proof. intros H. induction H; [constructor|]. cbn [drop_while]. destruct (is_slash x); [exact IHForall|now constructor]. Qed.
Lemma slash_tail b u s : no_qf s -> flat_relative_slash E b enc u (s ++ t) = rbind (flat_relative_slash E b enc u s) K.
Proof.
  intros H. destruct s as [|c s]; unfold flat_relative_slash; cbn [app].
  - destruct head_qf as (c & r & Q & Q1 & Q2 & Q3 & _). rewrite Q. rewrite Q3, Q2, andb_false_r. rewrite <- Q. change t with ([] ++ t) at 1. now apply path_tail.
  - inversion H; subst. destruct (is_special u && is_slash c).
    + rewrite drop_tail. apply authority_tail. now apply no_qf_drop.
    + destruct (c =? 47); [now apply authority_tail|]. change (c :: s ++ t) with ((c :: s) ++ t). now apply path_tail.
Qed.
Lemma relative_tail b s : no_qf s -> flat_relative E b enc (s ++ t) = rbind (flat_relative E b enc s) K.
Proof.
  intros H. destruct s as [|c s]; unfold flat_relative; cbv zeta; cbn [app].
  - destruct head_qf as (c & r & Q & Q1 & Q2 & Q3 & Q4 & _). rewrite Q. rewrite Q2, Q4, andb_false_r, Q1. rewrite <- Q. reflexivity.
  - inversion H; subst. destruct (_ || _); [now apply slash_tail|]. rewrite H2. change (c :: s ++ t) with ((c :: s) ++ t). now apply path_tail.
Qed.
Lemma sw_tail s : starts_with $"//" (s ++ t) = starts_with $"//" s.
Proof.
  destruct head_qf as (c & r & Q & Q1 & Q2 & _). change ($"//") with [47; 47]. assert (47 =? c = false) by lia.
  rewrite Q. destruct s as [|x [|y s]]; cbn [app starts_with].
  - now rewrite H.
  - now rewrite H.
  - reflexivity.
Qed.
Lemma scheme_tail base sch s : no_qf s -> (s = [] -> sch = $"file" -> same_scheme base $"file" = false) ->
  flat_scheme E base enc sch (s ++ t) = rbind (flat_scheme E base enc sch s) K.
Proof.
  intros H N. unfold flat_scheme. cbv zeta. destruct (str_eqb sch $"file") eqn:F.
  - apply str_eqb_eq in F. apply file_tail; auto.
  - destruct (special_scheme sch).
    + rewrite sw_tail, drop_tail. pose proof (no_qf_drop s H) as D. destruct base as [b|]; [|now apply authority_tail]. destruct (_ && _); [now apply relative_tail|now apply authority_tail].
    + destruct s as [|c s].
      * destruct head_qf as (c & r & Q & Q1 & Q2 & _). cbn [app]. rewrite Q. rewrite Q2. rewrite <- Q. change t with ([] ++ t) at 1. now apply opaque_tail.
      * cbn [app]. destruct (c =? 47); [|change (c :: s ++ t) with ((c :: s) ++ t); now apply opaque_tail]. inversion H; subst. destruct s as [|d s].
        { destruct head_qf as (x & r & Q & Q1 & Q2 & _). cbn [app]. rewrite Q. rewrite Q2. rewrite <- Q. change t with ([] ++ t) at 1. now apply path_tail. }
        cbn [app]. destruct (d =? 47); [inversion H3; subst; now apply authority_tail|]. change (d :: s ++ t) with ((d :: s) ++ t). now apply path_tail.
Qed.
Lemma no_scheme_tail base s : no_qf s -> (s = [] -> same_scheme base $"file" = false) ->
  (s = [] -> match base with Some b => has_opaque_path b = true -> match t with c :: _ => c <> 35 | [] => True end | None => True end) ->
  flat_no_scheme E base enc (s ++ t) = rbind (flat_no_scheme E base enc s) K.
Proof.
  intros H N O. unfold flat_no_scheme. destruct base as [b|]; [|reflexivity]. destruct (has_opaque_path b) eqn:P.
  - destruct s as [|c s]; cbn [app].
    + specialize (O eq_refl eq_refl). destruct t as [|c r]; [destruct T|]. destruct (N.eqb_spec c 35); [contradiction|reflexivity].
    + inversion H; subst. rewrite qf_eq in H2. destruct (c =? 35) eqn:Q; [rewrite orb_true_r in H2; discriminate|reflexivity].
  - destruct (str_eqb (scheme b) $"file") eqn:F; [now apply file_tail|now apply relative_tail].
Qed.
Lemma split_tail s : scheme_split (s ++ t) = match scheme_split s with Some (a, r) => Some (a, r ++ t) | None => None end.
Proof.
  destruct head_qf as (x & w & Q & Q1 & Q2 & Q3 & Q4 & Q5 & Q6 & Q7). destruct s as [|c s]; cbn [app scheme_split].
  - rewrite Q. cbn [scheme_split]. now rewrite Q7.
  - destruct (mem c ASCII_ALPHA); [|reflexivity]. rewrite span_tail; [| |exact T].
    + destruct (span is_scheme_char s) as [a [|y r]]; cbn [fst snd app]; [rewrite Q; now rewrite Q5|]. destruct (y =? 58); reflexivity.
    + intros d Hd. rewrite qf_eq in Hd. apply orb_true_iff in Hd. destruct Hd as [Hd|Hd]; apply N.eqb_eq in Hd; subst d; reflexivity.
Qed.
(** inputs for which the law fails: no text before the query or fragment, against
    a base whose scheme is file (C38) or whose path is opaque *)
Definition plain (base : option urlrec) (s : str) : Prop :=
  (s = [] -> match base with Some b => has_opaque_path b = true -> match t with c :: _ => c <> 35 | [] => True end | None => True end) /\
  (s = [] \/ lower s = $"file:" -> same_scheme base $"file" = false).
Lemma split_no_qf s a r : scheme_split s = Some (a, r) -> s = a ++ 58 :: r.
Proof.
  destruct s as [|c s]; [discriminate|]. cbn [scheme_split]. destruct (mem c ASCII_ALPHA); [|discriminate]. rewrite (span_eq is_scheme_char s) at 2.
  destruct (span is_scheme_char s) as [x [|y w]]; [discriminate|]. destruct (N.eqb_spec y 58); [|discriminate]. intros Q. injection Q as <- <-. subst y. reflexivity.
Qed.
Lemma main_tail base s : no_qf s -> plain base s -> flat_main E base enc (s ++ t) = rbind (flat_main E base enc s) K.
Proof.
  intros H [N1 N2]. unfold flat_main. rewrite split_tail. destruct (scheme_split s) as [[a r]|] eqn:Q.
  - apply split_no_qf in Q. apply scheme_tail.
    + subst s. apply Forall_app in H as [_ H]. now inversion H.
    + intros -> L. apply N2. right. subst s. unfold lower in *. rewrite map_app, L. reflexivity.
  - apply no_scheme_tail; auto.
Qed.
End Tail.

(** without the hypothesis [plain]: what comes before the query or fragment has a
    result that depends on the text before it, and on which of the two it is *)
Lemma main_tails E enc base s : no_qf s -> exists R : N -> res urlrec, forall c r, is_qf c = true ->
  flat_main E base enc (s ++ c :: r) = rbind (R c) (fun u => flat_tail E enc u (c :: r)).
Proof.
  intros H. destruct base as [b|]; [|exists (fun _ => flat_main E None enc s); intros c r Hc; apply main_tail; [exact Hc|exact H|split; [auto|reflexivity]]].
  destruct (str_eqb (scheme b) $"file") eqn:F.
  - assert (X : forall c r, is_qf c = true -> flat_file E (Some b) enc (c :: r) = flat_tail E enc (file_base_url b file_url) (c :: r)).
    { intros c r Hc. unfold flat_file. cbv zeta. assert (N : is_slash c = false) by (rewrite slash_eq; rewrite qf_eq in Hc; lia). now rewrite N, F, Hc. }
    destruct (scheme_split s) as [[a r]|] eqn:Q.
    + destruct r as [|x r].
      * destruct (str_eqb (lower a) $"file") eqn:L.
        { exists (fun _ => Ok (file_base_url b file_url)). intros c r Hc. unfold flat_main. rewrite (split_tail E enc) by exact Hc. rewrite Q. unfold flat_scheme. cbv zeta. rewrite L. now apply X. }
        exists (fun _ => flat_main E (Some b) enc s). intros c r Hc. unfold flat_main. rewrite (split_tail E enc) by exact Hc. rewrite Q. apply scheme_tail; [exact Hc|constructor|].
        intros _ K. rewrite K in L. discriminate L.
      * exists (fun _ => flat_main E (Some b) enc s). intros c w Hc. unfold flat_main. rewrite (split_tail E enc) by exact Hc. rewrite Q. apply scheme_tail; [exact Hc| |discriminate].
        apply split_no_qf in Q. subst s. apply Forall_app in H as [_ H]. now inversion H.
    + destruct s as [|x s].
      * exists (fun c => if has_opaque_path b then if c =? 35 then Ok (set_query (query b) (set_path (path b) (set_scheme (scheme b) new_url))) else Err EURLParse else Ok (file_base_url b file_url)).
        intros c r Hc. unfold flat_main. rewrite (split_tail E enc) by exact Hc. rewrite Q. cbn [app]. unfold flat_no_scheme. destruct (has_opaque_path b).
        { destruct (N.eqb_spec c 35); [subst c|]; reflexivity. }
        rewrite F. now apply X.
      * exists (fun _ => flat_main E (Some b) enc (x :: s)). intros c r Hc. unfold flat_main. rewrite (split_tail E enc) by exact Hc. rewrite Q. apply no_scheme_tail; [exact Hc|exact H|discriminate|discriminate].
  - destruct (has_opaque_path b) eqn:O; [destruct s as [|x s]|].
    + exists (fun c => if c =? 35 then Ok (set_query (query b) (set_path (path b) (set_scheme (scheme b) new_url))) else Err EURLParse). intros c r Hc. unfold flat_main. rewrite (split_tail E enc) by exact Hc.
      cbn [scheme_split app]. unfold flat_no_scheme. rewrite O. destruct (N.eqb_spec c 35); [subst c|]; reflexivity.
    + exists (fun _ => flat_main E (Some b) enc (x :: s)). intros c r Hc. apply main_tail; [exact Hc|exact H|]. split; [discriminate|]. intros _. exact F.
    + exists (fun _ => flat_main E (Some b) enc s). intros c r Hc. apply main_tail; [exact Hc|exact H|]. split; [intros _ K; congruence|]. intros _. exact F.
Qed.

(* ---------- cleaning ---------- *)
Lemma lstrip_std s : drop_while is_c0_space s = std_lstrip s.
Proof. induction s as [|c s IH]; [reflexivity|]. cbn [drop_while std_lstrip]. rewrite IH. reflexivity. Qed.
Lemma clean_std s : clean s = std_trim s.
Proof. unfold clean, strip_c0, std_trim. rewrite lstrip_std, rstrip_std. reflexivity. Qed.
Lemma clean_mid s c t : is_c0_space c = false -> clean (s ++ c :: t) = remove_tabs (drop_while is_c0_space s) ++ c :: rclean t.
Proof.
  intros H. unfold clean, strip_c0. assert (D : drop_while is_c0_space (s ++ c :: t) = drop_while is_c0_space s ++ c :: t).
  { clear - H. induction s as [|x s IH]; cbn [app drop_while]; [now rewrite H|]. destruct (is_c0_space x); [exact IH|reflexivity]. }
  rewrite D. fold (rclean (drop_while is_c0_space s ++ c :: t)). now apply rclean_mid.
Qed.
Lemma rstrip_drop s : std_rstrip s = s -> std_rstrip (std_lstrip s) = std_lstrip s.
Proof.
  induction s as [|c s IH]; [reflexivity|]. intros H. cbn [std_lstrip]. destruct (std_c0_space c) eqn:C; [|exact H]. apply IH. cbn [std_rstrip] in H.
  destruct (std_rstrip s) as [|d r]; [rewrite C in H; discriminate H|]. now injection H.
Qed.
Lemma clean_whole s : std_rstrip s = s -> clean s = remove_tabs (drop_while is_c0_space s).
Proof. intros H. unfold clean, strip_c0. now rewrite rstrip_std, lstrip_std, rstrip_drop. Qed.
Lemma lclean_in s c : In c (remove_tabs (drop_while is_c0_space s)) -> In c s.
Proof. intros H. apply filter_In in H as [H _]. now apply drop_while_in in H. Qed.

(* ---------- C89 ---------- *)
Definition frag (f : str) (u : urlrec) : urlrec := set_fragment (Some (enc_fragment f)) u.
Lemma frag_idem f g u : frag f (frag g u) = frag f u. Proof. reflexivity. Qed.
(** a text without '#' is a part without '?' and '#', and possibly a query *)
Lemma cut_query s : ~ In 35 s -> exists a, no_qf a /\ (s = a \/ exists q, s = a ++ 63 :: q /\ ~ In 35 q).
Proof.
  induction s as [|c s IH]; intros H; [exists []; split; [constructor|now left]|].
  destruct (N.eqb_spec c 63); [subst c; exists []; split; [constructor|right; exists s; split; [reflexivity|]]; intros K; apply H; now right|].
  destruct IH as (a & A & K); [intros K; apply H; now right|]. exists (c :: a). split.
  - constructor; [|exact A]. rewrite qf_eq. destruct (N.eqb_spec c 35); [subst c; exfalso; apply H; now left|]. destruct (N.eqb_spec c 63); [contradiction|reflexivity].
  - destruct K as [-> |(q & -> & K)]; [now left|right; exists q; auto].
Qed.
Lemma query_frag E enc u q f : ~ In 35 q -> flat_tail E enc u (63 :: q ++ 35 :: f) = on_ok (frag f) (flat_tail E enc u (63 :: q)).
Proof.
  intros H. cbn [flat_tail]. change (63 =? 63) with true. cbv iota. unfold flat_query.
  assert (A : Forall (fun c => negb (c =? 35) = true) q) by (apply Forall_forall; intros c Hc; destruct (N.eqb_spec c 35); [subst; contradiction|reflexivity]).
  rewrite span_app; [|exact A|reflexivity]. rewrite (RefProofs.span_all _ q); [|apply forallb_forall; rewrite Forall_forall in A; exact A].
  destruct (enc_query E enc u q); reflexivity.
Qed.
Lemma frag_separate E enc base s f : ~ In 35 s -> flat_main E base enc (s ++ 35 :: f) = on_ok (frag f) (flat_main E base enc (s ++ [35])).
Proof.
  intros H. destruct (cut_query s H) as (a & A & [-> |(q & -> & Q)]); destruct (main_tails E enc base a A) as (R & K).
  - rewrite !K by reflexivity. destruct (R 35); reflexivity.
  - rewrite <- !app_assoc. cbn [app]. rewrite !K by reflexivity. destruct (R 63) as [u|e]; [|reflexivity]. cbn [rbind]. rewrite !query_frag by exact Q. destruct (flat_tail E enc u (63 :: q)); reflexivity.
Qed.
Lemma frag_added E enc base s f : ~ In 35 s -> (forall b, base = Some b -> s = [] -> has_opaque_path b = false) ->
  (s = [] \/ lower s = $"file:" -> same_scheme base $"file" = false) -> flat_main E base enc (s ++ 35 :: f) = on_ok (frag f) (flat_main E base enc s).
Proof.
  intros H N1 N2. destruct (cut_query s H) as (a & A & [-> |(q & -> & Q)]).
  - rewrite main_tail; [reflexivity|reflexivity|exact A|]. split; [|exact N2]. intros Z. destruct base as [b|]; [|exact I]. intros K. rewrite (N1 b eq_refl Z) in K. discriminate K.
  - destruct (main_tails E enc base a A) as (R & K). rewrite <- !app_assoc. cbn [app]. rewrite !K by reflexivity. destruct (R 63) as [u|e]; [|reflexivity]. cbn [rbind]. now apply query_frag.
Qed.
Lemma frag_std f u : is_pystr f -> frag (rclean f) u = set_fragment (Some (std_percent_encode fragment_set false (std_seen f))) u.
Proof. intros Hf. unfold frag, enc_fragment. rewrite (encode_conforms _ _ _ _ agree_fragment) by now apply rclean_pystr. now rewrite rclean_eq. Qed.

Lemma fragment_separate E s f base enc : enc_ok E (normalize_encoding E enc) -> base_parsed E base -> is_pystr f -> ~ In 35 s ->
  snd (parse_url E (s ++ $"#" ++ f) base enc) =
  on_ok (set_fragment (Some (std_percent_encode fragment_set false (std_seen f)))) (snd (parse_url E (s ++ $"#") base enc)).
Proof.
  intros He Hb Hf H. destruct (parse_url_flat E base enc He Hb) as [(b & _ & K)|(e & K)]; rewrite !K; [|reflexivity].
  unfold flat_parse. change (s ++ $"#" ++ f) with (s ++ 35 :: f). change (s ++ $"#") with (s ++ [35]). rewrite !clean_mid by reflexivity. change (rclean []) with (@nil N).
  rewrite frag_separate by (intros Z; apply H; now apply lclean_in). destruct (flat_main _ _ _ _); [|reflexivity]. cbn [on_ok]. now rewrite frag_std.
Qed.
Lemma base_record_of E base enc b : base_of E enc base (Some b) -> base_record E base enc b.
Proof. intros H. inversion H; subst; [now left|right]. exists t. split; [reflexivity|]. now rewrite parse_url_none. Qed.
Lemma not_bare E base enc s b : base_of E enc base b -> ~ bare_reference E base enc s ->
  (forall b', b = Some b' -> clean s = [] -> has_opaque_path b' = false) /\ (clean s = [] \/ lower (clean s) = $"file:" -> same_scheme b $"file" = false).
Proof.
  rewrite clean_std. intros B N. split.
  - intros b' -> Z. unfold has_opaque_path. destruct (path b') as [x|l] eqn:P; [|reflexivity]. exfalso. apply N. exists b'. split; [now apply base_record_of|].
    right. split; [exact Z|now exists x].
  - intros Z. destruct b as [b'|]; [|reflexivity]. cbn [same_scheme]. destruct (str_eqb (scheme b') $"file") eqn:F; [|reflexivity]. exfalso. apply N. exists b'. split; [now apply base_record_of|].
    left. split; [exact Z|now apply str_eqb_eq].
Qed.
Lemma fragment_added E s f base enc : enc_ok E (normalize_encoding E enc) -> base_parsed E base -> is_pystr f -> ~ In 35 s -> std_rstrip s = s ->
  ~ bare_reference E base enc s ->
  snd (parse_url E (s ++ $"#" ++ f) base enc) =
  on_ok (set_fragment (Some (std_percent_encode fragment_set false (std_seen f)))) (snd (parse_url E s base enc)).
Proof.
  intros He Hb Hf H R N. destruct (parse_url_of E base enc) as [(b & B & Q)|(e & Q)]; rewrite !Q; [|reflexivity].
  pose proof (base_of_ok E enc base b He (base_parsed_arg E base Hb) B) as O. rewrite !parse_new_flat by auto.
  destruct (not_bare E base enc s b B N) as [N1 N2]. unfold flat_parse. change (s ++ $"#" ++ f) with (s ++ 35 :: f). rewrite clean_mid by reflexivity.
  rewrite <- (clean_whole s R). rewrite frag_added; [|rewrite clean_whole by exact R; intros Z; apply H; now apply lclean_in|exact N1|exact N2].
  destruct (flat_main _ _ _ _); [|reflexivity]. cbn [on_ok]. now rewrite frag_std.
Qed.

(* ---------- C90 ---------- *)
Lemma enc_query_std E enc u q x : is_pystr q -> enc_query E (normalize_encoding E enc) u q = Some x ->
  normalize_encoding E enc = $"utf-8" \/ ~ std_special (scheme u) \/ scheme u = $"ws" \/ scheme u = $"wss" ->
  x = std_percent_encode (std_query_set (scheme u)) false q.
Proof.
  intros Hq X U. unfold enc_query, is_special in X. assert (Y : query_encoding u (normalize_encoding E enc) = $"utf-8").
  { unfold query_encoding. destruct (str_eqb (normalize_encoding E enc) $"utf-8") eqn:Z; [now apply str_eqb_eq in Z|]. cbn [negb andb].
    destruct U as [U|[U|U]]; [rewrite U in Z; discriminate Z| |].
    - unfold is_not_special. destruct (special_scheme (scheme u)) eqn:S; [exfalso; apply U; now apply special_spec|reflexivity].
    - destruct U as [-> | ->]; cbn [str_in existsb]; rewrite ?orb_true_r; reflexivity. }
  rewrite Y in X. change (enc_of E $"utf-8") with utf8_enc1 in X. rewrite <- query_utf8 by exact Hq. unfold utf8_percent_encode. now rewrite X.
Qed.
Lemma query_tail E enc u q : ~ In 35 q -> flat_tail E enc u (63 :: q) = match enc_query E enc u q with Some x => Ok (set_query (Some x) u) | None => Err EUnicode end.
Proof.
  intros H. cbn [flat_tail]. change (63 =? 63) with true. cbv iota. unfold flat_query. rewrite RefProofs.span_all; [reflexivity|].
  apply forallb_forall. intros c Hc. destruct (N.eqb_spec c 35); [subst; contradiction|reflexivity].
Qed.
Lemma query_replaced_tail E enc q r : enc_ok E (normalize_encoding E enc) -> is_pystr q -> ~ In 35 q ->
  query_replaced E enc q r (rbind r (fun u => flat_tail E (normalize_encoding E enc) u (63 :: q))).
Proof.
  intros He Hq H. destruct r as [u|e]; [|reflexivity]. cbn [rbind]. rewrite query_tail by exact H.
  destruct (enc_query_ok E (normalize_encoding E enc) u q He Hq) as (x & X & _). rewrite X. exists x. split; [reflexivity|]. split; [|exact X].
  intros U. exact (enc_query_std E enc u q x Hq X U).
Qed.
Lemma no_qf_clean s : ~ In 35 s -> ~ In 63 s -> no_qf (remove_tabs (drop_while is_c0_space s)).
Proof.
  intros H1 H2. apply Forall_forall. intros c Hc. apply lclean_in in Hc. rewrite qf_eq. destruct (N.eqb_spec c 63); [subst; contradiction|]. destruct (N.eqb_spec c 35); [subst; contradiction|reflexivity].
Qed.
Lemma seen_pystr q : is_pystr q -> is_pystr (std_seen q).
Proof. rewrite <- rclean_eq. apply rclean_pystr. Qed.
Lemma seen_in q c : In c (std_seen q) -> In c q.
Proof. rewrite <- rclean_eq. apply rclean_in. Qed.
Lemma query_separate E s q base enc : enc_ok E (normalize_encoding E enc) -> base_parsed E base -> is_pystr q -> ~ In 35 s -> ~ In 63 s -> ~ In 35 q ->
  query_replaced E enc (std_seen q) (snd (parse_url E (s ++ $"?") base enc)) (snd (parse_url E (s ++ $"?" ++ q) base enc)).
Proof.
  intros He Hb Hq H1 H2 H3. destruct (parse_url_flat E base enc He Hb) as [(b & _ & K)|(e & K)]; rewrite !K; [|reflexivity].
  unfold flat_parse. change (s ++ $"?" ++ q) with (s ++ 63 :: q). change (s ++ $"?") with (s ++ [63]). rewrite !clean_mid by reflexivity. change (rclean []) with (@nil N).
  destruct (main_tails E (normalize_encoding E enc) b _ (no_qf_clean s H1 H2)) as (R & Q). rewrite !Q by reflexivity. rewrite rclean_eq.
  assert (H4 : ~ In 35 (std_seen q)) by (intros Z; apply H3; now apply seen_in).
  pose proof (query_replaced_tail E enc (std_seen q) (R 63) He (seen_pystr q Hq) H4) as W. destruct (R 63) as [u|e]; [|reflexivity]. cbn [rbind] in *.
  rewrite (query_tail _ _ u []) by tauto. rewrite query_tail in * by exact H4.
  destruct (enc_query_ok E (normalize_encoding E enc) u [] He) as (x & X & _); [constructor|]. rewrite X.
  destruct (enc_query E (normalize_encoding E enc) u (std_seen q)) as [y|]; [|destruct W]. destruct W as (z & W1 & W2). exists z.
  pose proof (f_equal (fun r => query r) W1) as Z. cbn [query set_query] in Z. injection Z as <-. split; [reflexivity|exact W2].
Qed.
Lemma query_added E s q base enc : enc_ok E (normalize_encoding E enc) -> base_parsed E base -> is_pystr q -> ~ In 35 s -> ~ In 63 s -> ~ In 35 q -> std_rstrip s = s ->
  (forall b, base_record E base enc b -> scheme b = $"file" -> std_trim s <> [] /\ std_lower (std_trim s) <> $"file:") ->
  query_replaced E enc (std_seen q) (snd (parse_url E s base enc)) (snd (parse_url E (s ++ $"?" ++ q) base enc)).
Proof.
  intros He Hb Hq H1 H2 H3 R N. destruct (parse_url_of E base enc) as [(b & B & Q)|(e & Q)]; rewrite !Q; [|reflexivity].
  pose proof (base_of_ok E enc base b He (base_parsed_arg E base Hb) B) as O. rewrite !parse_new_flat by auto.
  unfold flat_parse. change (s ++ $"?" ++ q) with (s ++ 63 :: q). rewrite clean_mid by reflexivity. rewrite clean_whole by exact R. rewrite main_tail; [|reflexivity|now apply no_qf_clean|].
  - rewrite rclean_eq. apply query_replaced_tail; [exact He|now apply seen_pystr|]. intros Z. apply H3. now apply seen_in.
  - rewrite <- clean_whole by exact R. rewrite clean_std. split; [intros _; destruct b; [discriminate|exact I]|]. intros Z. destruct b as [b|]; [|reflexivity].
    cbn [same_scheme]. destruct (str_eqb (scheme b) $"file") eqn:F; [|reflexivity]. exfalso. apply str_eqb_eq in F. destruct (N b (base_record_of _ _ _ _ B) F) as [N1 N2]. tauto.
Qed.

(* ---------- the exceptions are exceptions ---------- *)
Lemma lower_file x : lower x = $"file:" -> exists a, x = a ++ [58] /\ lower a = $"file" /\ std_scheme a = true.
Proof.
  intros H. unfold lower in H. change ($"file:") with [102; 105; 108; 101; 58] in H.
  destruct x as [|a [|b [|c [|d [|e [|g x]]]]]]; try discriminate H. cbn [map] in H. injection H as A B C D F. exists [a; b; c; d].
  assert (L : forall c v, lower1 c = v -> 97 <= v <= 122 -> std_alpha c = true) by (intros y v <- K; change (lower1 y) with (std_lower1 y) in K; unfold std_alpha; unfold std_lower1 in K; destruct ((65 <=? y) && (y <=? 90)) eqn:Z; lia).
  assert (F' : e = 58) by (change (lower1 e) with (std_lower1 e) in F; unfold std_lower1 in F; destruct ((65 <=? e) && (e <=? 90)) eqn:Z; lia). subst e.
  split; [reflexivity|]. split; [cbn [lower map]; now rewrite A, B, C, D|]. cbn [std_scheme forallb]. unfold std_scheme_char.
  rewrite (L a _ A), (L b _ B), (L c _ C), (L d _ D) by lia. reflexivity.
Qed.
Lemma wf_file_list P b : wf P b -> scheme b = $"file" -> exists l, path b = PList l.
Proof.
  intros W S. pose proof (wf_invariant P b W) as I. destruct (inv_special_path b I) as (s & l & Q); [rewrite S; right; left; reflexivity|]. eauto.
Qed.
Lemma bare_main E enc b x t : scheme b = $"file" -> has_opaque_path b = false -> x = [] \/ lower x = $"file:" -> t = [] \/ qf_head t ->
  flat_main E (Some b) enc (x ++ t) = flat_file E (Some b) enc t.
Proof.
  intros F O H T. unfold flat_main. destruct H as [-> |H].
  - assert (S : scheme_split ([] ++ t) = None). { destruct T as [-> |T]; [reflexivity|]. rewrite (split_tail E enc t T). reflexivity. }
    rewrite S. cbn [app]. unfold flat_no_scheme. rewrite O, F. reflexivity.
  - destruct (lower_file x H) as (a & -> & A & SA). rewrite <- app_assoc. cbn [app].
    assert (S : scheme_split (a ++ 58 :: t) = Some (a, t)). { apply scheme_split_syntax. now apply scheme_spec. }
    rewrite S, A. reflexivity.
Qed.
Lemma bare_results P E enc b t : wf P b -> scheme b = $"file" -> qf_head t -> forall l, path b = PList l ->
  flat_file E (Some b) enc [] = Ok (set_path (PList (l ++ [[]])) (set_fragment None b)) /\
  flat_file E (Some b) enc t = flat_tail E enc (set_fragment None b) t.
Proof.
  intros W F T l Q. assert (O : has_opaque_path b = false) by (unfold has_opaque_path; now rewrite Q).
  assert (X : forall r, flat_no_scheme E (Some b) enc r = flat_file E (Some b) enc r) by (intros r; unfold flat_no_scheme; now rewrite O, F).
  split; rewrite <- X; [now apply (empty_ref_file P)|]. apply (qf_ref P); [exact W|exact O|exact T].
Qed.
Lemma longer {A} (l : list A) x : l ++ [x] <> l.
Proof. intros H. apply (f_equal (@length A)) in H. rewrite app_length in H. cbn [length] in H. lia. Qed.
Lemma base_wf E base enc b : enc_ok E (normalize_encoding E enc) -> base_parsed E base -> base_of E enc base (Some b) -> wf (hostval E) b.
Proof.
  intros He Hb B. inversion B; subst; [now apply parsed_wf|]. eapply (parse_new_wf E t None enc b); eauto. exact I.
Qed.
Lemma record_base_of E base enc b : base_record E base enc b -> base_of E enc base (Some b).
Proof. intros [-> |(t & -> & Q)]; [constructor|constructor]. now rewrite <- parse_url_none. Qed.
Lemma base_of_fun E enc base b b' : base_of E enc base b -> base_of E enc base b' -> b = b'.
Proof. intros H H'. inversion H; subst; inversion H'; subst; congruence. Qed.
Lemma parse_url_base E base enc b : enc_ok E (normalize_encoding E enc) -> base_parsed E base -> base_record E base enc b ->
  wf (hostval E) b /\ forall s, snd (parse_url E s base enc) = flat_parse E s (Some b) enc.
Proof.
  intros He Hb B. apply record_base_of in B. split; [now apply (base_wf E base enc)|]. destruct (parse_url_of E base enc) as [(b' & B' & Q)|(e & Q)].
  - pose proof (base_of_fun _ _ _ _ _ B B') as <-. intros s. rewrite Q. apply parse_new_flat. exact (base_of_ok E enc base _ He (base_parsed_arg E base Hb) B).
  - exfalso. inversion B as [|b' |t b' K]; subst.
    + specialize (Q $"#"). rewrite parse_url_rec in Q. rewrite parse_new_flat in Q by exact (base_of_ok E enc _ _ He (base_parsed_arg E _ Hb) B).
      pose proof (hash_ref (hostval E) E b (normalize_encoding E enc) [] (base_wf E _ enc b He Hb B)) as W. unfold flat_parse in Q. change (clean $"#") with [35] in Q.
      unfold flat_main in Q. change (scheme_split [35]) with (@None (str * str)) in Q. cbv iota in Q. rewrite W in Q. discriminate Q.
    + specialize (Q $"#"). rewrite parse_url_str, K in Q. rewrite parse_new_flat in Q by exact (base_of_ok E enc _ _ He (base_parsed_arg E _ Hb) B).
      pose proof (hash_ref (hostval E) E b (normalize_encoding E enc) [] (base_wf E _ enc b He Hb B)) as W. unfold flat_parse in Q. change (clean $"#") with [35] in Q.
      unfold flat_main in Q. change (scheme_split [35]) with (@None (str * str)) in Q. cbv iota in Q. rewrite W in Q. discriminate Q.
Qed.
Lemma fragment_bare E s f g base enc : enc_ok E (normalize_encoding E enc) -> base_parsed E base -> std_rstrip s = s -> bare_reference E base enc s ->
  snd (parse_url E (s ++ $"#" ++ f) base enc) <> on_ok (set_fragment g) (snd (parse_url E s base enc)).
Proof.
  intros He Hb R (b & B & H). destruct (parse_url_base E base enc b He Hb B) as [W K]. rewrite !K. unfold flat_parse.
  change (s ++ $"#" ++ f) with (s ++ 35 :: f). rewrite clean_mid by reflexivity. rewrite <- clean_whole by exact R. rewrite clean_std.
  destruct H as [[H F]|[H (x & P)]].
  - destruct (wf_file_list _ b W F) as (l & Q). assert (O : has_opaque_path b = false) by (unfold has_opaque_path; now rewrite Q).
    rewrite (bare_main E _ b (std_trim s) (35 :: rclean f) F O H) by now right. rewrite <- (app_nil_r (std_trim s)).
    rewrite (bare_main E _ b (std_trim s) [] F O H) by now left.
    destruct (bare_results _ E (normalize_encoding E enc) b (35 :: rclean f) W F eq_refl l Q) as [X1 X2]. rewrite X1, X2. cbn [flat_tail on_ok]. change (35 =? 63) with false. cbv iota.
    intros Z. apply (f_equal (fun r => match r with Ok u => path u | Err _ => POpaque [] end)) in Z. cbn [flat_frag path set_fragment set_path] in Z. rewrite Q in Z.
    injection Z as Z. symmetry in Z. exact (longer l [] Z).
  - rewrite H. cbn [app]. unfold flat_main. change (scheme_split (35 :: rclean f)) with (@None (str * str)). cbn [scheme_split]. rewrite (hash_ref (hostval E)) by exact W.
    unfold flat_no_scheme, has_opaque_path. rewrite P. discriminate.
Qed.
