(** The invariant of parsed records: what every record returned by the parser
    looks like. *)
From Coq Require Import Ascii String.
From Coq Require Import NArith ZArith Bool Arith Lia ZifyBool ZifyN ZifyNat List.
From Verif Require Import PyStr PyInt Codec Env HostModel UrlRecord Parser SpecText SpecHost FlatParser.
From Verif Require Import Lemmas CodecProofs QuoteProofs PyIntProofs LegacyProofs HostProofs LoopProofs FlatProofs.
Import ListNotations.
Open Scope N_scope.

Definition qs (safe s : str) : Prop := forallb (quote_safe safe) s = true.
Definition tidy (s : str) : Prop := forall a c, s = a ++ [c] -> 32 < c.
Definition scheme_tail_char (c : N) : bool :=
  ((97 <=? c) && (c <=? 122)) || ((48 <=? c) && (c <=? 57)) || (c =? 43) || (c =? 45) || (c =? 46).
Definition scheme_ok (s : str) : Prop :=
  match s with
  | c :: t => (97 <=? c) && (c <=? 122) = true /\ forallb scheme_tail_char t = true
  | [] => False
  end.
Definition is_dot (s : str) : bool := str_in s DOUBLE_DOT || str_in s SINGLE_DOT.
Definition seg_ok (sp : bool) (s : str) : Prop :=
  qs SAFE_PATH s /\ mem 47 s = false /\ (sp = true -> mem 92 s = false) /\ is_dot s = false.
Definition file_first (sch : str) (l : list str) : Prop :=
  sch = $"file" -> match l with s :: _ => is_windows_drive_letter s = true -> is_normalized_windows_drive_letter s = true
                              | [] => True end.

Section Wf.
(** what is known of a non-empty host, given the scheme *)
Context (HP : str -> host -> Prop).

Definition wf_host (u : urlrec) : Prop :=
  match uhost u with
  | None => is_special u = false
  | Some h => (h = HStr [] /\ (is_special u = true -> scheme u = $"file")) \/ (h <> HStr [] /\ HP (scheme u) h)
  end.
Definition wf_auth (u : urlrec) : Prop :=
  scheme_ok (scheme u) /\ qs SAFE_USERINFO (username u) /\ qs SAFE_USERINFO (password u) /\ wf_host u /\
  (includes_credentials u = true \/ port u <> None ->
   exists h, uhost u = Some h /\ h <> HStr [] /\ scheme u <> $"file") /\
  (forall p, port u = Some p -> p <= 65535 /\ default_port (scheme u) <> Some p).
Definition wf_path (u : urlrec) : Prop :=
  match path u with
  | POpaque s => uhost u = None /\ is_special u = false /\ qs SAFE_C0_CONTROL s /\
                 forallb (fun c => negb (is_qf c)) s = true /\ starts_with $"/" s = false /\
                 (query u = None -> fragment u = None -> tidy s)
  | PList l => Forall (seg_ok (is_special u)) l /\ (l = [] -> is_special u = false /\ uhost u <> None) /\
               file_first (scheme u) l
  end.
Definition query_set (u : urlrec) : str := if is_special u then SAFE_SPECIAL_QUERY else SAFE_QUERY.
Definition wf_qf (u : urlrec) : Prop :=
  (forall q, query u = Some q -> qs (query_set u) q) /\ (forall f, fragment u = Some f -> qs SAFE_FRAGMENT f).
Definition wf (u : urlrec) : Prop := wf_auth u /\ wf_path u /\ wf_qf u.
End Wf.

Lemma wf_mono (P Q : str -> host -> Prop) u : (forall h, uhost u = Some h -> P (scheme u) h -> Q (scheme u) h) -> wf P u -> wf Q u.
Proof.
  intros H ((H1 & H2 & H3 & H4 & H5 & H6) & HW). split; [|exact HW]. repeat split; auto; try (now apply H6).
  unfold wf_host in *. destruct (uhost u) as [h|] eqn:U; [|auto]. destruct H4 as [H4|[H4 H4']]; [now left|]. right. split; auto.
Qed.

(** the image of the host parser *)
Definition hostval (E : env) (sch : str) (h : host) : Prop :=
  (exists h0, is_pystr h0 /\ h0 <> [] /\ snd (host_parse E h0 (negb (special_scheme sch))) = Ok h) /\
  (sch = $"file" -> h <> HStr $"localhost").

(* ---------- characters ---------- *)
Lemma qs_enc s safe : is_pystr s -> mem 37 safe = true -> qs safe (utf8_percent_encode s safe false).
Proof. apply encode_all_safe. Qed.
Lemma qs_app safe a b : qs safe (a ++ b) <-> qs safe a /\ qs safe b.
Proof. unfold qs. now rewrite forallb_app, andb_true_iff. Qed.
Lemma qs_char safe (P : N -> bool) s : forallb P (ALWAYS_SAFE ++ safe) = true -> qs safe s -> forallb P s = true.
Proof.
  intros H Hq. apply forallb_forall. intros c Hc. unfold qs in Hq. rewrite forallb_forall in Hq. specialize (Hq c Hc).
  apply quote_safe_kept in Hq as [_ Hq]. rewrite forallb_forall in H. now apply H.
Qed.
Lemma forallb_mem (P : N -> bool) c s : forallb P s = true -> P c = false -> mem c s = false.
Proof.
  intros H Hc. apply mem_not_In. intros I. rewrite forallb_forall in H. rewrite (H c I) in Hc. discriminate.
Qed.
Lemma qs_no safe c s : mem c (ALWAYS_SAFE ++ safe) = false -> qs safe s -> mem c s = false.
Proof.
  intros H Hq. apply (forallb_mem (fun d => negb (d =? c))); [|now rewrite N.eqb_refl].
  eapply qs_char; [|exact Hq]. apply forallb_forall. intros d Hd. destruct (d =? c) eqn:Q; [|reflexivity].
  apply N.eqb_eq in Q; subst. apply mem_In in Hd. congruence.
Qed.
Lemma pystr_app a b : is_pystr (a ++ b) <-> is_pystr a /\ is_pystr b.
Proof. unfold is_pystr. apply Forall_app. Qed.
Lemma pystr_sub (a b : str) : (forall c, In c a -> In c b) -> is_pystr b -> is_pystr a.
Proof. unfold is_pystr. rewrite !Forall_forall. auto. Qed.
Lemma span_in p s : (forall c, In c (fst (span p s)) -> In c s) /\ (forall c, In c (snd (span p s)) -> In c s).
Proof. split; intros c Hc; rewrite (span_eq p s); apply in_app_iff; auto. Qed.
Lemma span_pystr p s : is_pystr s -> is_pystr (fst (span p s)) /\ is_pystr (snd (span p s)).
Proof. intros H. rewrite (span_eq p s) in H. now apply pystr_app. Qed.
Lemma enc_not_in c0 s safe : is_pystr s -> c0 <> 37 -> ~ upper_hex c0 -> mem c0 s = false ->
  mem c0 (utf8_percent_encode s safe false) = false.
Proof.
  intros Hs H1 H2 H3. apply mem_not_In. intros I. apply encode_chars in I as [[I _]|[->|I]]; auto.
  apply mem_In in I. congruence.
Qed.

(* ---------- encoding of the query ---------- *)
(** [encoding] is UTF-8 or an ASCII-compatible codec *)
Definition enc_ok (E : env) (encoding : str) : Prop :=
  encoding = $"utf-8" \/ ascii_compatible (codec E encoding).
Lemma legacy_qs enc s safe : ascii_compatible enc -> mem 37 safe = true ->
  qs safe (flat_map (legacy_char enc safe false) s).
Proof.
  intros [A1 A2] Hm. induction s as [|c t IH]; [reflexivity|]. cbn [flat_map]. apply qs_app. split; [|exact IH].
  unfold legacy_char. destruct (enc c) as [b|] eqn:Eq.
  - apply enc_b_all_safe; auto. destruct (c <? 128) eqn:L.
    + rewrite A1 in Eq by lia. apply Some_inj in Eq; subst. repeat constructor; lia.
    + now destruct (A2 c b ltac:(lia) Eq).
  - rewrite !qs_app.
    assert (G : forall x, x = 37 \/ mem x ASCII_ALPHANUMERIC = true -> quote_safe safe x = true).
    { intros x Hx. apply quote_safe_kept. split.
      - destruct Hx as [->|Hx]; [lia|]. apply mem_In in Hx.
        assert (Q : forallb (fun c => c <? 128) ASCII_ALPHANUMERIC = true) by (vm_compute; reflexivity).
        rewrite forallb_forall in Q. specialize (Q x Hx). lia.
      - apply in_app_iff. destruct Hx as [->|Hx]; [right; now apply mem_In|left]. unfold ALWAYS_SAFE.
        apply in_app_iff. left. now apply mem_In. }
    repeat split; apply forallb_forall; intros x Hx; apply G.
    + cbn in Hx. repeat (destruct Hx as [<-|Hx]; [first [now left|now right]|]). destruct Hx.
    + right. pose proof (dec_str_digits c) as D. rewrite Forall_forall in D. specialize (D x Hx). cbv beta in D.
      assert (M : In x ASCII_DIGITS).
      { change ASCII_DIGITS with [48;49;50;51;52;53;54;55;56;57]. cbn [In]. lia. }
      assert (Q : forallb (fun c => mem c ASCII_ALPHANUMERIC) ASCII_DIGITS = true) by (vm_compute; reflexivity).
      rewrite forallb_forall in Q. now apply Q.
    + cbn in Hx. repeat (destruct Hx as [<-|Hx]; [first [now left|now right]|]). destruct Hx.
Qed.
Lemma query_set_37 u : mem 37 (query_set u) = true.
Proof. unfold query_set. destruct (is_special u); reflexivity. Qed.
Lemma enc_query_ok E encoding u q : enc_ok E encoding -> is_pystr q ->
  exists x, enc_query E encoding u q = Some x /\ qs (query_set u) x.
Proof.
  intros HE Hq. unfold enc_query. fold (query_set u).
  assert (U : enc_of E $"utf-8" = utf8_enc1) by reflexivity.
  assert (G : enc_of E (query_encoding u encoding) = utf8_enc1 \/ ascii_compatible (enc_of E (query_encoding u encoding))).
  { unfold query_encoding. destruct (negb _ && _) eqn:Q; [now left|]. destruct HE as [-> | HE]; [now left|].
    unfold enc_of. destruct (str_eqb encoding $"utf-8"); [now left|now right]. }
  destruct G as [G|G].
  - rewrite G, utf8_percent_encode_total. eexists. split; [reflexivity|]. rewrite <- utf8_percent_encode_eq.
    apply qs_enc; auto. apply query_set_37.
  - rewrite legacy_encode by auto. eexists. split; [reflexivity|]. apply legacy_qs; auto. apply query_set_37.
Qed.

(* ---------- query and fragment ---------- *)
Section Image.
Context (E : env) (enc : str) (HE : enc_ok E enc).
Notation wfauth := (wf_auth (hostval E)).
Notation WF := (wf (hostval E)).

(** [r] is [u] with another query and fragment, both well-formed *)
Definition tail_of (u : urlrec) (r : urlrec) (t : str) : Prop :=
  exists q f, r = set_fragment f (set_query q u) /\ wf_qf r /\
    (t = [] -> q = query u /\ f = fragment u) /\ (t <> [] -> q <> None \/ f <> None).
Lemma flat_query_image u rest r : is_pystr rest -> wf_qf u -> flat_query E enc u rest = Ok r ->
  exists q f, r = set_fragment f (set_query (Some q) u) /\ wf_qf r.
Proof.
  intros Hp Hu H. unfold flat_query in H. destruct (span (fun c => negb (c =? 35)) rest) as [q t] eqn:Q.
  pose proof (span_pystr (fun c => negb (c =? 35)) rest Hp) as [P1 P2]. rewrite Q in P1, P2. cbn [fst snd] in P1, P2.
  destruct (enc_query_ok E enc u q HE P1) as (x & X & Hx). rewrite X in H. injection H as <-.
  exists x. unfold flat_frag. destruct t as [|c f].
  - exists (fragment u). split; [reflexivity|]. destruct Hu as [_ Hu]. split; cbn [query fragment set_query set_fragment]; auto.
    intros y Hy. apply Some_inj in Hy as <-. exact Hx.
  - exists (Some (enc_fragment f)). split; [reflexivity|]. split; cbn [query fragment set_query set_fragment]; intros y Hy;
      apply Some_inj in Hy as <-; [exact Hx|]. apply qs_enc; [|reflexivity]. now apply (pystr_app [c] f).
Qed.
Lemma flat_tail_image u t r : is_pystr t -> wf_qf u -> flat_tail E enc u t = Ok r -> tail_of u r t.
Proof.
  intros Hp Hu H. unfold flat_tail in H. destruct t as [|c t].
  - injection H as <-. exists (query u), (fragment u). split; [destruct u; reflexivity|]. repeat split; auto; try apply Hu; congruence.
  - apply (pystr_app [c] t) in Hp as [_ Hp]. destruct (c =? 63).
    + destruct (flat_query_image u t r Hp Hu H) as (q & f & Hr & W). exists (Some q), f. repeat split; auto; try apply W; try discriminate.
      intros _. left. discriminate.
    + injection H as <-. exists (query u), (Some (enc_fragment t)). split; [reflexivity|]. repeat split; try discriminate.
      * intros q Hq. apply Hu. exact Hq.
      * cbn [flat_frag fragment set_fragment]. intros f Hf. apply Some_inj in Hf as <-. now apply qs_enc.
      * intros _. right. discriminate.
Qed.
(** auth part and list path do not depend on query and fragment *)
Lemma tail_list u r t l : wfauth u -> wf_path u -> path u = PList l -> tail_of u r t -> WF r.
Proof.
  intros HA HP L (q & f & -> & HQ & _). split; [exact HA|split; [|exact HQ]].
  unfold wf_path in *. cbn [path set_fragment set_query] in *. rewrite L in *. exact HP.
Qed.

(* ---------- paths ---------- *)
Lemma firstn1_wdl b : is_windows_drive_letter b = true -> exists a c, b = [a; c] /\ mem a ASCII_ALPHA = true.
Proof.
  unfold is_windows_drive_letter. destruct b as [|a [|c [|d b]]]; try discriminate. intros H. apply andb_true_iff in H as [H _].
  now exists a, c.
Qed.
Lemma alpha_safe a safe : mem a ASCII_ALPHA = true -> quote_safe safe a = true.
Proof.
  intros H. apply quote_safe_kept. apply mem_In in H.
  assert (Q : forallb (fun c => (c <? 128) && mem c ALWAYS_SAFE) ASCII_ALPHA = true) by (vm_compute; reflexivity).
  rewrite forallb_forall in Q. specialize (Q a H). apply andb_true_iff in Q as [Q1 Q2]. split; [lia|].
  apply in_app_iff. left. now apply mem_In.
Qed.
Lemma drive_ok sp a : mem a ASCII_ALPHA = true -> seg_ok sp [a; 58] /\ is_windows_drive_letter [a; 58] = true.
Proof.
  intros H. assert (A : (65 <= a <= 90) \/ (97 <= a <= 122)).
  { apply mem_In in H. assert (Q : forallb (fun c => ((65 <=? c) && (c <=? 90)) || ((97 <=? c) && (c <=? 122))) ASCII_ALPHA = true) by (vm_compute; reflexivity).
    rewrite forallb_forall in Q. specialize (Q a H). cbv beta in Q. lia. }
  split; [|unfold is_windows_drive_letter; now rewrite H].
  repeat split.
  - unfold qs. cbn [forallb]. rewrite alpha_safe by auto. reflexivity.
  - cbn [mem existsb]. lia.
  - intros _. cbn [mem existsb]. lia.
  - unfold is_dot, str_in. apply orb_false_iff. split; apply existsb_false; intros x Hx; cbn in Hx;
      repeat (destruct Hx as [<-|Hx]; [cbn [str_eqb]; try reflexivity; lia|]); destruct Hx.
Qed.
Lemma shorten_prefix sch l : exists x, l = shorten_segs sch l ++ x.
Proof.
  unfold shorten_segs. destruct l as [|s [|s2 l]]; [now exists []| |].
  - destruct (_ && _); [exists []; now rewrite app_nil_r|now exists [s]].
  - exists [last (s :: s2 :: l) []]. apply app_removelast_last. discriminate.
Qed.
Lemma first_prefix sch a b : a <> [] -> file_first sch (a ++ b) -> file_first sch a.
Proof. intros Hn H F. specialize (H F). destruct a; [congruence|exact H]. Qed.
Lemma shorten_ok sch sp l : Forall (seg_ok sp) l -> file_first sch l ->
  Forall (seg_ok sp) (shorten_segs sch l) /\ file_first sch (shorten_segs sch l).
Proof.
  intros H1 H2. destruct (shorten_prefix sch l) as [x Hx]. rewrite Hx in H1. apply Forall_app in H1 as [H1 _]. split; [exact H1|].
  destruct (shorten_segs sch l) eqn:Q; [intros _; exact I|]. rewrite Hx in H2. apply first_prefix in H2; [exact H2|discriminate].
Qed.
Lemma empty_seg sp : seg_ok sp []. Proof. repeat split. Qed.
Lemma push_ok sch sp sep l b : is_pystr b -> mem 47 b = false -> (sp = true -> mem 92 b = false) ->
  Forall (seg_ok sp) l -> file_first sch l ->
  Forall (seg_ok sp) (push sch sep l b) /\ file_first sch (push sch sep l b) /\ (sep = false -> push sch sep l b <> []).
Proof.
  intros Hb H47 H92 HL HF. unfold push. cbv zeta.
  destruct (shorten_ok sch sp l HL HF) as [SL SF]. set (x := utf8_percent_encode b SAFE_PATH false).
  assert (EE : forall l', Forall (seg_ok sp) l' -> file_first sch l' -> Forall (seg_ok sp) (l' ++ [[]]) /\ file_first sch (l' ++ [[]])).
  { intros l' A B. split; [apply Forall_app; split; auto; repeat constructor|]. intros F. specialize (B F).
    destruct l'; cbn [app]; [discriminate|exact B]. }
  assert (NN : forall (l' : list str) y, l' ++ [y] <> []) by (intros l' y; destruct l'; discriminate).
  destruct (str_in x DOUBLE_DOT) eqn:D.
  { destruct sep; [repeat split; auto; discriminate|]. destruct (EE _ SL SF). repeat split; auto. }
  destruct (str_in x SINGLE_DOT) eqn:D1.
  { destruct sep; [repeat split; auto; discriminate|]. destruct (EE _ HL HF). repeat split; auto. }
  assert (X : seg_ok sp x).
  { repeat split.
    - apply qs_enc; auto.
    - apply enc_not_in; auto; [lia|unfold upper_hex; lia].
    - intros S. apply enc_not_in; auto; [lia|unfold upper_hex; lia].
    - unfold is_dot. now rewrite D, D1. }
  destruct (str_eqb sch $"file" && (length l =? 0)%nat && is_windows_drive_letter x) eqn:C.
  - apply andb_true_iff in C as [C W]. apply andb_true_iff in C as [_ C].
    destruct (firstn1_wdl x W) as (a & c & Q & A). rewrite Q. cbn [firstn app]. change ($":") with [58].
    destruct (drive_ok sp a A) as [K1 K2].
    destruct l; [|discriminate]. cbn [app]. repeat split; [repeat constructor; apply K1| |discriminate].
    intros _ _. unfold is_normalized_windows_drive_letter. now rewrite K2.
  - repeat split; [apply Forall_app; split; auto| |intros _; apply NN].
    intros F. specialize (HF F). destruct l as [|s l]; [|exact HF]. cbn [app]. intros W. rewrite W in C.
    rewrite F in C. discriminate.
Qed.
Lemma walk_ok sch sp ps : ps <> [] -> Forall (fun b => is_pystr b /\ mem 47 b = false /\ (sp = true -> mem 92 b = false)) ps ->
  forall l, Forall (seg_ok sp) l -> file_first sch l ->
  Forall (seg_ok sp) (walk sch l ps) /\ file_first sch (walk sch l ps) /\ walk sch l ps <> [].
Proof.
  induction ps as [|p ps IH]; intros Hn Hps l HL HF; [congruence|]. inversion Hps as [|? ? (P1 & P2 & P3) Hr]; subst.
  destruct ps as [|p2 ps].
  - cbn [walk]. destruct (push_ok sch sp false l p P1 P2 P3 HL HF) as (A & B & C). repeat split; auto.
  - rewrite walk_cons by discriminate. destruct (push_ok sch sp true l p P1 P2 P3 HL HF) as (A & B & _). apply IH; auto. discriminate.
Qed.
Lemma replace_in a b s c : In c (replace_char a b s) -> c = b \/ (In c s /\ c <> a).
Proof.
  unfold replace_char. intros H. apply in_map_iff in H as (d & Q & I). destruct (d =? a) eqn:X; [now left|]. right. subst. split; auto. lia.
Qed.
Lemma split_in sep s p c : In p (split sep s) -> In c p -> In c s.
Proof.
  rewrite <- (join_split sep s) at 2. induction (split sep s) as [|q l IH]; [intros []|]. intros [->|H] Hc.
  - destruct l; [exact Hc|]. rewrite join_cons2. apply in_app_iff. now left.
  - destruct l as [|q2 l]; [destruct H|]. rewrite join_cons2. apply in_app_iff. right. apply in_app_iff. right. now apply IH.
Qed.
Lemma pieces_ok sp p : is_pystr p ->
  Forall (fun b => is_pystr b /\ mem 47 b = false /\ (sp = true -> mem 92 b = false)) (pieces sp p).
Proof.
  intros H. apply Forall_forall. intros b Hb. unfold pieces in Hb.
  assert (G : forall c, In c (norm_slash sp p) -> (In c p \/ c = 47) /\ (sp = true -> c <> 92)).
  { intros c Hc. unfold norm_slash in Hc. destruct sp; [|split; [now left|discriminate]].
    apply replace_in in Hc as [->|[Hc Hn]]; split; auto; lia. }
  repeat split.
  - apply Forall_forall. intros c Hc. destruct (G c (split_in _ _ _ _ Hb Hc)) as [[I|I] _]; [|lia].
    unfold is_pystr in H. rewrite Forall_forall in H. now apply H.
  - now apply split_pieces_no_sep in Hb.
  - intros S. apply mem_not_In. intros I. destruct (G 92 (split_in _ _ _ _ Hb I)) as [_ X]. now apply X.
Qed.
Lemma flat_path_image u rest r : is_pystr rest -> wfauth u -> wf_qf u ->
  Forall (seg_ok (is_special u)) (path_segs u) -> file_first (scheme u) (path_segs u) ->
  flat_path E enc u rest = Ok r -> WF r.
Proof.
  intros Hp HA HQ HL HF H. unfold flat_path in H. destruct (span (fun c => negb (is_qf c)) rest) as [p t] eqn:Q.
  pose proof (span_pystr (fun c => negb (is_qf c)) rest Hp) as [P1 P2]. rewrite Q in P1, P2. cbn [fst snd] in P1, P2.
  destruct (walk_ok (scheme u) (is_special u) (pieces (is_special u) p) (pieces_nonempty _ _) (pieces_ok _ _ P1) _ HL HF) as (W1 & W2 & W3).
  apply flat_tail_image in H; auto. eapply tail_list; [| | |exact H]; [exact HA| |reflexivity].
  unfold wf_path. cbn [path set_path]. repeat split; auto; congruence.
Qed.
Lemma flat_path_start_image u rest r : is_pystr rest -> wfauth u -> wf_qf u -> uhost u <> None ->
  path u = PList [] -> flat_path_start E enc u rest = Ok r -> WF r.
Proof.
  intros Hp HA HQ HH HP H. unfold flat_path_start in H.
  assert (PS : path_segs u = []) by (unfold path_segs; now rewrite HP).
  assert (G : forall s r, is_pystr s -> flat_path E enc u s = Ok r -> WF r).
  { intros s r' Hs. apply flat_path_image; auto; rewrite PS; [constructor|intros _; exact I]. }
  assert (K : is_special u = false -> wf_path u).
  { intros S. unfold wf_path. rewrite HP. repeat split; auto. }
  destruct rest as [|c t].
  - destruct (is_special u) eqn:S; [eapply G; eauto; constructor|]. injection H as <-. split; [exact HA|split; [|exact HQ]]. now apply K.
  - pose proof (proj2 (proj1 (pystr_app [c] t) Hp)) as Ht. destruct (is_special u) eqn:S.
    + destruct (is_slash c); [apply (G t)|apply (G (c :: t))]; auto.
    + destruct (is_qf c); [|destruct (c =? 47); [apply (G t)|apply (G (c :: t))]; auto].
      apply flat_tail_image in H; auto. eapply tail_list; [exact HA| |exact HP|exact H]. now apply K.
Qed.
Lemma enc1_opaque c : c <= 1114111 -> forall x, In x (utf8_percent_encode [c] SAFE_C0_CONTROL false) -> x = c \/ x = 37 \/ upper_hex x.
Proof.
  intros H x Hx. apply encode_chars in Hx as [[[->|[]] _]|[->|Hx]]; auto. repeat constructor; auto.
Qed.
Lemma enc_opaque_qs p : is_pystr p -> qs SAFE_C0_CONTROL (enc_opaque p).
Proof.
  induction 1 as [|c t Hc Ht IH]; [reflexivity|]. unfold enc_opaque. cbn [flat_map]. apply qs_app. split; [|exact IH].
  apply qs_enc; [repeat constructor; auto|reflexivity].
Qed.
Lemma enc_opaque_in p x : is_pystr p -> In x (enc_opaque p) -> In x p \/ x = 37 \/ upper_hex x.
Proof.
  intros Hp Hx. unfold enc_opaque in Hx. apply in_flat_map in Hx as (c & Hc & Hx).
  unfold is_pystr in Hp. rewrite Forall_forall in Hp. apply enc1_opaque in Hx as [->|Hx]; auto.
Qed.
Lemma enc_opaque_last p a c : is_pystr (a ++ [c]) -> p = a ++ [c] -> 32 < c -> tidy (enc_opaque p).
Proof.
  intros Hp -> Hc a' x Hx. unfold enc_opaque in Hx. rewrite flat_map_app in Hx. cbn [flat_map] in Hx. rewrite app_nil_r in Hx.
  apply pystr_app in Hp as [_ Hp].
  assert (N : utf8_percent_encode [c] SAFE_C0_CONTROL false <> []) by (apply encode_nonempty; auto; discriminate).
  destruct (rev_ind_inv (utf8_percent_encode [c] SAFE_C0_CONTROL false)) as [Q|(l & y & Q)]; [congruence|].
  rewrite Q, app_assoc in Hx. apply app_inj_tail in Hx as [_ <-].
  assert (I : In y (utf8_percent_encode [c] SAFE_C0_CONTROL false)) by (rewrite Q; apply in_app_iff; right; now left).
  apply encode_chars in I as [[[->|[]] _]|[->|I]]; auto; [lia|]. unfold upper_hex in I. lia.
Qed.
Lemma flat_opaque_image u rest r : is_pystr rest -> tidy rest -> wfauth u -> wf_qf u -> uhost u = None ->
  starts_with $"/" rest = false -> query u = None -> fragment u = None ->
  flat_opaque E enc u rest = Ok r -> WF r.
Proof.
  intros Hp HT HA HQ HN HS Q0 F0 H. unfold flat_opaque in H. destruct (span (fun c => negb (is_qf c)) rest) as [p t] eqn:Q.
  pose proof (span_pystr (fun c => negb (is_qf c)) rest Hp) as [P1 P2]. pose proof (span_all (fun c => negb (is_qf c)) rest) as A.
  pose proof (span_eq (fun c => negb (is_qf c)) rest) as SE. rewrite Q in P1, P2, A, SE. cbn [fst snd] in P1, P2, A, SE.
  apply flat_tail_image in H; auto. destruct H as (q & f & -> & W & T1 & T2). split; [exact HA|split; [|exact W]].
  unfold wf_path. cbn [path set_path set_fragment set_query uhost query fragment]. 
  change (is_special (set_fragment f (set_query q (set_path (POpaque (enc_opaque p)) u)))) with (is_special u).
  assert (SP : is_special u = false). { destruct HA as (_ & _ & _ & HH & _). unfold wf_host in HH. now rewrite HN in HH. }
  repeat split; auto.
  - now apply enc_opaque_qs.
  - apply forallb_forall. intros x Hx. apply enc_opaque_in in Hx as [Hx|[->|Hx]]; auto.
    + rewrite Forall_forall in A. now apply A.
    + rewrite qf_eq. unfold upper_hex in Hx. lia.
  - destruct p as [|c p]; [reflexivity|]. rewrite SE in HS. cbn [app] in HS.
    change ($"/") with [47] in *. cbn [starts_with] in HS |- *.
    destruct (enc_opaque (c :: p)) as [|x y] eqn:EO; [reflexivity|].
    assert (X : In x (utf8_percent_encode [c] SAFE_C0_CONTROL false)).
    { assert (N : utf8_percent_encode [c] SAFE_C0_CONTROL false <> []).
      { apply encode_nonempty; [|discriminate]. now apply (pystr_app [c] p). }
      unfold enc_opaque in EO. cbn [flat_map] in EO. destruct (utf8_percent_encode [c] SAFE_C0_CONTROL false); [congruence|].
      cbn [app] in EO. injection EO as -> _. now left. }
    apply encode_chars in X as [[[->|[]] _]|[->|X]]; [|reflexivity| |now apply (pystr_app [c] p)].
    + destruct (47 =? x); [|reflexivity]. exfalso. destruct p, t; discriminate HS.
    + replace (47 =? x) with false by (unfold upper_hex in X; lia). reflexivity.
  - intros Hq Hf. destruct t as [|c t]; [|destruct (T2 ltac:(discriminate)); congruence].
    rewrite app_nil_r in SE. subst p. destruct (rev_ind_inv rest) as [->|(a & c & Hac)].
    + intros a c Hx. destruct a; discriminate.
    + apply (enc_opaque_last rest a c); auto; [now rewrite <- Hac|]. now apply (HT a c).
Qed.

(* ---------- authority ---------- *)
(** a record with no more than scheme and credentials *)
Definition pre_auth (u : urlrec) : Prop :=
  scheme_ok (scheme u) /\ scheme u <> $"file" /\ qs SAFE_USERINFO (username u) /\ qs SAFE_USERINFO (password u) /\
  uhost u = None /\ port u = None /\ path u = PList [] /\ query u = None /\ fragment u = None.
Lemma pre_auth_scheme s : scheme_ok s -> s <> $"file" -> pre_auth (set_scheme s new_url).
Proof. intros H1 H2. repeat split; auto. Qed.
Lemma flat_port_image sch ps p : flat_port E sch ps = Ok (Some p) -> p <= 65535 /\ default_port sch <> Some p.
Proof.
  unfold flat_port. destruct (forallb _ ps); [|discriminate]. destruct ps as [|d ps]; [discriminate|].
  destruct (e_int E (d :: ps) 10) as [z|]; [|discriminate]. cbv zeta. destruct (65535 <? Z.to_N z) eqn:L; [discriminate|].
  destruct (on_eqb (default_port sch) (Some (Z.to_N z))) eqn:D; [discriminate|]. intros H. injection H as <-. split; [lia|].
  intros Q. rewrite Q in D. cbn [on_eqb] in D. rewrite N.eqb_refl in D. discriminate.
Qed.
Lemma host_cut_in br a : (forall c, In c (fst (host_cut br a)) -> In c a).
Proof. intros c Hc. rewrite (host_cut_eq br a). apply in_app_iff. now left. Qed.
Lemma wf_qf_none u : query u = None -> fragment u = None -> wf_qf u.
Proof. intros H1 H2. split; [rewrite H1|rewrite H2]; discriminate. Qed.
Lemma auth_of u h p : pre_auth u -> (h = HStr [] -> is_special u = false /\ includes_credentials u = false /\ p = None) ->
  (h <> HStr [] -> hostval E (scheme u) h) -> (forall q, p = Some q -> q <= 65535 /\ default_port (scheme u) <> Some q) ->
  wfauth (set_port p (set_host (Some h) u)).
Proof.
  intros (A1 & A2 & A3 & A4 & A5 & A6 & A7 & A8 & A9) B1 B2 B3.
  assert (D : h = HStr [] \/ h <> HStr []) by (destruct h as [[|]| |]; [now left|right|right|right]; discriminate).
  unfold wf_auth. cbn [scheme username password port uhost set_port set_host]. repeat split; auto; try (now apply B3).
  - unfold wf_host. cbn [uhost set_port set_host scheme]. destruct D as [D|D]; [left|right; auto].
    split; auto. intros S. destruct (B1 D) as [S' _]. change (is_special u = true) in S. congruence.
  - intros C. exists h. repeat split; auto. intros D'. destruct (B1 D') as (_ & C1 & C2). destruct C as [C|C]; [|congruence].
    change (includes_credentials u = true) in C. congruence.
Qed.
Lemma flat_host_image u a t r : pre_auth u -> is_pystr a -> is_pystr t -> (includes_credentials u = true -> a <> []) ->
  flat_host E enc u a t = Ok r -> WF r.
Proof.
  intros HA Ha Ht HC H. unfold flat_host in H. pose proof (host_cut_in false a) as HI. pose proof (host_cut_eq false a) as HQ.
  assert (HV : forall h x, is_pystr h -> h <> [] -> snd (host_parse E h (is_not_special u)) = Ok x -> x <> HStr [] /\ hostval E (scheme u) x).
  { intros h x Hh Hn Hx. split; [now apply (host_parse_nonempty E h (is_not_special u))|]. destruct HA as (_ & NF & _). split; [|congruence].
    now exists h. }
  destruct (host_cut false a) as [h [ps|]]; cbn [fst snd] in HI, HQ.
  - destruct (length h =? 0)%nat eqn:L; [discriminate|].
    assert (Hn : h <> []) by (intros ->; discriminate).
    destruct (snd (host_parse E h (is_not_special u))) as [x|] eqn:X; [|discriminate]. cbn [rbind] in H.
    destruct (flat_port E (scheme u) ps) as [p|] eqn:P; [|discriminate]. cbn [rbind] in H.
    destruct (HV h x (pystr_sub _ _ HI Ha) Hn X) as [X1 X2].
    apply flat_path_start_image in H; auto.
    + apply auth_of; auto; [congruence|]. intros q ->. now apply flat_port_image in P.
    + apply wf_qf_none; apply HA.
    + discriminate.
    + apply HA.
  - rewrite app_nil_r in HQ. subst h. destruct (is_special u && (length a =? 0)%nat) eqn:L; [discriminate|].
    destruct (snd (host_parse E a (is_not_special u))) as [x|] eqn:X; [|discriminate]. cbn [rbind] in H.
    apply flat_path_start_image in H; auto; [|apply wf_qf_none; apply HA|discriminate|apply HA].
    assert (K : set_host (Some x) u = set_port None (set_host (Some x) u)).
    { destruct HA as (_ & _ & _ & _ & _ & P & _). rewrite <- P. reflexivity. }
    rewrite K. apply auth_of; auto; [| |discriminate].
    + intros ->. destruct a as [|c a].
      * rewrite andb_true_r in L. repeat split; auto. destruct (includes_credentials u); [now destruct HC|reflexivity].
      * exfalso. assert (Hn : c :: a <> []) by discriminate. destruct (HV (c :: a) _ Ha Hn X) as [X1 _]. congruence.
    + intros Hx. destruct a as [|c a]; [injection X as <-; congruence|]. now apply (HV (c :: a)).
Qed.
Lemma split_first_in x s : (forall c, In c (fst (split_first x s)) -> In c s) /\ (forall c, In c (snd (split_first x s)) -> In c s).
Proof.
  unfold split_first. pose proof (span_in (fun c => negb (c =? x)) s) as [A B]. destruct (span _ s) as [a t]; cbn [fst snd] in *.
  split; auto. intros c Hc. apply B. destruct t; [destruct Hc|now right].
Qed.
Lemma flat_authority_image u rest r : pre_auth u -> username u = [] -> password u = [] -> is_pystr rest ->
  flat_authority E enc u rest = Ok r -> WF r.
Proof.
  intros HA U0 P0 Hp H. unfold flat_authority in H.
  pose proof (span_pystr (fun c => negb (ends_auth (is_special u) c)) rest Hp) as [P1 P2].
  destruct (span _ rest) as [a t]; cbn [fst snd] in P1, P2. pose proof (split_last_spec 64 a) as SL.
  destruct (split_last 64 a) as [[ui hp]|].
  - destruct SL as [-> _]. destruct (length hp =? 0)%nat eqn:L; [discriminate|].
    apply pystr_app in P1 as [Pu Ph]. apply (pystr_app [64] hp) in Ph as [_ Ph].
    pose proof (split_first_in 58 ui) as [I1 I2].
    apply flat_host_image in H; auto; [|intros _ ->; discriminate].
    unfold set_creds. destruct (split_first 58 ui) as [us pw]. cbn [fst snd] in I1, I2.
    destruct HA as (A1 & A2 & A3 & A4 & A5). repeat split; try apply A5; auto;
      cbn [username password set_password set_username]; apply qs_enc; auto; eapply pystr_sub; eauto.
  - apply flat_host_image in H; auto. unfold includes_credentials. rewrite U0, P0. discriminate.
Qed.

(* ---------- file ---------- *)
Lemma file_auth h : (h = HStr [] \/ (h <> HStr [] /\ hostval E $"file" h)) -> forall p,
  wfauth (set_path p (set_host (Some h) (set_scheme $"file" new_url))).
Proof.
  intros H p. unfold wf_auth. cbn [scheme username password port set_path set_host set_scheme new_url uhost].
  repeat split; auto; try discriminate.
  - unfold wf_host. cbn [uhost set_path set_host scheme set_scheme]. destruct H as [H|H]; [left|right]; auto.
  - intros [H1|H1]; [discriminate|congruence].
Qed.
Lemma file_special p h : is_special (set_path p (set_host h (set_scheme $"file" new_url))) = true.
Proof. reflexivity. Qed.
Lemma not_special_file u : scheme u = $"file" -> is_not_special u = false.
Proof. intros H. unfold is_not_special. now rewrite H. Qed.

(** records of this shape occur while a file URL is parsed *)
Definition pre_file (u : urlrec) : Prop :=
  exists h p q, u = set_query q (set_path (PList p) (set_host h (set_scheme $"file" new_url))) /\
    wfauth u /\ wf_qf u /\ Forall (seg_ok true) p /\ file_first $"file" p.
Lemma pre_file_path u rest r : pre_file u -> is_pystr rest -> flat_path E enc u rest = Ok r -> WF r.
Proof.
  intros (h & p & q & -> & A & B & C & D) Hr H. apply flat_path_image in H; auto.
Qed.
Lemma pre_file_url : pre_file file_url.
Proof.
  exists (Some (HStr [])), [], None. split; [reflexivity|]. split; [|split; [|split]].
  - apply (file_auth (HStr []) (or_introl eq_refl) (PList [])).
  - apply wf_qf_none; reflexivity.
  - constructor.
  - intros _; exact I.
Qed.
Lemma hostval_file x h : is_pystr h -> h <> [] -> snd (host_parse E h false) = Ok x ->
  no_localhost x = HStr [] \/ (no_localhost x <> HStr [] /\ hostval E $"file" (no_localhost x)).
Proof.
  intros Hh Hn Hx. pose proof (host_parse_nonempty E h false x Hh Hn Hx) as NE.
  assert (G : x = HStr $"localhost" \/ (no_localhost x = x /\ x <> HStr $"localhost")).
  { unfold no_localhost. destruct x as [s| |]; try (right; split; [reflexivity|discriminate]).
    destruct (str_eqb s $"localhost") eqn:Q; [apply str_eqb_eq in Q; left; congruence|right]. split; auto.
    apply str_eqb_neq in Q. congruence. }
  destruct G as [->|[-> G]]; [left; reflexivity|right]. split; auto. split; auto. exists h. auto.
Qed.
Lemma flat_file_host_image rest r : is_pystr rest -> flat_file_host E enc file_url rest = Ok r -> WF r.
Proof.
  intros Hp H. unfold flat_file_host in H. pose proof (span_pystr (fun c => negb (mem c $"/\?#")) rest Hp) as [P1 P2].
  destruct (span _ rest) as [h t]; cbn [fst snd] in P1, P2. destruct (is_windows_drive_letter h).
  { apply (pre_file_path file_url rest r pre_file_url Hp H). }
  assert (G : forall x, (x = HStr [] \/ (x <> HStr [] /\ hostval E $"file" x)) ->
    flat_path_start E enc (set_host (Some x) file_url) t = Ok r -> WF r).
  { intros x Hx HR. apply flat_path_start_image in HR; auto; try discriminate.
    - apply (file_auth x Hx (PList [])).
    - apply wf_qf_none; reflexivity. }
  destruct h as [|c h]; [apply G in H; auto|]. change (is_not_special file_url) with false in H.
  destruct (snd (host_parse E (c :: h) false)) as [x|] eqn:X; [|discriminate]. cbn [rbind] in H. apply G in H; auto.
  apply (hostval_file x (c :: h)); auto. discriminate.
Qed.
Lemma file_base_ok b h p q : WF b -> scheme b = $"file" -> path b = PList p -> h = uhost b -> q = query b \/ q = None ->
  forall p', Forall (seg_ok true) p' -> file_first $"file" p' ->
  pre_file (set_query q (set_path (PList p') (set_host h (set_scheme $"file" new_url)))).
Proof.
  intros ((A1 & A2 & A3 & A4 & A5 & A6) & B & C) S P -> Hq p' H1 H2. exists (uhost b), p', q. split; [reflexivity|].
  split; [|split; [|split; auto]].
  - unfold wf_auth. cbn [scheme username password port set_query set_path set_host set_scheme new_url uhost].
    repeat split; auto; try discriminate.
    + unfold wf_host in *. cbn [scheme uhost set_query set_path set_host set_scheme].
      unfold is_special in *. cbn [scheme set_query set_path set_host set_scheme]. now rewrite S in A4.
    + intros [K|K]; [discriminate|congruence].
  - destruct C as [C _]. split; [|discriminate]. intros x Hx. cbn [query set_query] in Hx. destruct Hq as [-> | ->]; [|discriminate].
    specialize (C x Hx). unfold query_set, is_special in *. rewrite S in C. exact C.
Qed.
Definition base_wf (base : option urlrec) : Prop := match base with Some b => WF b | None => True end.
Lemma file_base_list b : WF b -> scheme b = $"file" -> exists p, path b = PList p /\ Forall (seg_ok true) p /\ file_first $"file" p.
Proof.
  intros (A & B & C) S. unfold wf_path in B. assert (SP : is_special b = true) by (unfold is_special; now rewrite S).
  destruct (path b) as [s|p]; [destruct B as (_ & B & _); congruence|]. exists p. rewrite SP, S in B. tauto.
Qed.
Lemma normalized_ok s : is_normalized_windows_drive_letter s = true -> Forall (seg_ok true) [s] /\ file_first $"file" [s].
Proof.
  intros H. split; [|intros _ _; exact H]. constructor; [|constructor]. unfold is_normalized_windows_drive_letter in H.
  apply andb_true_iff in H as [W C]. destruct (firstn1_wdl s W) as (a & c & -> & A). apply N.eqb_eq in C as ->.
  now apply drive_ok.
Qed.
Lemma flat_file_slash_image base rest r : base_wf base -> is_pystr rest -> flat_file_slash E base enc file_url rest = Ok r -> WF r.
Proof.
  intros HB Hp H. unfold flat_file_slash in H.
  assert (G : flat_path E enc (file_slash_url base rest file_url) rest = Ok r -> WF r).
  { intros HR. apply pre_file_path in HR; auto. unfold file_slash_url. destruct base as [b|]; [|apply pre_file_url].
    destruct (str_eqb (scheme b) $"file") eqn:F; [|apply pre_file_url]. apply str_eqb_eq in F. cbv zeta. cbn in HB.
    destruct (file_base_list b HB F) as (p & P & _).
    assert (K : forall p', Forall (seg_ok true) p' -> file_first $"file" p' -> pre_file (set_path (PList p') (set_host (uhost b) file_url))).
    { intros p' K1 K2. apply (file_base_ok b (uhost b) p None HB F P eq_refl (or_intror eq_refl) p' K1 K2). }
    rewrite P. destruct p as [|s p]; [apply (K []); [constructor|intros _; exact I]|].
    destruct (negb _ && _) eqn:Q; [|apply (K []); [constructor|intros _; exact I]].
    apply andb_true_iff in Q as [_ Q]. destruct (normalized_ok s Q). now apply (K [s]). }
  destruct rest as [|c t]; [now apply G|]. destruct (is_slash c); [|now apply G].
  apply flat_file_host_image in H; auto. now apply (pystr_app [c] t).
Qed.
Lemma flat_file_image base rest r : base_wf base -> is_pystr rest -> flat_file E base enc rest = Ok r -> WF r.
Proof.
  intros HB Hp H. unfold flat_file in H. cbv zeta in H.
  assert (N : flat_path E enc file_url rest = Ok r -> WF r) by (apply (pre_file_path file_url rest r pre_file_url Hp)).
  assert (G : forall b, base = Some b -> str_eqb (scheme b) $"file" = true ->
    match rest with
    | [] => flat_path E enc (file_base_url b file_url) []
    | c :: _ =>
        if is_qf c then flat_tail E enc (file_base_url b file_url) rest
        else flat_path E enc
            (set_path (PList (if starts_with_windows_drive_letter rest then []
                              else shorten_segs (scheme (set_query None (file_base_url b file_url))) (path_segs b)))
               (set_query None (file_base_url b file_url))) rest
    end = Ok r -> WF r).
  { intros b -> F HR. apply str_eqb_eq in F. cbn in HB. destruct (file_base_list b HB F) as (p & P & P1 & P2).
    pose proof (file_base_ok b (uhost b) p (query b) HB F P eq_refl (or_introl eq_refl) p P1 P2) as K.
    assert (KE : file_base_url b file_url = set_query (query b) (set_path (PList p) (set_host (uhost b) (set_scheme $"file" new_url)))).
    { unfold file_base_url. rewrite P. reflexivity. }
    rewrite KE in HR. destruct rest as [|c t]; [now apply pre_file_path in HR|]. destruct (is_qf c).
    - destruct K as (h & p' & q & Q & KA & KQ & K3 & K4). apply flat_tail_image in HR; auto.
      eapply tail_list; [exact KA| |reflexivity|exact HR]. unfold wf_path. cbn [path set_query set_path set_host]. split; [exact P1|split; [|exact P2]].
      intros ->. destruct HB as (_ & HB & _). unfold wf_path in HB. rewrite P in HB. destruct HB as (_ & HB & _).
      destruct (HB eq_refl) as [X _]. unfold is_special in X. rewrite F in X. discriminate.
    - apply pre_file_path in HR; auto.
      assert (SG : path_segs b = p) by (unfold path_segs; now rewrite P). rewrite SG.
      match goal with |- pre_file (set_path (PList ?l) _) =>
        apply (file_base_ok b (uhost b) p None HB F P eq_refl (or_intror eq_refl) l) end.
      + destruct (starts_with_windows_drive_letter _); [constructor|]. now apply (shorten_ok $"file").
      + destruct (starts_with_windows_drive_letter _); [intros _; exact I|]. now apply (shorten_ok $"file" true). }
  destruct rest as [|c t].
  - destruct base as [b|]; [|now apply N]. destruct (str_eqb (scheme b) $"file") eqn:F; [|now apply N]. now apply (G b).
  - destruct (is_slash c).
    + apply flat_file_slash_image in H; auto. now apply (pystr_app [c] t).
    + destruct base as [b|]; [|now apply N]. destruct (str_eqb (scheme b) $"file") eqn:F; [|now apply N]. now apply (G b).
Qed.

(* ---------- relative references ---------- *)
Lemma base_auth_ok b p q : WF b -> scheme b <> $"file" ->
  wfauth (set_query q (set_path p (base_auth b (set_scheme (scheme b) new_url)))).
Proof. intros (A & _) _. exact A. Qed.
Lemma flat_relative_slash_image b rest r : WF b -> scheme b <> $"file" -> is_pystr rest ->
  flat_relative_slash E b enc (set_scheme (scheme b) new_url) rest = Ok r -> WF r.
Proof.
  intros HB NF Hp H. unfold flat_relative_slash in H. set (u := set_scheme (scheme b) new_url) in *.
  assert (PA : pre_auth u). { apply pre_auth_scheme; auto. apply HB. }
  assert (G : flat_path E enc (base_auth b u) rest = Ok r -> WF r).
  { intros HR. apply flat_path_image in HR; auto.
    - apply HB.
    - apply wf_qf_none; reflexivity.
    - constructor.
    - intros _. exact I. }
  assert (DW : forall s, is_pystr s -> is_pystr (drop_while is_slash s)).
  { intros s. apply pystr_sub. intros c. rewrite <- span_drop. apply span_in. }
  destruct rest as [|c t]; [now apply G|]. pose proof (proj2 (proj1 (pystr_app [c] t) Hp)) as Ht.
  destruct (is_special u && is_slash c); [apply flat_authority_image in H; auto|].
  destruct (c =? 47); [apply flat_authority_image in H; auto|]. now apply G.
Qed.
Lemma flat_relative_image b rest r : WF b -> scheme b <> $"file" -> has_opaque_path b = false -> is_pystr rest ->
  flat_relative E b enc rest = Ok r -> WF r.
Proof.
  intros HB NF HO Hp H. unfold flat_relative in H. cbv zeta in H. set (u := set_scheme (scheme b) new_url) in *.
  assert (exists l, path b = PList l) as [l HL].
  { unfold has_opaque_path in HO. destruct (path b); [discriminate|eauto]. }
  pose proof HB as (A & B & C). unfold wf_path in B. rewrite HL in B. destruct B as (B1 & B2 & B3).
  assert (QF : wf_qf (base_all b u)). { split; [|discriminate]. intros q Hq. now apply C. }
  assert (WP : wf_path (base_all b u)).
  { unfold wf_path, base_all. cbn [path set_query set_path]. rewrite HL. repeat split; auto; now apply B2. }
  destruct rest as [|c t]; [injection H as <-; exact (conj A (conj WP QF))|].
  pose proof (proj2 (proj1 (pystr_app [c] t) Hp)) as Ht.
  destruct ((c =? 47) || _); [now apply flat_relative_slash_image in H|]. destruct (is_qf c).
  - apply flat_tail_image in H; auto. apply (tail_list (base_all b u) r (c :: t) l); [exact A|exact WP|exact HL|exact H].
  - assert (SG : path_segs b = l) by (unfold path_segs; now rewrite HL). rewrite SG in H.
    destruct (shorten_ok (scheme b) (is_special b) l B1 B3) as [S1 S2].
    apply flat_path_image in H; auto; split; discriminate.
Qed.

(* ---------- schemes ---------- *)
Lemma lower1_alpha c : mem c ASCII_ALPHA = true -> (97 <=? lower1 c) && (lower1 c <=? 122) = true.
Proof.
  intros H. apply mem_In in H. assert (Q : forallb (fun c => (97 <=? lower1 c) && (lower1 c <=? 122)) ASCII_ALPHA = true) by (vm_compute; reflexivity).
  rewrite forallb_forall in Q. now apply Q.
Qed.
Lemma lower1_scheme c : is_scheme_char c = true -> scheme_tail_char (lower1 c) = true.
Proof.
  intros H. assert (I : In c (ASCII_ALPHANUMERIC ++ $"+-.")).
  { apply mem_In. now rewrite mem_app. }
  assert (Q : forallb (fun c => scheme_tail_char (lower1 c)) (ASCII_ALPHANUMERIC ++ $"+-.") = true) by (vm_compute; reflexivity).
  rewrite forallb_forall in Q. now apply Q.
Qed.
Lemma scheme_split_ok s sch t : scheme_split s = Some (sch, t) -> scheme_ok (lower sch) /\ s = sch ++ 58 :: t.
Proof.
  unfold scheme_split. destruct s as [|c r]; [discriminate|]. destruct (mem c ASCII_ALPHA) eqn:A; [|discriminate].
  pose proof (span_eq is_scheme_char r) as Q. pose proof (span_all is_scheme_char r) as F.
  destruct (span is_scheme_char r) as [a [|x y]]; cbn [fst snd] in *; [discriminate|]. destruct (x =? 58) eqn:X; [|discriminate].
  intros H. apply Some_inj, pair_equal_spec in H as [<- <-]. apply N.eqb_eq in X as ->. rewrite Q at 1. split; [|reflexivity].
  cbn [lower map scheme_ok]. split; [now apply lower1_alpha|]. apply forallb_forall. intros y' Hy.
  apply in_map_iff in Hy as (z & <- & Hz). rewrite Forall_forall in F. apply lower1_scheme. now apply F.
Qed.
Lemma tidy_suffix a b : tidy (a ++ b) -> tidy b.
Proof. intros H x c ->. apply (H (a ++ x) c). now rewrite app_assoc. Qed.
Lemma drop_while_in p s c : In c (drop_while p s) -> In c s.
Proof. rewrite <- span_drop. apply span_in. Qed.
Lemma special_base_list b : WF b -> special_scheme (scheme b) = true -> has_opaque_path b = false.
Proof.
  intros (_ & B & _) S. unfold wf_path in B. unfold has_opaque_path. destruct (path b); [|reflexivity].
  destruct B as (_ & B & _). unfold is_special in B. congruence.
Qed.
Lemma flat_scheme_image base sch t r : base_wf base -> scheme_ok sch -> is_pystr t -> tidy t ->
  flat_scheme E base enc sch t = Ok r -> WF r.
Proof.
  intros HB HS Hp HT H. unfold flat_scheme in H. cbv zeta in H. destruct (str_eqb sch $"file") eqn:F.
  { now apply flat_file_image in H. }
  apply str_eqb_neq in F. pose proof (pre_auth_scheme sch HS F) as PA. destruct (special_scheme sch) eqn:S.
  - assert (G : flat_authority E enc (set_scheme sch new_url) (drop_while is_slash t) = Ok r -> WF r).
    { intros HR. apply flat_authority_image in HR; auto. eapply pystr_sub; [apply drop_while_in|auto]. }
    destruct base as [b|]; [|now apply G]. destruct (str_eqb (scheme b) sch && negb (starts_with $"//" t)) eqn:C; [|now apply G].
    apply andb_true_iff in C as [C _]. apply str_eqb_eq in C. cbn in HB. apply flat_relative_image in H; auto; [congruence|].
    apply special_base_list; auto. congruence.
  - assert (O : starts_with $"/" t = false -> flat_opaque E enc (set_scheme sch new_url) t = Ok r -> WF r).
    { intros W HR. apply flat_opaque_image in HR; auto; [|apply wf_qf_none; reflexivity].
      repeat split; auto; try discriminate. intros [K|K]; [discriminate|now destruct K]. }
    assert (P : forall s, is_pystr s -> flat_path E enc (set_scheme sch new_url) s = Ok r -> WF r).
    { intros s Hs HR. apply flat_path_image in HR; auto.
      - repeat split; auto; try discriminate. intros [K|K]; [discriminate|now destruct K].
      - apply wf_qf_none; reflexivity.
      - constructor.
      - intros _; exact I. }
    destruct t as [|c t]; [now apply O|]. pose proof (proj2 (proj1 (pystr_app [c] t) Hp)) as Ht.
    destruct (c =? 47) eqn:C.
    + destruct t as [|d t]; [now apply P in H|]. pose proof (proj2 (proj1 (pystr_app [d] t) Ht)) as Ht'.
      destruct (d =? 47); [apply flat_authority_image in H; auto|now apply P in H].
    + apply O in H; auto. change ($"/") with [47]. cbn [starts_with]. rewrite N.eqb_sym, C. reflexivity.
Qed.
Lemma flat_no_scheme_image base rest r : base_wf base -> is_pystr rest -> flat_no_scheme E base enc rest = Ok r -> WF r.
Proof.
  intros HB Hp H. unfold flat_no_scheme in H. destruct base as [b|]; [|discriminate]. cbn in HB.
  destruct (has_opaque_path b) eqn:O.
  - destruct rest as [|c t]; [discriminate|]. destruct (c =? 35); [|discriminate]. injection H as <-.
    destruct HB as (A & B & C). unfold has_opaque_path in O. unfold wf_path in B. destruct (path b) as [s|] eqn:P; [|discriminate].
    destruct B as (B1 & B2 & B3 & B4 & B5 & B6). split; [|split].
    + destruct A as (A1 & _). repeat split; auto; try discriminate. intros [K|K]; [discriminate|]. now destruct K.
    + unfold wf_path. cbn [flat_frag path set_fragment set_query set_path query fragment]. repeat split; auto. discriminate.
    + split; cbn [flat_frag query fragment set_fragment set_query set_path].
      * intros q Hq. now apply C.
      * intros f Hf. apply Some_inj in Hf as <-. apply qs_enc; [|reflexivity]. now apply (pystr_app [c] t).
  - destruct (str_eqb (scheme b) $"file") eqn:F.
    + now apply flat_file_image in H.
    + apply flat_relative_image in H; auto. now apply str_eqb_neq.
Qed.
Lemma flat_main_image base s r : base_wf base -> is_pystr s -> tidy s -> flat_main E base enc s = Ok r -> WF r.
Proof.
  intros HB Hp HT H. unfold flat_main in H. destruct (scheme_split s) as [[sch t]|] eqn:S; [|now apply flat_no_scheme_image in H].
  apply scheme_split_ok in S as [S ->]. apply pystr_app in Hp as [_ Hp]. apply (pystr_app [58] t) in Hp as [_ Hp].
  apply flat_scheme_image in H; auto. change (58 :: t) with ([58] ++ t) in HT. apply tidy_suffix in HT. now apply tidy_suffix in HT.
Qed.
End Image.

(* ---------- cleaned input ---------- *)
Lemma drop_while_idem p s : drop_while p (drop_while p s) = drop_while p s.
Proof. induction s as [|c t IH]; [reflexivity|]. cbn [drop_while]. destruct (p c) eqn:Q; [exact IH|]. cbn [drop_while]. now rewrite Q. Qed.
Lemma drop_while_head p s : match drop_while p s with [] => True | c :: _ => p c = false end.
Proof. induction s as [|c t IH]; [exact I|]. cbn [drop_while]. destruct (p c) eqn:Q; auto. Qed.
Lemma rstrip_last p s a c : rstrip_by p s = a ++ [c] -> p c = false.
Proof.
  unfold rstrip_by. intros H. pose proof (drop_while_head p (rev s)) as D. apply (f_equal (@rev N)) in H.
  rewrite rev_involutive, rev_app_distr in H. cbn [rev app] in H. now rewrite H in D.
Qed.
Lemma filter_last {A} (f : A -> bool) s a c : filter f s = a ++ [c] -> f c = true.
Proof. intros H. assert (I : In c (filter f s)) by (rewrite H; apply in_app_iff; right; now left). now apply filter_In in I. Qed.
Lemma clean_tidy s : tidy (clean s).
Proof.
  unfold clean, remove_tabs, strip_c0. intros a c H. set (x := rstrip_by is_c0_space (drop_while is_c0_space s)) in H.
  destruct (rev_ind_inv x) as [Q|(y & d & Q)]; [rewrite Q in H; destruct a; discriminate|].
  pose proof (rstrip_last _ _ _ _ Q) as D. unfold is_c0_space in D.
  rewrite Q, filter_app in H. cbn [filter] in H. replace (negb (is_tab_newline d)) with true in H by (unfold is_tab_newline; lia).
  apply app_inj_tail in H as [_ <-]. lia.
Qed.
Lemma clean_in s c : In c (clean s) -> In c s.
Proof.
  unfold clean, remove_tabs, strip_c0, rstrip_by. intros H. apply filter_In in H as [H _]. apply in_rev in H. apply drop_while_in, in_rev, drop_while_in in H. exact H.
Qed.
Lemma clean_pystr s : is_pystr s -> is_pystr (clean s).
Proof. apply pystr_sub. apply clean_in. Qed.
Lemma wf_base_ok P base : match base with Some b => wf P b | None => True end -> base_ok base.
Proof.
  destruct base as [b|]; [|auto]. intros (_ & B & _) S. unfold wf_path in B. unfold has_opaque_path. destruct (path b); [|reflexivity].
  destruct B as (_ & B & _). congruence.
Qed.
Theorem parse_new_wf E s base encoding r : enc_ok E (normalize_encoding E encoding) -> is_pystr s -> base_wf E base ->
  snd (parse_new E s base encoding) = Ok r -> wf (hostval E) r.
Proof.
  intros HE Hs HB H. rewrite parse_new_flat in H by (eapply wf_base_ok; exact HB). unfold flat_parse in H.
  apply flat_main_image in H; auto; [now apply clean_pystr|apply clean_tidy].
Qed.
