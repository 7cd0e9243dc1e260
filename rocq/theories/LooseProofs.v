(** The part of the record invariant that survives every history of setter calls.
    Three clauses of [wf] are missing: a port 0 may meet an empty host or the file
    scheme, a file URL may have the host "localhost", and its first path segment may
    be a drive letter that is not normalized. Parsing preserves this weaker
    invariant, too: a URL may serve as a base after it was changed. *)
From Coq Require Import Ascii String.
From Coq Require Import NArith ZArith Bool Arith Lia ZifyBool ZifyN ZifyNat List.
From Verif Require Import PyStr PyInt Codec Env HostModel UrlRecord Parser SearchParams UrlApi SpecText SpecHost FlatParser.
From Verif Require Import Lemmas CodecProofs QuoteProofs PyIntProofs LegacyProofs HostProofs LoopProofs FlatProofs WfProofs.
Import ListNotations.
Open Scope N_scope.

Definition hostparsed (E : env) (sch : str) (h : host) : Prop :=
  exists h0, is_pystr h0 /\ h0 <> [] /\ snd (host_parse E h0 (negb (special_scheme sch))) = Ok h.
Definition loose_auth (E : env) (u : urlrec) : Prop :=
  scheme_ok (scheme u) /\ qs SAFE_USERINFO (username u) /\ qs SAFE_USERINFO (password u) /\ wf_host (hostparsed E) u /\
  (includes_credentials u = true \/ port_truthy (port u) = true ->
   exists h, uhost u = Some h /\ h <> HStr [] /\ scheme u <> $"file") /\
  (forall p, port u = Some p -> p <= 65535 /\ default_port (scheme u) <> Some p) /\
  (port u <> None -> uhost u <> None).
Definition loose_path (u : urlrec) : Prop :=
  match path u with
  | POpaque s => uhost u = None /\ is_special u = false /\ qs SAFE_C0_CONTROL s /\
                 forallb (fun c => negb (is_qf c)) s = true /\ starts_with $"/" s = false /\
                 (query u = None -> fragment u = None -> tidy s)
  | PList l => Forall (seg_ok (is_special u)) l /\ (l = [] -> is_special u = false /\ uhost u <> None)
  end.
Definition loose (E : env) (u : urlrec) : Prop := loose_auth E u /\ loose_path u /\ wf_qf u.

(** the three missing clauses *)
Definition sound_port (u : urlrec) : Prop :=
  port u = Some 0 -> exists h, uhost u = Some h /\ h <> HStr [] /\ scheme u <> $"file".
Definition sound_file (u : urlrec) : Prop :=
  scheme u = $"file" -> uhost u <> Some (HStr $"localhost") /\
  match path u with
  | PList (s :: _) => is_windows_drive_letter s = true -> is_normalized_windows_drive_letter s = true
  | _ => True
  end.
Lemma port_cases p : p = None \/ p = Some 0 \/ port_truthy p = true.
Proof. destruct p as [n|]; [right|now left]. destruct (N.eq_dec n 0) as [->|H]; [now left|right]. cbn [port_truthy]. lia. Qed.
Lemma truthy_some p : port_truthy p = true -> p <> None.
Proof. destruct p; discriminate. Qed.
Lemma loose_wf E u : loose E u -> sound_port u -> sound_file u -> wf (hostval E) u.
Proof.
  intros ((A1 & A2 & A3 & A4 & A5 & A6 & A7) & B & C) SP SF. split; [|split; auto].
  - repeat split; auto; try (now apply A6).
    + unfold wf_host in *. destruct (uhost u) as [h|] eqn:U; auto. destruct A4 as [A4|[A4 A4']]; [now left|right]. split; auto.
      split; [exact A4'|]. intros F Q. destruct (SF F) as [SF1 _]. congruence.
    + intros [H|H]; [apply A5; now left|]. destruct (port_cases (port u)) as [Q|[Q|Q]]; [congruence|now apply SP|apply A5; now right].
  - unfold wf_path. unfold loose_path in B. destruct (path u) as [s|l] eqn:P; auto. destruct B as [B1 B2]. repeat split; auto; try (now apply B2).
    intros F. destruct (SF F) as [_ K]. rewrite P in K. exact K.
Qed.
Lemma wf_loose E u : wf (hostval E) u -> loose E u.
Proof.
  intros ((A1 & A2 & A3 & A4 & A5 & A6) & B & C). split; [|split; auto].
  - repeat split; auto; try (now apply A6).
    + unfold wf_host in *. destruct (uhost u) as [h|]; auto. destruct A4 as [A4|[A4 [A4' _]]]; [now left|right]. split; auto.
    + intros [H|H]; apply A5; [now left|right]. now apply truthy_some.
    + intros H. destruct (A5 (or_intror H)) as (h & -> & _). discriminate.
  - unfold wf_path in B. unfold loose_path. destruct (path u); tauto.
Qed.
Lemma loose_base_ok E base : match base with Some b => loose E b | None => True end -> base_ok base.
Proof.
  destruct base as [b|]; [|auto]. intros (_ & B & _) S. unfold loose_path in B. unfold has_opaque_path. destruct (path b); [|reflexivity].
  destruct B as (_ & B & _). congruence.
Qed.

(* ---------- paths ---------- *)
Lemma shorten_segs_ok sch sp l : Forall (seg_ok sp) l -> Forall (seg_ok sp) (shorten_segs sch l).
Proof. intros H. destruct (shorten_prefix sch l) as [x Hx]. rewrite Hx in H. now apply Forall_app in H. Qed.
Lemma push_segs sch sp sep l b : is_pystr b -> mem 47 b = false -> (sp = true -> mem 92 b = false) ->
  Forall (seg_ok sp) l -> Forall (seg_ok sp) (push sch sep l b) /\ (sep = false -> push sch sep l b <> []).
Proof.
  intros Hb H47 H92 HL. destruct l as [|s l].
  - destruct (push_ok sch sp sep [] b Hb H47 H92 HL) as (A & _ & B); auto. intros _. exact I.
  - (* the first segment does not matter when there is one *)
    unfold push. cbv zeta. set (x := utf8_percent_encode b SAFE_PATH false).
    assert (NN : forall (l' : list str) y, l' ++ [y] <> []) by (intros l' y; destruct l'; discriminate).
    assert (EE : forall l', Forall (seg_ok sp) l' -> Forall (seg_ok sp) (l' ++ [[]])).
    { intros l' A. apply Forall_app. split; auto. repeat constructor. }
    pose proof (shorten_segs_ok sch sp (s :: l) HL) as SL.
    destruct (str_in x DOUBLE_DOT) eqn:D; [destruct sep; split; auto; discriminate|].
    destruct (str_in x SINGLE_DOT) eqn:D1; [destruct sep; split; auto; discriminate|].
    change (length (s :: l) =? 0)%nat with false. rewrite andb_false_r. cbn [andb]. split; [|intros _; apply NN].
    apply Forall_app. split; auto. constructor; [|constructor]. repeat split.
    + apply qs_enc; auto.
    + apply enc_not_in; auto; [lia|unfold upper_hex; lia].
    + intros S. apply enc_not_in; auto; [lia|unfold upper_hex; lia].
    + unfold is_dot. now rewrite D, D1.
Qed.
Lemma walk_segs sch sp ps : ps <> [] -> Forall (fun b => is_pystr b /\ mem 47 b = false /\ (sp = true -> mem 92 b = false)) ps ->
  forall l, Forall (seg_ok sp) l -> Forall (seg_ok sp) (walk sch l ps) /\ walk sch l ps <> [].
Proof.
  induction ps as [|p ps IH]; intros Hn Hps l HL; [congruence|]. inversion Hps as [|? ? (P1 & P2 & P3) Hr]; subst.
  destruct ps as [|p2 ps].
  - cbn [walk]. destruct (push_segs sch sp false l p P1 P2 P3 HL) as (A & B). auto.
  - rewrite walk_cons by discriminate. destruct (push_segs sch sp true l p P1 P2 P3 HL) as (A & _). apply IH; auto. discriminate.
Qed.

(* ---------- parsing against a base ---------- *)
Section Image.
Context (E : env) (enc : str) (HE : enc_ok E enc).
Notation LOOSE := (loose E).

Lemma ltail u r t l : loose_auth E u -> loose_path u -> path u = PList l -> tail_of u r t -> LOOSE r.
Proof.
  intros HA HP L (q & f & -> & HQ & _). split; [exact HA|split; [|exact HQ]].
  unfold loose_path in *. cbn [path set_fragment set_query] in *. rewrite L in *. exact HP.
Qed.
Lemma lpath u rest r : is_pystr rest -> loose_auth E u -> wf_qf u -> Forall (seg_ok (is_special u)) (path_segs u) ->
  flat_path E enc u rest = Ok r -> LOOSE r.
Proof.
  intros Hp HA HQ HL H. unfold flat_path in H. destruct (span (fun c => negb (is_qf c)) rest) as [p t] eqn:Q.
  pose proof (span_pystr (fun c => negb (is_qf c)) rest Hp) as [P1 P2]. rewrite Q in P1, P2. cbn [fst snd] in P1, P2.
  destruct (walk_segs (scheme u) (is_special u) (pieces (is_special u) p) (pieces_nonempty _ _) (pieces_ok _ _ P1) _ HL) as (W1 & W3).
  apply (flat_tail_image E enc HE) in H; auto. eapply ltail; [| | |exact H]; [exact HA| |reflexivity].
  unfold loose_path. cbn [path set_path]. split; auto. congruence.
Qed.
Definition base_loose (base : option urlrec) : Prop := match base with Some b => LOOSE b | None => True end.
Lemma file_loose h p q : (h = HStr [] \/ (h <> HStr [] /\ hostparsed E $"file" h)) ->
  loose_auth E (set_query q (set_path p (set_host (Some h) (set_scheme $"file" new_url)))).
Proof.
  intros H. unfold loose_auth. cbn [scheme username password port set_query set_path set_host set_scheme new_url uhost].
  repeat split; auto; try discriminate.
  - unfold wf_host. cbn [uhost set_query set_path set_host scheme set_scheme]. destruct H as [H|H]; [left|right]; auto.
  - intros [H1|H1]; discriminate.
Qed.
Lemma file_base b : LOOSE b -> scheme b = $"file" -> exists h l,
  uhost b = Some h /\ path b = PList l /\ (h = HStr [] \/ (h <> HStr [] /\ hostparsed E $"file" h)) /\ Forall (seg_ok true) l /\ l <> [] /\
  (forall q, query b = Some q -> qs SAFE_SPECIAL_QUERY q).
Proof.
  intros ((A1 & A2 & A3 & A4 & A5 & A6 & A7) & B & C) S. assert (SP : is_special b = true) by (unfold is_special; now rewrite S).
  unfold wf_host in A4. unfold loose_path in B. destruct (uhost b) as [h|]; [|congruence]. destruct (path b) as [s|l]; [destruct B; congruence|].
  exists h, l. rewrite SP in B. destruct B as [B1 B2]. repeat split; auto.
  - destruct A4 as [[A4 _]|A4]; [now left|right]. now rewrite S in A4.
  - intros ->. destruct (B2 eq_refl). congruence.
  - intros q Hq. destruct C as [C _]. specialize (C q Hq). unfold query_set in C. now rewrite SP in C.
Qed.
Lemma file_qf h p q : (forall x, q = Some x -> qs SAFE_SPECIAL_QUERY x) ->
  wf_qf (set_query q (set_path p (set_host h (set_scheme $"file" new_url)))).
Proof. intros H. split; [exact H|discriminate]. Qed.
Lemma lfile_slash base rest r : base_loose base -> is_pystr rest -> flat_file_slash E base enc file_url rest = Ok r -> LOOSE r.
Proof.
  intros HB Hp H. unfold flat_file_slash in H.
  assert (G0 : flat_path E enc file_url rest = Ok r -> LOOSE r).
  { intros HR. apply wf_loose. eapply pre_file_path; eauto. apply pre_file_url. }
  assert (G : flat_path E enc (file_slash_url base rest file_url) rest = Ok r -> LOOSE r).
  { unfold file_slash_url. destruct base as [b|]; [|exact G0]. destruct (str_eqb (scheme b) $"file") eqn:F; [|exact G0].
    apply str_eqb_eq in F. cbv zeta. destruct (file_base b HB F) as (h & l & U & P & HH & L & _). rewrite U, P.
    assert (K : forall p', Forall (seg_ok true) p' -> flat_path E enc (set_path (PList p') (set_host (Some h) file_url)) rest = Ok r -> LOOSE r).
    { intros p' K1 HR. apply lpath in HR; auto.
      - exact (file_loose h (PList p') None HH).
      - exact (file_qf (Some h) (PList p') None ltac:(discriminate)). }
    assert (K0 : flat_path E enc (set_host (Some h) file_url) rest = Ok r -> LOOSE r) by exact (K [] (Forall_nil _)).
    destruct l as [|s l]; [exact K0|]. destruct (negb _ && _) eqn:Q; [|exact K0].
    apply andb_true_iff in Q as [_ Q]. destruct (normalized_ok s Q) as [N1 _]. exact (K [s] N1). }
  destruct rest as [|c t]; [now apply G|]. destruct (is_slash c); [|now apply G].
  apply wf_loose, (flat_file_host_image E enc HE t r); auto. now apply (pystr_app [c] t).
Qed.
Lemma lfile base rest r : base_loose base -> is_pystr rest -> flat_file E base enc rest = Ok r -> LOOSE r.
Proof.
  intros HB Hp H. unfold flat_file in H. cbv zeta in H.
  assert (N : flat_path E enc file_url rest = Ok r -> LOOSE r).
  { intros HR. apply wf_loose. eapply pre_file_path; eauto. apply pre_file_url. }
  assert (G : forall b, base = Some b -> str_eqb (scheme b) $"file" = true ->
    match rest with
    | [] => flat_path E enc (file_base_url b file_url) []
    | c :: _ =>
        if is_qf c then flat_tail E enc (file_base_url b file_url) rest
        else flat_path E enc
            (set_path (PList (if starts_with_windows_drive_letter rest then []
                              else shorten_segs (scheme (set_query None (file_base_url b file_url))) (path_segs b)))
               (set_query None (file_base_url b file_url))) rest
    end = Ok r -> LOOSE r).
  { intros b -> F HR. apply str_eqb_eq in F. destruct (file_base b HB F) as (h & p & U & P & HH & L & LN & HQ).
    assert (KE : file_base_url b file_url = set_query (query b) (set_path (PList p) (set_host (Some h) (set_scheme $"file" new_url)))).
    { unfold file_base_url. rewrite P, U. reflexivity. }
    rewrite KE in HR. pose proof (file_loose h (PList p) (query b) HH) as KA. pose proof (file_qf (Some h) (PList p) (query b) HQ) as KQ.
    destruct rest as [|c t]; [apply lpath in HR; auto|]. destruct (is_qf c).
    - apply (flat_tail_image E enc HE) in HR; auto. eapply ltail; [exact KA| |reflexivity|exact HR].
      unfold loose_path. cbn [path set_query set_path set_host]. split; [exact L|congruence].
    - assert (SG : path_segs b = p) by (unfold path_segs; now rewrite P). rewrite SG in HR.
      match type of HR with flat_path E enc (set_path (PList ?l) _) _ = _ => set (l' := l) in HR end.
      assert (L' : Forall (seg_ok true) l') by (subst l'; destruct (starts_with_windows_drive_letter _); [constructor|now apply shorten_segs_ok]).
      apply lpath in HR; auto. exact (file_qf (Some h) (PList l') None ltac:(discriminate)). }
  destruct rest as [|c t].
  - destruct base as [b|]; [|now apply N]. destruct (str_eqb (scheme b) $"file") eqn:F; [|now apply N]. now apply (G b).
  - destruct (is_slash c).
    + apply lfile_slash in H; auto. now apply (pystr_app [c] t).
    + destruct base as [b|]; [|now apply N]. destruct (str_eqb (scheme b) $"file") eqn:F; [|now apply N]. now apply (G b).
Qed.
Lemma lrelative_slash b rest r : LOOSE b -> scheme b <> $"file" -> is_pystr rest ->
  flat_relative_slash E b enc (set_scheme (scheme b) new_url) rest = Ok r -> LOOSE r.
Proof.
  intros HB NF Hp H. unfold flat_relative_slash in H. set (u := set_scheme (scheme b) new_url) in *.
  assert (PA : pre_auth u). { apply pre_auth_scheme; auto. apply HB. }
  assert (G : flat_path E enc (base_auth b u) rest = Ok r -> LOOSE r).
  { intros HR. apply lpath in HR; auto.
    - apply HB.
    - apply wf_qf_none; reflexivity.
    - constructor. }
  assert (DW : forall s, is_pystr s -> is_pystr (drop_while is_slash s)).
  { intros s. apply pystr_sub. intros c. rewrite <- span_drop. apply span_in. }
  destruct rest as [|c t]; [now apply G|]. pose proof (proj2 (proj1 (pystr_app [c] t) Hp)) as Ht.
  destruct (is_special u && is_slash c); [apply wf_loose; apply flat_authority_image in H; auto|].
  destruct (c =? 47); [apply wf_loose; apply flat_authority_image in H; auto|]. now apply G.
Qed.
Lemma lrelative b rest r : LOOSE b -> scheme b <> $"file" -> has_opaque_path b = false -> is_pystr rest ->
  flat_relative E b enc rest = Ok r -> LOOSE r.
Proof.
  intros HB NF HO Hp H. unfold flat_relative in H. cbv zeta in H. set (u := set_scheme (scheme b) new_url) in *.
  assert (exists l, path b = PList l) as [l HL].
  { unfold has_opaque_path in HO. destruct (path b); [discriminate|eauto]. }
  pose proof HB as (A & B & C). unfold loose_path in B. rewrite HL in B. destruct B as (B1 & B2).
  assert (QF : wf_qf (base_all b u)). { split; [|discriminate]. intros q Hq. now apply C. }
  assert (WP : loose_path (base_all b u)).
  { unfold loose_path, base_all. cbn [path set_query set_path]. rewrite HL. repeat split; auto; now apply B2. }
  destruct rest as [|c t]; [injection H as <-; exact (conj A (conj WP QF))|].
  pose proof (proj2 (proj1 (pystr_app [c] t) Hp)) as Ht.
  destruct ((c =? 47) || _); [now apply lrelative_slash in H|]. destruct (is_qf c).
  - apply (flat_tail_image E enc HE) in H; auto. apply (ltail (base_all b u) r (c :: t) l); [exact A|exact WP|exact HL|exact H].
  - assert (SG : path_segs b = l) by (unfold path_segs; now rewrite HL). rewrite SG in H.
    pose proof (shorten_segs_ok (scheme b) (is_special b) l B1) as S1.
    apply lpath in H; auto; split; discriminate.
Qed.
Lemma lscheme base sch t r : base_loose base -> scheme_ok sch -> is_pystr t -> tidy t ->
  flat_scheme E base enc sch t = Ok r -> LOOSE r.
Proof.
  intros HB HS Hp HT H. destruct (str_eqb sch $"file") eqn:F.
  { unfold flat_scheme in H. rewrite F in H. now apply lfile in H. }
  assert (N : flat_scheme E None enc sch t = Ok r -> LOOSE r) by (intros K; apply wf_loose; eapply flat_scheme_image; eauto; exact I).
  unfold flat_scheme in H, N. rewrite F in H, N. cbv zeta in H, N. destruct (special_scheme sch) eqn:S; [|now apply N].
  destruct base as [b|]; [|now apply N]. destruct (str_eqb (scheme b) sch && negb (starts_with $"//" t)) eqn:C; [|now apply N].
  apply andb_true_iff in C as [C _]. apply str_eqb_eq in C. apply str_eqb_neq in F. cbn in HB. apply lrelative in H; auto; [congruence|].
  assert (O : base_ok (Some b)) by now apply (loose_base_ok E). apply O. unfold is_special. now rewrite C.
Qed.
Lemma lno_scheme base rest r : base_loose base -> is_pystr rest -> flat_no_scheme E base enc rest = Ok r -> LOOSE r.
Proof.
  intros HB Hp H. unfold flat_no_scheme in H. destruct base as [b|]; [|discriminate]. cbn in HB.
  destruct (has_opaque_path b) eqn:O.
  - destruct rest as [|c t]; [discriminate|]. destruct (c =? 35); [|discriminate]. injection H as <-.
    destruct HB as (A & B & C). unfold has_opaque_path in O. unfold loose_path in B. destruct (path b) as [s|] eqn:P; [|discriminate].
    destruct B as (B1 & B2 & B3 & B4 & B5 & B6). split; [|split].
    + destruct A as (A1 & _). repeat split; auto; try discriminate. intros [K|K]; discriminate.
    + unfold loose_path. cbn [flat_frag path set_fragment set_query set_path query fragment]. repeat split; auto. discriminate.
    + split; cbn [flat_frag query fragment set_fragment set_query set_path].
      * intros q Hq. now apply C.
      * intros f Hf. apply Some_inj in Hf as <-. apply qs_enc; [|reflexivity]. now apply (pystr_app [c] t).
  - destruct (str_eqb (scheme b) $"file") eqn:F.
    + now apply lfile in H.
    + apply lrelative in H; auto. now apply str_eqb_neq.
Qed.
Lemma lmain base s r : base_loose base -> is_pystr s -> tidy s -> flat_main E base enc s = Ok r -> LOOSE r.
Proof.
  intros HB Hp HT H. unfold flat_main in H. destruct (scheme_split s) as [[sch t]|] eqn:S; [|now apply lno_scheme in H].
  apply scheme_split_ok in S as [S ->]. apply pystr_app in Hp as [_ Hp]. apply (pystr_app [58] t) in Hp as [_ Hp].
  apply lscheme in H; auto. change (58 :: t) with ([58] ++ t) in HT. apply tidy_suffix in HT. now apply tidy_suffix in HT.
Qed.
End Image.
Theorem parse_new_loose E s base encoding r : enc_ok E (normalize_encoding E encoding) -> is_pystr s -> base_loose E base ->
  snd (parse_new E s base encoding) = Ok r -> loose E r.
Proof.
  intros HE Hs HB H. rewrite parse_new_flat in H by (eapply loose_base_ok; exact HB). unfold flat_parse in H.
  apply lmain in H; auto; [now apply clean_pystr|apply clean_tidy].
Qed.
