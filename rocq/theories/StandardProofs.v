(** The flat form of the code's parser computes what the state machine of
    SpecParser.v computes. *)
From Coq Require Import Ascii String.
From Coq Require Import NArith ZArith Bool Arith Lia ZifyBool ZifyN ZifyNat List.
From Verif Require Import PyStr PyInt Codec Env HostModel UrlRecord Parser FlatParser Lemmas CodecProofs QuoteProofs LoopProofs FlatProofs
  IPv4Proofs IPv6Proofs WfProofs ParserProofs PathProofs ParamProofs SetterProofs UrlProps SpecText SpecHost SpecUrl SpecParser.
Import ListNotations.
Open Scope N_scope.

(* ---------- scalar value strings ---------- *)
Definition sv (s : str) : Prop := Forall (fun c => c <= 1114111 /\ ~ surrogate c) s.
Lemma sv_py s : sv s -> is_pystr s. Proof. apply Forall_impl. tauto. Qed.
Lemma sv_free s : sv s -> surrogate_free s. Proof. apply Forall_impl. tauto. Qed.
Lemma sv_app a b : sv (a ++ b) <-> sv a /\ sv b. Proof. apply Forall_app. Qed.
Lemma sv_cons c t : sv (c :: t) -> sv t. Proof. now inversion 1. Qed.
Lemma sv_enc s safe set : (forall t, is_pystr t -> utf8_percent_encode t safe false = std_percent_encode set false t) ->
  sv s -> utf8_percent_encode s safe false = flat_map (enc1 set) s.
Proof. intros A H. rewrite A by now apply sv_py. unfold std_percent_encode. rewrite svs_free by now apply sv_free. reflexivity. Qed.
Lemma sv_std s set : sv s -> std_percent_encode set false s = flat_map (enc1 set) s.
Proof. intros H. unfold std_percent_encode. rewrite svs_free by now apply sv_free. reflexivity. Qed.
Definition pe := flat_map (enc1 path_set).
Lemma pe_eq s : sv s -> utf8_percent_encode s SAFE_PATH false = pe s.
Proof. intros H. apply sv_enc; [|exact H]. intros t. apply (encode_conforms _ _ _ _ agree_path). Qed.
Lemma pe_app a b : pe (a ++ b) = pe a ++ pe b. Proof. apply flat_map_app. Qed.

(* ---------- character classes and drive letters ---------- *)
Lemma alpha_eq c : mem c ASCII_ALPHA = std_alpha c.
Proof. apply eq_true_iff_eq. split; [apply alpha_class|apply alpha_class_inv]. Qed.
Lemma digit_eq c : mem c ASCII_DIGITS = std_digit c.
Proof.
  apply eq_true_iff_eq. split; [|apply digit_mem].
  assert (A : forallb std_digit ASCII_DIGITS = true) by (vm_compute; reflexivity). rewrite forallb_forall in A.
  intros H. apply mem_In in H. now apply A.
Qed.
Lemma scheme_char_eq c : is_scheme_char c = std_scheme_char c.
Proof.
  apply eq_true_iff_eq. split; [|apply scheme_char_spec]. unfold is_scheme_char. rewrite orb_true_iff. rewrite !mem_In.
  assert (A : forallb std_scheme_char ASCII_ALPHANUMERIC = true) by (vm_compute; reflexivity). rewrite forallb_forall in A.
  assert (B : forallb std_scheme_char $"+-." = true) by (vm_compute; reflexivity). rewrite forallb_forall in B. intros [H|H]; auto.
Qed.
Lemma any_drive_eq s : is_windows_drive_letter s = std_any_drive_letter s.
Proof. destruct s as [|a [|b [|c t]]]; try reflexivity. cbn [is_windows_drive_letter std_any_drive_letter]. rewrite alpha_eq. f_equal. change ($":|") with [58; 124]. cbn [mem existsb]. now rewrite orb_false_r. Qed.
Lemma drive_eq s : is_normalized_windows_drive_letter s = std_drive_letter s.
Proof.
  unfold is_normalized_windows_drive_letter. rewrite any_drive_eq. destruct s as [|a [|b [|c t]]]; try reflexivity.
  cbn [std_any_drive_letter std_drive_letter]. destruct (std_alpha a); [|reflexivity]. cbn [andb]. destruct (b =? 58); [reflexivity|]. now rewrite andb_false_r.
Qed.
Lemma starts_drive_eq s : starts_with_windows_drive_letter s = std_starts_drive_letter s.
Proof.
  unfold starts_with_windows_drive_letter. destruct s as [|a [|b t]]; try reflexivity. cbn [firstn length]. rewrite any_drive_eq. cbn [std_starts_drive_letter].
  change (2 <=? S (S (length t)))%nat with true. cbn [andb]. f_equal. destruct t as [|c t]; [reflexivity|]. cbn [nth_error length].
  change (S (S (S (length t))) =? 2)%nat with false. change ($"/\?#") with [47; 92; 63; 35]. cbn [mem existsb orb]. rewrite orb_false_r. now rewrite !orb_assoc.
Qed.
Lemma qf_eq c : is_qf c = (c =? 63) || (c =? 35).
Proof. unfold is_qf. change ($"?#") with [63; 35]. cbn [mem existsb]. now rewrite orb_false_r. Qed.
Lemma slash_eq c : is_slash c = (c =? 47) || (c =? 92).
Proof. unfold is_slash. change ($"/\") with [47; 92]. cbn [mem existsb]. now rewrite orb_false_r. Qed.
Lemma ends_eq sp c : ends_auth sp c = (c =? 47) || (c =? 63) || (c =? 35) || (sp && (c =? 92)).
Proof. unfold ends_auth. change ($"/?#") with [47; 63; 35]. cbn [mem existsb]. rewrite orb_false_r. now rewrite !orb_assoc. Qed.
Lemma special_eq u : std_is_special u = is_special u. Proof. reflexivity. Qed.

(* ---------- records ---------- *)
Lemma path_list u : has_opaque_path u = false -> path u = PList (path_segs u).
Proof. unfold has_opaque_path, path_segs. destruct (path u); congruence. Qed.
Lemma shorten_eq u l : path u = PList l -> std_shorten u = set_path (PList (shorten_segs (scheme u) l)) u.
Proof.
  intros H. unfold std_shorten. rewrite H. destruct l as [|s [|x t]].
  - rewrite andb_false_r. reflexivity.
  - cbn [shorten_segs]. rewrite drive_eq. destruct (str_eqb (scheme u) $"file" && std_drive_letter s); [|reflexivity].
    destruct u. cbn in *. subst. reflexivity.
  - rewrite andb_false_r. reflexivity.
Qed.
Lemma append_eq u l x : path u = PList l -> std_append x u = set_path (PList (l ++ [x])) u.
Proof. intros H. unfold std_append. now rewrite H. Qed.
Lemma set_path_id u l : path u = PList l -> set_path (PList l) u = u.
Proof. destruct u. cbn. intros ->. reflexivity. Qed.
Lemma end_segment_eq u l slash raw : path u = PList l -> sv raw ->
  std_end_segment slash (pe raw) u = set_path (PList (push (scheme u) slash l raw)) u.
Proof.
  intros H Hr. unfold std_end_segment, push. cbv zeta. rewrite pe_eq by exact Hr. rewrite dd_spec, sd_spec.
  destruct (std_double_dot (pe raw)).
  { rewrite (shorten_eq u l H). destruct slash; [reflexivity|]. rewrite (append_eq _ (shorten_segs (scheme u) l)) by reflexivity. reflexivity. }
  destruct (std_single_dot (pe raw)).
  { destruct slash; [now rewrite (set_path_id _ _ H)|]. now rewrite (append_eq _ _ _ H). }
  rewrite (append_eq _ _ _ H), H, any_drive_eq. f_equal. f_equal. f_equal. f_equal.
  replace (match l with [] => true | _ => false end) with (length l =? 0)%nat by (destruct l; reflexivity).
  destruct (str_eqb (scheme u) $"file" && (length l =? 0)%nat); [|reflexivity]. cbn [andb].
  destruct (pe raw) as [|a [|b [|c t]]]; try reflexivity.
Qed.

Lemma port_of_eq sch p : std_port_of sch p = if on_eqb (default_port sch) (Some p) then None else Some p.
Proof.
  unfold std_port_of, default_port, std_special_schemes, SPECIAL_SCHEMES. cbn [existsb find fst snd].
  repeat match goal with |- context [str_eqb sch ?x] => let Q := fresh "Q" in destruct (str_eqb sch x) eqn:Q; [apply str_eqb_eq in Q; subst sch; cbn; now rewrite ?orb_false_r|] end.
  reflexivity.
Qed.
Lemma decimal_gen s : forall acc, forallb std_digit s = true -> std_radix_value 10 s acc = Some (fold_left (fun n c => n * 10 + (c - 48)) s acc).
Proof.
  induction s as [|c t IH]; intros acc H; [reflexivity|]. cbn [forallb] in H. apply andb_true_iff in H as [H1 H2]. cbn [std_radix_value fold_left].
  unfold std_radix_digit, std_hex. unfold std_digit in H1. rewrite H1. replace (c - 48 <? 10) with true by lia. now apply IH.
Qed.
Lemma decimal_eq s : forallb std_digit s = true -> std_radix_value 10 s 0 = Some (std_decimal s).
Proof. apply decimal_gen. Qed.

(** the outcome of the code: the record, or [None] for an exception *)
Definition outcome (r : res urlrec) : option urlrec := match r with Ok u => Some u | Err _ => None end.
Definition code_host (E : env) (s : str) (o : bool) : option host := match snd (host_parse E s o) with Ok h => Some h | Err _ => None end.

(** with ValueError told apart from a URLParseError *)
Definition outcome3 (r : res urlrec) : option (option urlrec) := match r with Ok u => Some (Some u) | Err EValue => None | Err _ => Some None end.
Definition too_long (E : env) (b : str) : bool := match int_limit E with Some l => l <? N.of_nat (length b) | None => false end.
Definition host_raises (E : env) (h : str) (o : bool) : bool := match snd (host_parse E h o) with Err EValue => true | _ => false end.

Section Run.
Variable E : env.
Variable base : option urlrec.
Variable inp : str.
Notation hp := (code_host E).
Notation enc := ($"utf-8").

(** The standard's machine with the steps at which the code raises ValueError. *)
Definition asks (k : cfg) : bool :=
  match parser_step (fun _ _ => None) base inp k, parser_step (fun _ _ => Some (HStr [])) base inp k with None, Some _ => true | _, _ => false end.
Definition raising (k : cfg) : bool :=
  (std_port_ends inp k && too_long E (k_buf k)) || (asks k && host_raises E (k_buf k) (negb (std_is_special (k_url k)))).
Inductive lruns : cfg -> option (option urlrec) -> Prop :=
| l_end k : (length inp < k_ptr k)%nat -> lruns k (Some (Some (k_url k)))
| l_raise k : (k_ptr k <= length inp)%nat -> raising k = true -> lruns k None
| l_fail k : (k_ptr k <= length inp)%nat -> raising k = false -> parser_step hp base inp k = None -> lruns k (Some None)
| l_step k k' r : (k_ptr k <= length inp)%nat -> raising k = false -> parser_step hp base inp k = Some k' -> lruns k' r -> lruns k r.
Notation runs := lruns.
Definition qstate (st : sstate) : bool := match st with S_port | S_host | S_file_host => false | _ => true end.
Lemma quiet k : qstate (k_state k) = true -> raising k = false.
Proof.
  intros Q. unfold raising, std_port_ends, asks. destruct k as [st p buf a b w u]. cbn [k_state k_ptr k_buf k_url] in *.
  destruct st; try discriminate Q; cbn [andb orb]; (match goal with |- match ?x with Some _ => false | None => _ end && _ = false => change (parser_step (fun _ _ => Some (HStr [])) base inp _) with x; destruct x; reflexivity end).
Qed.
Lemma q_step k k' r : qstate (k_state k) = true -> (k_ptr k <= length inp)%nat -> parser_step hp base inp k = Some k' -> lruns k' r -> lruns k r.
Proof. intros Q L S R. eapply l_step; eauto using quiet. Qed.
Lemma q_fail k : qstate (k_state k) = true -> (k_ptr k <= length inp)%nat -> parser_step hp base inp k = None -> lruns k (Some None).
Proof. intros Q L S. apply l_fail; auto using quiet. Qed.

Definition here (p : nat) (rest : str) : Prop := exists pre, inp = pre ++ rest /\ length pre = p.
Lemma here_nth p rest : here p rest -> nth_error inp p = hd_error rest.
Proof. intros (pre & -> & <-). rewrite nth_error_app2, Nat.sub_diag by lia. destruct rest; reflexivity. Qed.
Lemma here_next p c t : here p (c :: t) -> here (S p) t.
Proof. intros (pre & Q & <-). exists (pre ++ [c]). rewrite Q, <- app_assoc, app_length. split; [reflexivity|]. cbn. lia. Qed.
Lemma here_nth1 p c t : here p (c :: t) -> nth_error inp (S p) = hd_error t.
Proof. intros H. apply here_next in H. now apply here_nth. Qed.
Lemma here_skip p rest : here p rest -> skipn p inp = rest.
Proof. intros (pre & -> & <-). rewrite skipn_app, skipn_all, Nat.sub_diag. reflexivity. Qed.
Lemma here_le p rest : here p rest -> (p <= length inp)%nat.
Proof. intros (pre & -> & <-). rewrite app_length. lia. Qed.
Lemma here_end p : here p [] -> (length inp < S p)%nat.
Proof. intros (pre & -> & <-). rewrite app_length. cbn. lia. Qed.
Lemma here_app p a t : here p (a ++ t) -> here (p + length a) t.
Proof. intros (pre & Q & <-). exists (pre ++ a). rewrite Q, app_assoc, app_length. auto. Qed.

Ltac st0 H := unfold parser_step; cbn [k_state k_ptr k_buf k_at k_br k_pw k_url]; rewrite ?(here_nth _ _ H); cbn [hd_error sis orb andb negb].
Ltac st H := eapply q_step; [reflexivity|cbn [k_ptr]; exact (here_le _ _ H)|st0 H|].
Ltac fin H := eapply l_end; cbn [k_ptr]; exact (here_end _ H).

(* ---------- fragment and query ---------- *)
Lemma r_fragment rest : forall p f u buf a b w, here p rest -> fragment u = Some f ->
  runs (mkcfg S_fragment p buf a b w u) (Some (Some (set_fragment (Some (f ++ flat_map (enc1 fragment_set) rest)) u))).
Proof.
  induction rest as [|c t IH]; intros p f u buf a b w H Hf.
  - st H; [reflexivity|]. replace (set_fragment _ u) with u; [fin H|]. destruct u. cbn in *. now rewrite Hf, app_nil_r.
  - st H; [rewrite Hf; reflexivity|]. cbn [flat_map]. rewrite app_assoc.
    replace (set_fragment (Some ((f ++ enc1 fragment_set c) ++ flat_map (enc1 fragment_set) t)) u)
      with (set_fragment (Some ((f ++ enc1 fragment_set c) ++ flat_map (enc1 fragment_set) t)) (set_fragment (Some (f ++ enc1 fragment_set c)) u)) by reflexivity.
    apply IH; [exact (here_next _ _ _ H)|reflexivity].
Qed.
Lemma r_fragment0 rest p u x buf a b w : here p rest -> sv rest ->
  runs (mkcfg S_fragment p buf a b w (set_fragment (Some []) u)) (outcome3 (Ok (flat_frag u (x :: rest)))).
Proof.
  intros H S. cbn [flat_frag outcome3]. unfold enc_fragment. rewrite (sv_enc rest SAFE_FRAGMENT fragment_set) by (auto; intros; now apply (encode_conforms _ _ _ _ agree_fragment)).
  apply (r_fragment rest p [] (set_fragment (Some []) u) buf a b w H). reflexivity.
Qed.
Lemma r_query rest : forall p u buf a b w, here p rest -> sv (buf ++ rest) -> query u = Some [] ->
  runs (mkcfg S_query p buf a b w u) (outcome3 (let (q, t) := span (fun c => negb (c =? 35)) rest in Ok (flat_frag (set_query (Some (put_query u (buf ++ q))) u) t))).
Proof.
  assert (Q : forall u s, sv s -> std_percent_encode (if std_is_special u then special_query_set else SpecText.query_set) false s = put_query u s).
  { intros u s Hs. unfold put_query, WfProofs.query_set. rewrite special_eq. destruct (is_special u).
    - symmetry. apply (encode_conforms _ _ _ _ agree_special_query). now apply sv_py.
    - symmetry. apply (encode_conforms _ _ _ _ agree_query). now apply sv_py. }
  induction rest as [|c t IH]; intros p u buf a b w H S Hq; cbn [span].
  - rewrite app_nil_r in *. st H; [rewrite Hq; reflexivity|]. cbn [app flat_frag outcome3]. rewrite Q by exact S. fin H.
  - destruct (c =? 35) eqn:C; cbn [negb].
    + st H; [rewrite C, Hq; reflexivity|]. cbn [app]. apply sv_app in S as [S1 S2]. rewrite app_nil_r. rewrite Q by exact S1.
      apply r_fragment0; [exact (here_next _ _ _ H)|exact (sv_cons _ _ S2)].
    + destruct (span (fun c => negb (c =? 35)) t) as [q r] eqn:Sp. st H; [rewrite C; reflexivity|].
      specialize (IH (Datatypes.S p) u (buf ++ [c]) a b w (here_next _ _ _ H)). rewrite <- app_assoc in IH. specialize (IH S Hq).
      rewrite <- app_assoc in IH. exact IH.
Qed.
Lemma r_query0 rest p u a b w : here p rest -> sv rest ->
  runs (mkcfg S_query p [] a b w (set_query (Some []) u)) (outcome3 (flat_query E enc u rest)).
Proof.
  intros H S. pose proof (r_query rest p (set_query (Some []) u) [] a b w H S eq_refl) as R. unfold flat_query.
  destruct (span (fun c => negb (c =? 35)) rest) as [q t]. rewrite enc_query_utf8. exact R.
Qed.

(* ---------- paths ---------- *)
Lemma r_path rest : forall p raw u l a b w, here p rest -> sv raw -> sv rest -> path u = PList l ->
  Forall (fun c => is_sep (is_special u) (Some c) = false) raw ->
  runs (mkcfg S_path p (pe raw) a b w u)
    (outcome3 (let (pp, t) := span (fun c => negb (is_qf c)) rest in
      flat_tail E enc (set_path (PList (walk (scheme u) l (pieces (is_special u) (raw ++ pp)))) u) t)).
Proof.
  induction rest as [|c t IH]; intros p raw u l a b w H Sr S Hp N; cbn [span].
  - rewrite app_nil_r. rewrite pieces_nosep by exact N. cbn [walk flat_tail outcome3].
    st H; [rewrite andb_false_r; reflexivity|]. rewrite (end_segment_eq u l) by assumption. fin H.
  - rewrite qf_eq. destruct (c =? 63) eqn:C1; [|destruct (c =? 35) eqn:C2]; cbn [orb negb].
    + rewrite app_nil_r. rewrite pieces_nosep by exact N. cbn [walk flat_tail]. rewrite C1.
      assert (Z : (c =? 47) = false /\ (c =? 92) = false) by lia. destruct Z as [Z1 Z2].
      st H; [rewrite C1, Z1, Z2, andb_false_r; cbn [orb]; reflexivity|]. rewrite (end_segment_eq u l) by assumption.
      apply r_query0; [exact (here_next _ _ _ H)|exact (sv_cons _ _ S)].
    + rewrite app_nil_r. rewrite pieces_nosep by exact N. cbn [walk flat_tail]. rewrite C1.
      assert (Z : (c =? 47) = false /\ (c =? 92) = false) by lia. destruct Z as [Z1 Z2].
      st H; [rewrite C1, C2, Z1, Z2, andb_false_r; cbn [orb]; reflexivity|]. rewrite (end_segment_eq u l) by assumption.
      apply r_fragment0; [exact (here_next _ _ _ H)|exact (sv_cons _ _ S)].
    + destruct (span (fun c => negb (is_qf c)) t) as [pp r] eqn:Sp.
      destruct (is_sep (is_special u) (Some c)) eqn:C3.
      * rewrite pieces_cons by assumption. rewrite walk_cons by apply pieces_nonempty. unfold is_sep, isc in C3.
        st H; [rewrite C1, C2, special_eq; rewrite C3; cbn [orb]; reflexivity|]. rewrite (end_segment_eq u l) by assumption.
        specialize (IH (Datatypes.S p) [] (set_path (PList (push (scheme u) true l raw)) u) (push (scheme u) true l raw) a b w (here_next _ _ _ H)).
        specialize (IH ltac:(constructor) (sv_cons _ _ S) eq_refl ltac:(constructor)). exact IH.
      * pose proof C3 as C3'. unfold is_sep, isc in C3. st H; [rewrite C1, C2, special_eq; rewrite C3; cbn [orb]; reflexivity|].
        specialize (IH (Datatypes.S p) (raw ++ [c]) u l a b w (here_next _ _ _ H)). rewrite <- app_assoc in IH. rewrite pe_app in IH.
        change (pe [c]) with (enc1 path_set c ++ []) in IH. rewrite app_nil_r in IH. apply IH.
        -- apply sv_app. split; [exact Sr|]. constructor; [|constructor]. now inversion S.
        -- exact (sv_cons _ _ S).
        -- exact Hp.
        -- apply Forall_app. split; [exact N|]. constructor; [exact C3'|constructor].
Qed.
Lemma r_path0 rest p u a b w : here p rest -> sv rest -> has_opaque_path u = false ->
  runs (mkcfg S_path p [] a b w u) (outcome3 (flat_path E enc u rest)).
Proof. intros H S O. apply (r_path rest p [] u (path_segs u) a b w H (Forall_nil _) S (path_list u O) (Forall_nil _)). Qed.
Lemma r_path_start rest p u a b w : here p rest -> sv rest -> has_opaque_path u = false ->
  runs (mkcfg S_path_start p [] a b w u) (outcome3 (flat_path_start E enc u rest)).
Proof.
  intros H S O. unfold flat_path_start. destruct rest as [|c t].
  - destruct (is_special u) eqn:Q.
    + st H; [rewrite special_eq, Q; reflexivity|]. now apply r_path0.
    + st H; [rewrite special_eq, Q; reflexivity|]. fin H.
  - destruct (is_special u) eqn:Q.
    + st H; [rewrite special_eq, Q; reflexivity|]. rewrite slash_eq. destruct ((c =? 47) || (c =? 92)).
      * apply r_path0; [exact (here_next _ _ _ H)|exact (sv_cons _ _ S)|exact O].
      * now apply r_path0.
    + rewrite qf_eq. cbn [flat_tail]. destruct (c =? 63) eqn:C1; [|destruct (c =? 35) eqn:C2]; cbn [orb].
      * st H; [rewrite special_eq, Q, C1; reflexivity|]. apply r_query0; [exact (here_next _ _ _ H)|exact (sv_cons _ _ S)].
      * st H; [rewrite special_eq, Q, C1, C2; reflexivity|]. apply r_fragment0; [exact (here_next _ _ _ H)|exact (sv_cons _ _ S)].
      * st H; [rewrite special_eq, Q, C1, C2; reflexivity|]. destruct (c =? 47).
        -- apply r_path0; [exact (here_next _ _ _ H)|exact (sv_cons _ _ S)|exact O].
        -- now apply r_path0.
Qed.
Lemma r_opaque rest : forall p u s a b w, here p rest -> sv rest -> path u = POpaque s ->
  runs (mkcfg S_opaque_path p [] a b w u)
    (outcome3 (let (pp, t) := span (fun c => negb (is_qf c)) rest in flat_tail E enc (set_path (POpaque (s ++ enc_opaque pp)) u) t)).
Proof.
  induction rest as [|c t IH]; intros p u s a b w H S Hp; cbn [span].
  - cbn [enc_opaque flat_map flat_tail outcome3]. st H; [reflexivity|]. replace (set_path _ u) with u; [fin H|].
    destruct u. cbn in *. now rewrite Hp, app_nil_r.
  - rewrite qf_eq. assert (U : set_path (POpaque (s ++ [])) u = u) by (destruct u; cbn in *; now rewrite Hp, app_nil_r).
    destruct (c =? 63) eqn:C1; [|destruct (c =? 35) eqn:C2]; cbn [orb negb].
    + cbn [enc_opaque flat_map flat_tail]. rewrite C1, U. st H; [rewrite C1; reflexivity|].
      apply r_query0; [exact (here_next _ _ _ H)|exact (sv_cons _ _ S)].
    + cbn [enc_opaque flat_map flat_tail]. rewrite C1, U. st H; [rewrite C1, C2; reflexivity|].
      apply r_fragment0; [exact (here_next _ _ _ H)|exact (sv_cons _ _ S)].
    + destruct (span (fun c => negb (is_qf c)) t) as [pp r] eqn:Sp. st H; [rewrite C1, C2, Hp; reflexivity|].
      specialize (IH (Datatypes.S p) (set_path (POpaque (s ++ enc1 c0_control_set c)) u) (s ++ enc1 c0_control_set c) a b w (here_next _ _ _ H) (sv_cons _ _ S) eq_refl).
      cbn [enc_opaque flat_map]. fold (enc_opaque pp). rewrite (sv_enc [c] SAFE_C0_CONTROL c0_control_set); [| |constructor; [now inversion S|constructor]].
      2:{ intros x Hx. now apply (encode_conforms _ _ _ _ agree_c0). }
      cbn [flat_map]. rewrite app_nil_r. rewrite <- app_assoc in IH. exact IH.
Qed.

(* ---------- authority ---------- *)
Lemma here_len p a t : here p (a ++ t) -> (length a <= length inp)%nat.
Proof. intros (pre & -> & _). rewrite !app_length. lia. Qed.
Definition closed (sp : bool) (a : str) := Forall (fun c => ends_auth sp c = false) a.
Definition stops (sp : bool) (t : str) := match t with [] => True | c :: _ => ends_auth sp c = true end.
Lemma raising_port p buf a b w u : raising (mkcfg S_port p buf a b w u) = std_port_ends inp (mkcfg S_port p buf a b w u) && too_long E buf.
Proof.
  unfold raising, asks. cbn [k_buf]. change (parser_step (fun _ _ => Some (HStr [])) base inp (mkcfg S_port p buf a b w u)) with (parser_step (fun _ _ => None) base inp (mkcfg S_port p buf a b w u)).
  destruct (parser_step (fun _ _ => None) base inp (mkcfg S_port p buf a b w u)); cbn [andb]; now rewrite orb_false_r.
Qed.
Lemma port_ends_eq p buf a b w u t : here p t -> stops (is_special u) t -> std_port_ends inp (mkcfg S_port p buf a b w u) = negb (length buf =? 0)%nat.
Proof.
  intros H T. unfold std_port_ends. cbn [k_state k_ptr k_buf k_url]. rewrite (here_nth _ _ H). destruct t as [|c t]; cbn [hd_error]; [apply andb_true_r|].
  cbn [stops] in T. rewrite ends_eq in T. rewrite special_eq. rewrite T. apply andb_true_r.
Qed.
Lemma port_goes p buf a b w u c t : here p (c :: t) -> ends_auth (is_special u) c = false -> std_port_ends inp (mkcfg S_port p buf a b w u) = false.
Proof.
  intros H C. unfold std_port_ends. cbn [k_state k_ptr k_buf k_url]. rewrite (here_nth _ _ H). cbn [hd_error]. rewrite ends_eq in C. rewrite special_eq, C. apply andb_false_r.
Qed.
Lemma r_port a0 : forall p u buf t a b w, here p (a0 ++ t) -> sv t -> has_opaque_path u = false -> port u = None ->
  forallb std_digit buf = true -> closed (is_special u) a0 -> stops (is_special u) t ->
  runs (mkcfg S_port p buf a b w u)
    (outcome3 (rbind (flat_port E (scheme u) (buf ++ a0)) (fun x => flat_path_start E enc (set_port x u) t))).
Proof.
  induction a0 as [|c a0 IH]; intros p u buf t a b w H S O P D C T.
  - cbn [app] in H. rewrite app_nil_r in *. unfold flat_port.
    assert (D' : forallb (fun c => mem c ASCII_DIGITS) buf = true).
    { rewrite forallb_forall in *. intros c Hc. rewrite digit_eq. auto. }
    rewrite D'. pose proof (raising_port p buf a b w u) as RP. rewrite (port_ends_eq _ _ _ _ _ _ _ H T) in RP.
    assert (G : forall r, raising (mkcfg S_port p buf a b w u) = false -> runs (mkcfg S_path_start p [] a b w (match buf with [] => u | _ => set_port (std_port_of (scheme u) (std_decimal buf)) u end)) r ->
      (buf <> [] -> std_decimal buf <= 65535) -> runs (mkcfg S_port p buf a b w u) r).
    { intros r QR R B. assert (X : parser_step hp base inp (mkcfg S_port p buf a b w u) =
        Some (mkcfg S_path_start p [] a b w (match buf with [] => u | _ => set_port (std_port_of (scheme u) (std_decimal buf)) u end))).
      { destruct t as [|c t].
        - st0 H. destruct buf as [|x buf]; [reflexivity|]. cbn [length Nat.eqb]. replace (65535 <? std_decimal (x :: buf)) with false by (specialize (B ltac:(discriminate)); lia). reflexivity.
        - st0 H. cbn [stops] in T. rewrite special_eq. rewrite ends_eq in T. replace (std_digit c) with false by (unfold std_digit; lia). rewrite T.
          destruct buf as [|x buf]; [reflexivity|]. cbn [length Nat.eqb]. replace (65535 <? std_decimal (x :: buf)) with false by (specialize (B ltac:(discriminate)); lia). reflexivity. }
      eapply l_step; [exact (here_le _ _ H)|exact QR|exact X|exact R]. }
    destruct buf as [|x buf]; [|set (bf := x :: buf) in *].
    + cbn [rbind]. apply G; [exact RP| |congruence]. replace (set_port None u) with u by (destruct u; cbn in *; now rewrite P). now apply r_path_start.
    + change (negb (length bf =? 0)%nat && too_long E bf) with (too_long E bf) in RP.
      assert (V : e_int E bf 10 = if too_long E bf then None else Some (Z.of_N (std_decimal bf))).
      { unfold e_int. rewrite (py_int_digits_eq _ _ _ 10 bf (std_decimal bf)); [reflexivity|auto|discriminate|now apply decimal_eq]. }
      rewrite V. destruct (too_long E bf) eqn:TL.
      { cbn [rbind outcome3]. apply l_raise; [exact (here_le _ _ H)|exact RP]. }
      rewrite N2Z.id. destruct (65535 <? std_decimal bf) eqn:Q.
      * cbn [rbind outcome3]. apply l_fail; [exact (here_le _ _ H)|exact RP|]. destruct t as [|c t].
        -- st0 H. cbn [bf length Nat.eqb]. fold bf. now rewrite Q.
        -- st0 H. cbn [stops] in T. rewrite special_eq. rewrite ends_eq in T. replace (std_digit c) with false by (unfold std_digit; lia). rewrite T.
           cbn [bf length Nat.eqb]. fold bf. now rewrite Q.
      * cbn [rbind]. apply G; [exact RP| |lia]. rewrite <- port_of_eq. now apply r_path_start.
  - inversion C as [|? ? C1 C2]; subst. cbn [app] in H. pose proof (raising_port p buf a b w u) as RP. rewrite (port_goes _ _ _ _ _ _ _ _ H C1) in RP.
    destruct (std_digit c) eqn:Dc.
    + eapply l_step; [exact (here_le _ _ H)|exact RP|st0 H; rewrite Dc; reflexivity|]. replace (buf ++ c :: a0) with ((buf ++ [c]) ++ a0) in * by (rewrite <- app_assoc; reflexivity).
      apply IH; auto; [exact (here_next _ _ _ H)|]. rewrite forallb_app, D. cbn [forallb]. now rewrite Dc.
    + unfold flat_port. replace (forallb (fun c => mem c ASCII_DIGITS) (buf ++ c :: a0)) with false.
      2:{ rewrite forallb_app. cbn [forallb]. rewrite digit_eq, Dc. cbn [andb]. now rewrite andb_false_r. }
      cbn [rbind outcome3]. apply l_fail; [exact (here_le _ _ H)|exact RP|]. st0 H. rewrite Dc, special_eq. rewrite ends_eq in C1. now rewrite C1.
Qed.
(** a step that hands the buffer to the host parser *)
Lemma r_asks k o (next : host -> cfg) (X : forall f, parser_step f base inp k = match f (k_buf k) o with None => None | Some h => Some (next h) end) (f : host -> res urlrec) :
  k_state k <> S_port -> (k_ptr k <= length inp)%nat -> o = negb (std_is_special (k_url k)) ->
  (forall h, runs (next h) (outcome3 (f h))) -> runs k (outcome3 (rbind (snd (host_parse E (k_buf k) o)) f)).
Proof.
  intros NP L -> R. assert (Q : raising k = host_raises E (k_buf k) (negb (std_is_special (k_url k)))).
  { unfold raising, asks. rewrite !X. assert (F : std_port_ends inp k = false) by (unfold std_port_ends; destruct (k_state k); congruence). rewrite F. reflexivity. }
  unfold host_raises in Q. specialize (X hp). unfold code_host in X. destruct (snd (host_parse E (k_buf k) _)) as [h|e]; cbn [rbind].
  - eapply l_step; [exact L|exact Q|exact X|apply R].
  - destruct e; cbn [outcome3]; first [apply l_raise; [exact L|exact Q]|apply l_fail; [exact L|exact Q|exact X]].
Qed.
(** steps in the states that hand over hosts which do not do so *)
Lemma calm k (x : option cfg) : k_state k <> S_port -> (forall f, parser_step f base inp k = x) -> raising k = false.
Proof.
  intros NP X. unfold raising, asks. rewrite !X. assert (F : std_port_ends inp k = false) by (unfold std_port_ends; destruct (k_state k); congruence). rewrite F. destruct x; reflexivity.
Qed.
Lemma c_step k k' r : k_state k <> S_port -> (k_ptr k <= length inp)%nat -> (forall f, parser_step f base inp k = Some k') -> runs k' r -> runs k r.
Proof. intros NP L X R. eapply l_step; [exact L|exact (calm k _ NP X)|apply X|exact R]. Qed.
Lemma c_fail k : k_state k <> S_port -> (k_ptr k <= length inp)%nat -> (forall f, parser_step f base inp k = None) -> runs k (Some None).
Proof. intros NP L X. apply l_fail; [exact L|exact (calm k _ NP X)|apply X]. Qed.
Lemma r_host a0 : forall p u buf t a b w, here p (a0 ++ t) -> sv t -> has_opaque_path u = false -> port u = None ->
  closed (is_special u) a0 -> stops (is_special u) t ->
  runs (mkcfg S_host p buf a b w u)
    (outcome3 (match host_cut b a0 with
     | (h, None) =>
         if is_special u && (length (buf ++ h) =? 0)%nat then Err EURLParse
         else rbind (snd (host_parse E (buf ++ h) (is_not_special u))) (fun x => flat_path_start E enc (set_host (Some x) u) t)
     | (h, Some ps) =>
         if (length (buf ++ h) =? 0)%nat then Err EURLParse
         else rbind (snd (host_parse E (buf ++ h) (is_not_special u))) (fun x =>
              rbind (flat_port E (scheme u) ps) (fun p => flat_path_start E enc (set_port p (set_host (Some x) u)) t))
     end)).
Proof.
  induction a0 as [|c a0 IH]; intros p u buf t a b w H S O P C T.
  - cbn [app host_cut] in *. rewrite app_nil_r.
    assert (X : forall f, parser_step f base inp (mkcfg S_host p buf a b w u) =
       if is_special u && (length buf =? 0)%nat then None
       else match f buf (is_not_special u) with None => None | Some h => Some (mkcfg S_path_start p [] a b w (set_host (Some h) u)) end).
    { intros f. destruct t as [|c t]; [st0 H; rewrite special_eq; reflexivity|]. st0 H. cbn [stops] in T. rewrite special_eq. rewrite ends_eq in T. replace (c =? 58) with false by lia. cbn [andb].
      rewrite T. reflexivity. }
    destruct (is_special u && (length buf =? 0)%nat).
    { apply c_fail; [discriminate|exact (here_le _ _ H)|exact X]. }
    apply (r_asks (mkcfg S_host p buf a b w u) (is_not_special u) (fun h => mkcfg S_path_start p [] a b w (set_host (Some h) u)) X);
      [discriminate|exact (here_le _ _ H)|cbn [k_url]; rewrite special_eq; reflexivity|]. intros h. now apply r_path_start.
  - inversion C as [|? ? C1 C2]; subst. cbn [app] in H. cbn [host_cut]. destruct ((c =? 58) && negb b) eqn:Q.
    + rewrite app_nil_r.
      assert (X : forall f, parser_step f base inp (mkcfg S_host p buf a b w u) =
        if (length buf =? 0)%nat then None else match f buf (is_not_special u) with None => None | Some h => Some (mkcfg S_port (Datatypes.S p) [] a b w (set_host (Some h) u)) end).
      { intros f. st0 H. rewrite Q, special_eq. reflexivity. }
      destruct (length buf =? 0)%nat.
      { apply c_fail; [discriminate|exact (here_le _ _ H)|exact X]. }
      apply (r_asks (mkcfg S_host p buf a b w u) (is_not_special u) (fun h => mkcfg S_port (Datatypes.S p) [] a b w (set_host (Some h) u)) X);
        [discriminate|exact (here_le _ _ H)|cbn [k_url]; rewrite special_eq; reflexivity|]. intros h.
      apply (r_port a0 (Datatypes.S p) (set_host (Some h) u) [] t a b w (here_next _ _ _ H)); auto.
    + set (b' := if c =? 91 then true else if c =? 93 then false else b).
      eapply c_step; [discriminate|exact (here_le _ _ H)|intros f; st0 H; rewrite Q, special_eq; rewrite ends_eq in C1; rewrite C1; fold b'; reflexivity|].
      specialize (IH (Datatypes.S p) u (buf ++ [c]) t a b' w (here_next _ _ _ H) S O P C2 T).
      destruct (host_cut b' a0) as [h [ps|]]; rewrite <- app_assoc in IH; exact IH.
Qed.
Lemma r_host0 a0 p u t a w : here p (a0 ++ t) -> sv t -> has_opaque_path u = false -> port u = None ->
  closed (is_special u) a0 -> stops (is_special u) t ->
  runs (mkcfg S_host p [] a false w u) (outcome3 (flat_host E enc u a0 t)).
Proof. intros H S O P C T. exact (r_host a0 p u [] t a false w H S O P C T). Qed.

(** the credentials *)
Lemma userinfo_app a b : forall pw u, std_userinfo (a ++ b) pw u = let (pw', u') := std_userinfo a pw u in std_userinfo b pw' u'.
Proof.
  induction a as [|c a IH]; intros pw u; [reflexivity|]. cbn [app std_userinfo]. destruct ((c =? 58) && negb pw); [apply IH|]. destruct pw; apply IH.
Qed.
Lemma userinfo_at b pw u : std_userinfo ($"%40" ++ b) pw u = std_userinfo (64 :: b) pw u.
Proof.
  change ($"%40") with [37; 52; 48]. cbn [app std_userinfo]. change (37 =? 58) with false. change (52 =? 58) with false. change (48 =? 58) with false. change (64 =? 58) with false.
  cbn [andb]. change (enc1 userinfo_set 37) with [37]. change (enc1 userinfo_set 52) with [52]. change (enc1 userinfo_set 48) with [48].
  change (enc1 userinfo_set 64) with [37; 52; 48]. destruct pw; f_equal; destruct u; unfold set_password, set_username; cbn; rewrite <- !app_assoc; reflexivity.
Qed.
Lemma userinfo_pw s : forall u, std_userinfo s true u = (true, set_password (password u ++ flat_map (enc1 userinfo_set) s) u).
Proof.
  induction s as [|c s IH]; intros u; cbn [std_userinfo flat_map].
  - rewrite app_nil_r. destruct u; reflexivity.
  - rewrite andb_false_r, IH. cbn [password]. rewrite app_assoc. reflexivity.
Qed.
Lemma userinfo_un s : forall u, (forall c, In c s -> c <> 58) -> std_userinfo s false u = (false, set_username (username u ++ flat_map (enc1 userinfo_set) s) u).
Proof.
  induction s as [|c s IH]; intros u H; cbn [std_userinfo flat_map].
  - rewrite app_nil_r. destruct u; reflexivity.
  - replace (c =? 58) with false by (specialize (H c (or_introl eq_refl)); lia). cbn [andb negb]. rewrite IH by (intros x Hx; apply H; now right).
    cbn [username]. rewrite app_assoc. reflexivity.
Qed.
Lemma userinfo_enc s : sv s -> enc_userinfo s = flat_map (enc1 userinfo_set) s.
Proof. intros H. unfold enc_userinfo. apply sv_enc; [|exact H]. intros t. apply (encode_conforms _ _ _ _ agree_userinfo). Qed.
Lemma userinfo_creds ui u : sv ui -> username u = [] -> password u = [] -> snd (std_userinfo ui false u) = set_creds ui u.
Proof.
  intros S U P. unfold set_creds. destruct (mem 58 ui) eqn:M.
  - apply mem_split in M as (x & y & -> & M). rewrite split_first_found by exact M. apply sv_app in S as [S1 S2]. apply sv_cons in S2.
    rewrite userinfo_app, userinfo_un by (intros c Hc ->; apply mem_In in Hc; congruence). cbn [std_userinfo]. change ((58 =? 58) && negb false) with true. cbv iota.
    rewrite userinfo_pw. cbn [snd password]. rewrite !userinfo_enc by assumption. destruct u. cbn in *. subst. reflexivity.
  - rewrite split_first_none by exact M. rewrite userinfo_un by (intros c Hc ->; apply mem_In in Hc; congruence). cbn [snd]. rewrite (userinfo_enc ui) by exact S. change (enc_userinfo []) with (@nil N).
    destruct u. cbn in *. subst. reflexivity.
Qed.
Lemma userinfo_keeps s : forall pw u, let v := snd (std_userinfo s pw u) in
  scheme v = scheme u /\ uhost v = uhost u /\ port v = port u /\ path v = path u /\ query v = query u /\ fragment v = fragment u.
Proof.
  induction s as [|c s IH]; intros pw u; cbn [std_userinfo]; [cbn; tauto|]. destruct ((c =? 58) && negb pw); [apply IH|].
  destruct pw; [apply (IH true (set_password (password u ++ enc1 userinfo_set c) u))|apply (IH false (set_username (username u ++ enc1 userinfo_set c) u))].
Qed.
(** [ui]: what was before the last '@' read so far ([None]: none read) *)
Definition seen_ui (ui : option str) : bool := match ui with Some _ => true | None => false end.
Definition ui_cfg (ui : option str) (u : urlrec) : bool * urlrec := match ui with Some s => std_userinfo s false u | None => (false, u) end.
Lemma r_authority a0 : forall p u ui buf t, here p (a0 ++ t) -> sv t -> sv a0 -> sv buf -> (forall s, ui = Some s -> sv s) -> has_opaque_path u = false -> port u = None ->
  username u = [] -> password u = [] -> mem 64 buf = false -> here (p - length buf) (buf ++ a0 ++ t) -> (length buf <= p)%nat ->
  closed (is_special u) (buf ++ a0) -> stops (is_special u) t ->
  runs (mkcfg S_authority p buf (seen_ui ui) false (fst (ui_cfg ui u)) (snd (ui_cfg ui u)))
    (outcome3 (match split_last 64 (match ui with Some s => s ++ 64 :: buf ++ a0 | None => buf ++ a0 end) with
     | None => flat_host E enc u (buf ++ a0) t
     | Some (s, h) => if (length h =? 0)%nat then Err EURLParse else flat_host E enc (set_creds s u) h t
     end)).
Proof.
  induction a0 as [|c a0 IH]; intros p u ui buf t H S Sa Sb Su O P U W M G L C T.
  - cbn [app] in *. rewrite app_nil_r in *.
    assert (K : is_special (snd (ui_cfg ui u)) = is_special u).
    { destruct ui as [s|]; [|reflexivity]. cbn [ui_cfg]. unfold is_special. now rewrite (proj1 (userinfo_keeps s false u)). }
    assert (X : parser_step hp base inp (mkcfg S_authority p buf (seen_ui ui) false (fst (ui_cfg ui u)) (snd (ui_cfg ui u))) =
      if seen_ui ui && (length buf =? 0)%nat then None
      else Some (mkcfg S_host (p - length buf) [] (seen_ui ui) false (fst (ui_cfg ui u)) (snd (ui_cfg ui u)))).
    { destruct t as [|c t]; [st0 H; reflexivity|]. st0 H. cbn [stops] in T. rewrite special_eq, K. rewrite ends_eq in T. replace (c =? 64) with false by lia. rewrite T. reflexivity. }
    destruct ui as [s|]; cbn [seen_ui ui_cfg fst snd andb] in *.
    + rewrite split_last_app by exact M. destruct (length buf =? 0)%nat.
      * apply q_fail; [reflexivity|exact (here_le _ _ H)|exact X].
      * eapply q_step; [reflexivity|exact (here_le _ _ H)|exact X|]. rewrite userinfo_creds by auto.
        assert (Z : set_creds s u = snd (std_userinfo s false u)) by (symmetry; apply userinfo_creds; auto).
        destruct (userinfo_keeps s false u) as (Z1 & Z2 & Z3 & Z4 & _). rewrite <- Z in Z1, Z2, Z3, Z4.
        apply r_host0; auto.
        -- unfold has_opaque_path. now rewrite Z4.
        -- now rewrite Z3.
        -- unfold is_special. now rewrite Z1.
        -- unfold is_special. now rewrite Z1.
    + rewrite split_last_none by exact M. eapply q_step; [reflexivity|exact (here_le _ _ H)|exact X|]. now apply r_host0.
  - cbn [app] in H. destruct (c =? 64) eqn:Q.
    + apply N.eqb_eq in Q. subst c.
      set (ui' := Some (match ui with Some s => s ++ 64 :: buf | None => buf end)).
      assert (X : parser_step hp base inp (mkcfg S_authority p buf (seen_ui ui) false (fst (ui_cfg ui u)) (snd (ui_cfg ui u))) =
        Some (mkcfg S_authority (Datatypes.S p) [] (seen_ui ui') false (fst (ui_cfg ui' u)) (snd (ui_cfg ui' u)))).
      { st0 H. change (64 =? 64) with true. cbv iota. destruct ui as [s|]; cbn [ui' seen_ui ui_cfg fst snd].
        - rewrite (userinfo_app s). destruct (std_userinfo s false u) as [pw' v]. cbn [fst snd]. rewrite userinfo_at.
          destruct (std_userinfo (64 :: buf) pw' v) as [pw2 v2]. reflexivity.
        - destruct (std_userinfo buf false u) as [pw2 v2]. reflexivity. }
      eapply q_step; [reflexivity|exact (here_le _ _ H)|exact X|].
      specialize (IH (Datatypes.S p) u ui' [] t (here_next _ _ _ H) S (sv_cons _ _ Sa) (Forall_nil _)).
      replace (match ui with Some s => s ++ 64 :: buf ++ 64 :: a0 | None => buf ++ 64 :: a0 end) with ((match ui with Some s => s ++ 64 :: buf | None => buf end) ++ 64 :: [] ++ a0).
      2:{ destruct ui; [|reflexivity]. rewrite <- app_assoc. reflexivity. }
      assert (SL : exists x y, split_last 64 ((match ui with Some s => s ++ 64 :: buf | None => buf end) ++ 64 :: [] ++ a0) = Some (x, y)).
      { pose proof (split_last_spec 64 ((match ui with Some s => s ++ 64 :: buf | None => buf end) ++ 64 :: [] ++ a0)) as Z.
        destruct (split_last 64 _) as [[x y]|]; [eauto|]. exfalso. rewrite mem_app in Z. cbn [app] in Z. rewrite mem_cons in Z. change (64 =? 64) with true in Z. rewrite orb_true_r in Z. discriminate. }
      destruct SL as (x & y & SL). rewrite SL. cbn [ui'] in IH. rewrite SL in IH. apply IH; auto.
      * intros s Hs. injection Hs as <-. destruct ui as [s|]; [|exact Sb]. apply sv_app. split; [now apply Su|]. constructor; [|exact Sb]. unfold surrogate. lia.
      * cbn [length app]. rewrite Nat.sub_0_r. exact (here_next _ _ _ H).
      * cbn. lia.
      * apply Forall_app in C as [_ C]. now inversion C.
    + assert (C' := C). apply Forall_app in C' as [_ C']. inversion C' as [|? ? C1 C2]; subst.
      assert (K : is_special (snd (ui_cfg ui u)) = is_special u).
      { destruct ui as [s|]; [|reflexivity]. cbn [ui_cfg]. unfold is_special. now rewrite (proj1 (userinfo_keeps s false u)). }
      st H; [rewrite Q, special_eq, K; rewrite ends_eq in C1; rewrite C1; reflexivity|].
      replace (buf ++ c :: a0) with ((buf ++ [c]) ++ a0) in * by (rewrite <- app_assoc; reflexivity).
      apply IH; auto.
      * exact (here_next _ _ _ H).
      * exact (sv_cons _ _ Sa).
      * apply sv_app. split; [exact Sb|]. constructor; [now inversion Sa|constructor].
      * rewrite mem_app, M. rewrite mem_cons, N.eqb_sym, Q. reflexivity.
      * rewrite app_length. cbn [length]. replace (Datatypes.S p - (length buf + 1))%nat with (p - length buf)%nat by lia. rewrite <- app_assoc. exact G.
      * rewrite app_length. cbn [length]. lia.
Qed.
Lemma span_closed sp rest : let (a, t) := span (fun c => negb (ends_auth sp c)) rest in rest = a ++ t /\ closed sp a /\ stops sp t.
Proof.
  pose proof (span_eq (fun c => negb (ends_auth sp c)) rest) as A. pose proof (LoopProofs.span_all (fun c => negb (ends_auth sp c)) rest) as B.
  pose proof (span_stop (fun c => negb (ends_auth sp c)) rest) as C. destruct (span _ rest) as [a t]. cbn [fst snd] in *. split; [exact A|]. split.
  - eapply Forall_impl; [|exact B]. cbv beta. intros c Hc. now apply negb_true_iff in Hc.
  - destruct t; [exact I|]. cbn [stops]. now apply negb_false_iff in C.
Qed.
Lemma r_authority0 rest p u : here p rest -> sv rest -> has_opaque_path u = false -> port u = None -> username u = [] -> password u = [] ->
  runs (mkcfg S_authority p [] false false false u) (outcome3 (flat_authority E enc u rest)).
Proof.
  intros H S O P U W. unfold flat_authority. pose proof (span_closed (is_special u) rest) as C.
  destruct (span (fun c => negb (ends_auth (is_special u) c)) rest) as [a t]. destruct C as (-> & C & T). apply sv_app in S as [S1 S2].
  apply (r_authority a p u None [] t); auto.
  - constructor.
  - discriminate.
  - cbn [length app]. now rewrite Nat.sub_0_r.
  - cbn. lia.
Qed.

(* ---------- file ---------- *)
Definition host_end (c : N) : bool := mem c $"/\?#".
Lemma host_end_eq c : host_end c = (c =? 47) || (c =? 92) || (c =? 63) || (c =? 35).
Proof. unfold host_end. change ($"/\?#") with [47; 92; 63; 35]. cbn [mem existsb]. rewrite orb_false_r. now rewrite !orb_assoc. Qed.
Lemma drive_pe buf : std_any_drive_letter buf = true -> pe buf = buf.
Proof.
  destruct buf as [|a [|b [|c t]]]; try discriminate. cbn [std_any_drive_letter]. intros H.
  assert (A : enc1 path_set a = [a]).
  { unfold enc1, std_percent_encode1. cbn [andb]. replace (path_set a) with false; [reflexivity|]. symmetry.
    unfold std_alpha in H. unfold path_set, SpecText.query_set, c0_control_set, one_of. cbn [existsb]. lia. }
  assert (B : enc1 path_set b = [b]).
  { unfold enc1, std_percent_encode1. cbn [andb]. replace (path_set b) with false; [reflexivity|]. symmetry.
    unfold path_set, SpecText.query_set, c0_control_set, one_of. cbn [existsb]. lia. }
  cbn [pe flat_map]. unfold pe. cbn [flat_map]. rewrite A, B. reflexivity.
Qed.
Lemma r_file_host h : forall p u buf t a b w, here p (h ++ t) -> sv (buf ++ h) -> sv t -> has_opaque_path u = false ->
  Forall (fun c => host_end c = false) (buf ++ h) -> match t with [] => True | c :: _ => host_end c = true end ->
  runs (mkcfg S_file_host p buf a b w u)
    (outcome3 (if is_windows_drive_letter (buf ++ h) then flat_path E enc u (buf ++ h ++ t)
     else match buf ++ h with
          | [] => flat_path_start E enc (set_host (Some (HStr [])) u) t
          | x => rbind (snd (host_parse E x (is_not_special u))) (fun y => flat_path_start E enc (set_host (Some (no_localhost y)) u) t)
          end)).
Proof.
  induction h as [|c h IH]; intros p u buf t a b w H Sb S O F T.
  - cbn [app] in H. rewrite app_nil_r in *. cbn [app].
    assert (X : forall f, parser_step f base inp (mkcfg S_file_host p buf a b w u) =
      if std_any_drive_letter buf then Some (mkcfg S_path p buf a b w u)
      else match buf with
           | [] => Some (mkcfg S_path_start p [] a b w (set_host (Some (HStr [])) u))
           | _ => match f buf (is_not_special u) with None => None | Some x => Some (mkcfg S_path_start p [] a b w (set_host (Some (no_localhost x)) u)) end
           end).
    { intros f. destruct t as [|c t].
      - st0 H. rewrite special_eq. destruct (std_any_drive_letter buf); [reflexivity|]. destruct buf; reflexivity.
      - rewrite host_end_eq in T. st0 H. rewrite T, special_eq. destruct (std_any_drive_letter buf); [reflexivity|]. destruct buf; reflexivity. }
    rewrite any_drive_eq. destruct (std_any_drive_letter buf) eqn:D.
    + eapply c_step; [discriminate|exact (here_le _ _ H)|exact X|].
      assert (F' : Forall (fun c => is_sep (is_special u) (Some c) = false) buf).
      { eapply Forall_impl; [|exact F]. cbv beta. intros c Hc. rewrite host_end_eq in Hc. unfold is_sep, isc. destruct (is_special u); lia. }
      assert (F2 : Forall (fun c => negb (is_qf c) = true) buf).
      { eapply Forall_impl; [|exact F]. cbv beta. intros c Hc. rewrite host_end_eq in Hc. rewrite qf_eq. lia. }
      pose proof (r_path t p buf u (path_segs u) a b w H Sb S (path_list u O) F') as R. rewrite drive_pe in R by exact D.
      unfold flat_path. rewrite span_app' by exact F2. destruct (span (fun c => negb (is_qf c)) t) as [pp r]. exact R.
    + destruct buf as [|x buf].
      * eapply c_step; [discriminate|exact (here_le _ _ H)|exact X|]. now apply r_path_start.
      * set (bf := x :: buf) in *.
        apply (r_asks (mkcfg S_file_host p bf a b w u) (is_not_special u) (fun y => mkcfg S_path_start p [] a b w (set_host (Some (no_localhost y)) u)) X);
          [discriminate|exact (here_le _ _ H)|cbn [k_url]; rewrite special_eq; reflexivity|]. intros h. now apply r_path_start.
  - cbn [app] in H. assert (F' := F). apply Forall_app in F' as [_ F']. inversion F' as [|? ? F1 F2]; subst. rewrite host_end_eq in F1.
    eapply c_step; [discriminate|exact (here_le _ _ H)|intros f; st0 H; rewrite F1; reflexivity|].
    replace (buf ++ (c :: h) ++ t) with ((buf ++ [c]) ++ h ++ t) by (rewrite <- app_assoc; reflexivity).
    replace (buf ++ c :: h) with ((buf ++ [c]) ++ h) in * by (rewrite <- app_assoc; reflexivity).
    apply IH; auto. exact (here_next _ _ _ H).
Qed.
Lemma r_file_host0 rest p u a b w : here p rest -> sv rest -> has_opaque_path u = false ->
  runs (mkcfg S_file_host p [] a b w u) (outcome3 (flat_file_host E enc u rest)).
Proof.
  intros H S O. unfold flat_file_host. pose proof (span_eq (fun c => negb (host_end c)) rest) as A. pose proof (LoopProofs.span_all (fun c => negb (host_end c)) rest) as B.
  pose proof (span_stop (fun c => negb (host_end c)) rest) as C. fold host_end. change (fun c => negb (mem c $"/\?#")) with (fun c => negb (host_end c)).
  destruct (span (fun c => negb (host_end c)) rest) as [h t]. cbn [fst snd] in *. rewrite A in H, S |- *. apply sv_app in S as [S1 S2].
  pose proof (r_file_host h p u [] t a b w H S1 S2 O) as R. cbn [app] in R. assert (B' : Forall (fun c => host_end c = false) h).
  { eapply Forall_impl; [|exact B]. cbv beta. intros c Hc. now apply negb_true_iff in Hc. }
  specialize (R B'). assert (C' : match t with [] => True | c :: _ => host_end c = true end) by (destruct t; [exact I|]; now apply negb_false_iff in C).
  specialize (R C'). destruct h; exact R.
Qed.
Lemma r_file_slash rest p u a b w : here p rest -> sv rest -> path u = PList [] ->
  runs (mkcfg S_file_slash p [] a b w u) (outcome3 (flat_file_slash E base enc u rest)).
Proof.
  intros H S Hp.
  assert (X : (forall c t, rest = c :: t -> is_slash c = false) -> parser_step hp base inp (mkcfg S_file_slash p [] a b w u) =
     Some (mkcfg S_path p [] a b w (file_slash_url base rest u))).
  { intros Q. assert (Y : sis (hd_error rest) 47 || sis (hd_error rest) 92 = false).
    { destruct rest as [|c t]; [reflexivity|]. cbn [hd_error sis]. rewrite <- slash_eq. exact (Q _ _ eq_refl). }
    st0 H. rewrite Y. unfold file_slash_url. destruct base as [d|]; [|reflexivity]. destruct (str_eqb (scheme d) $"file"); [|reflexivity].
    rewrite (here_skip _ _ H). destruct (path d) as [|[|s l]]; try reflexivity. rewrite starts_drive_eq, drive_eq.
    destruct (negb (std_starts_drive_letter rest) && std_drive_letter s); [|reflexivity]. unfold std_append, path_segs. cbn [path set_host]. rewrite Hp. reflexivity. }
  assert (O : forall r, has_opaque_path (file_slash_url base r u) = false).
  { intros r. unfold file_slash_url, has_opaque_path. destruct base as [d|]; [|now rewrite Hp]. destruct (str_eqb (scheme d) $"file"); [|now rewrite Hp].
    destruct (path d) as [|[|s l]]; try (cbn; now rewrite Hp). destruct (_ && _); cbn; [reflexivity|now rewrite Hp]. }
  unfold flat_file_slash. destruct rest as [|c t].
  - eapply q_step; [reflexivity|exact (here_le _ _ H)|apply X; discriminate|]. apply r_path0; auto.
  - destruct (is_slash c) eqn:Q.
    + rewrite slash_eq in Q. st H; [rewrite Q; reflexivity|]. apply r_file_host0; [exact (here_next _ _ _ H)|exact (sv_cons _ _ S)|]. unfold has_opaque_path. now rewrite Hp.
    + eapply q_step; [reflexivity|exact (here_le _ _ H)|apply X|].
      * intros x y Z. injection Z as <- <-. exact Q.
      * apply r_path0; auto.
Qed.
Definition file_base : option urlrec := match base with Some b => if str_eqb (scheme b) $"file" then Some b else None | None => None end.
(** the standard copies the path of a file base for an empty rest *)
Definition std_file (rest : str) : res urlrec :=
  match rest, file_base with
  | [], Some b => Ok (file_base_url b file_url)
  | _, _ => flat_file E base enc rest
  end.
Lemma r_file rest p u a b w : base_ok base -> here p rest -> sv rest -> u = new_url \/ u = set_scheme $"file" new_url ->
  runs (mkcfg S_file p [] a b w u) (outcome3 (std_file rest)).
Proof.
  intros BOK H S Hu. assert (U : set_host (Some (HStr [])) (set_scheme $"file" u) = file_url) by (destruct Hu as [-> | ->]; reflexivity).
  unfold std_file, flat_file, file_base. destruct rest as [|c t].
  - destruct base as [d|] eqn:B; [destruct (str_eqb (scheme d) $"file") eqn:F|]; rewrite <- ?B.
    + st H; [rewrite B, F, U; reflexivity|]. fin H.
    + st H; [rewrite B, F, U; reflexivity|]. now apply r_path0.
    + st H; [rewrite B, U; reflexivity|]. now apply r_path0.
  - assert (Z : (match base with Some b => if str_eqb (scheme b) $"file" then Some b else None | None => None end) = file_base) by reflexivity.
    replace (match match base with Some b => if str_eqb (scheme b) $"file" then Some b else None | None => None end with Some _ | _ => _ end) with
      (if is_slash c then flat_file_slash E base enc file_url t else
        match base with Some b => if str_eqb (scheme b) $"file" then
           (if is_qf c then flat_tail E enc (file_base_url b file_url) (c :: t)
            else flat_path E enc (set_path (PList (if starts_with_windows_drive_letter (c :: t) then [] else shorten_segs $"file" (path_segs b))) (set_query None (file_base_url b file_url))) (c :: t))
           else flat_path E enc file_url (c :: t) | None => flat_path E enc file_url (c :: t) end) by (destruct base as [d|]; [destruct (str_eqb (scheme d) $"file")|]; reflexivity).
    clear Z. destruct (is_slash c) eqn:Q; rewrite slash_eq in Q.
    + st H; [rewrite Q, U; reflexivity|]. apply r_file_slash; [exact (here_next _ _ _ H)|exact (sv_cons _ _ S)|reflexivity].
    + destruct base as [d|] eqn:B; [destruct (str_eqb (scheme d) $"file") eqn:F|]; rewrite <- ?B.
      * assert (O : has_opaque_path d = false) by (apply BOK; unfold is_special; apply str_eqb_eq in F; rewrite F; reflexivity).
        rewrite qf_eq. cbn [flat_tail]. destruct (c =? 63) eqn:C1; [|destruct (c =? 35) eqn:C2]; cbn [orb].
        -- st H; [rewrite Q, B, F, U, C1; reflexivity|]. apply r_query0; [exact (here_next _ _ _ H)|exact (sv_cons _ _ S)].
        -- st H; [rewrite Q, B, F, U, C1, C2; reflexivity|]. apply r_fragment0; [exact (here_next _ _ _ H)|exact (sv_cons _ _ S)].
        -- st H; [rewrite Q, B, F, U, C1, C2, (here_skip _ _ H); reflexivity|]. rewrite starts_drive_eq. destruct (std_starts_drive_letter (c :: t)).
           ++ now apply r_path0.
           ++ rewrite (shorten_eq _ (path_segs d)) by (cbn; now apply path_list). now apply r_path0.
      * st H; [rewrite Q, B, F, U; reflexivity|]. now apply r_path0.
      * st H; [rewrite Q, B, U; reflexivity|]. now apply r_path0.
Qed.

(* ---------- relative references ---------- *)
Lemma r_ignore rest : forall p u, here p rest -> sv rest -> has_opaque_path u = false -> port u = None -> username u = [] -> password u = [] ->
  runs (mkcfg S_special_authority_ignore_slashes p [] false false false u) (outcome3 (flat_authority E enc u (drop_while is_slash rest))).
Proof.
  induction rest as [|c t IH]; intros p u H S O P U W; cbn [drop_while].
  - st H; [reflexivity|]. now apply r_authority0.
  - destruct (is_slash c) eqn:Q; rewrite slash_eq in Q.
    + st H; [rewrite Q; reflexivity|]. apply IH; auto; [exact (here_next _ _ _ H)|exact (sv_cons _ _ S)].
    + st H; [rewrite Q; reflexivity|]. now apply r_authority0.
Qed.
Lemma r_relative_slash d rest p u : base = Some d -> here p rest -> sv rest -> has_opaque_path u = false -> port u = None -> username u = [] -> password u = [] ->
  runs (mkcfg S_relative_slash p [] false false false u) (outcome3 (flat_relative_slash E d enc u rest)).
Proof.
  intros B H S O P U W. unfold flat_relative_slash. destruct rest as [|c t].
  - st H; [rewrite andb_false_r, B; reflexivity|]. now apply r_path0.
  - rewrite slash_eq. destruct (is_special u && ((c =? 47) || (c =? 92))) eqn:Q.
    + st H; [rewrite special_eq, Q; reflexivity|]. apply r_ignore; auto; [exact (here_next _ _ _ H)|exact (sv_cons _ _ S)].
    + destruct (c =? 47) eqn:C.
      * st H; [rewrite special_eq, C, Q; reflexivity|]. apply r_authority0; auto; [exact (here_next _ _ _ H)|exact (sv_cons _ _ S)].
      * st H; [rewrite special_eq, C, Q, B; reflexivity|]. now apply r_path0.
Qed.
Lemma r_relative d rest p u : base = Some d -> has_opaque_path d = false -> here p rest -> sv rest -> u = new_url \/ u = set_scheme (scheme d) new_url ->
  runs (mkcfg S_relative p [] false false false u) (outcome3 (flat_relative E d enc rest)).
Proof.
  intros B O H S Hu. assert (V : set_scheme (scheme d) u = set_scheme (scheme d) new_url) by (destruct Hu as [-> | ->]; reflexivity).
  unfold flat_relative. destruct rest as [|c t].
  - st H; [rewrite B, V, andb_false_r; reflexivity|]. fin H.
  - destruct ((c =? 47) || (is_special (set_scheme (scheme d) new_url) && (c =? 92))) eqn:Q.
    + st H; [rewrite B, V, special_eq, Q; reflexivity|]. apply r_relative_slash; auto; [exact (here_next _ _ _ H)|exact (sv_cons _ _ S)].
    + rewrite qf_eq. cbn [flat_tail]. destruct (c =? 63) eqn:C1; [|destruct (c =? 35) eqn:C2]; cbn [orb].
      * st H; [rewrite B, V, special_eq, Q, C1; reflexivity|]. apply r_query0; [exact (here_next _ _ _ H)|exact (sv_cons _ _ S)].
      * st H; [rewrite B, V, special_eq, Q, C1, C2; reflexivity|]. apply r_fragment0; [exact (here_next _ _ _ H)|exact (sv_cons _ _ S)].
      * st H; [rewrite B, V, special_eq, Q, C1, C2; reflexivity|]. rewrite (shorten_eq _ (path_segs d)) by (cbn; now apply path_list). now apply r_path0.
Qed.

(* ---------- schemes ---------- *)
Definition std_no_scheme (rest : str) : res urlrec :=
  match file_base with Some _ => std_file rest | None => flat_no_scheme E base enc rest end.
Lemma r_no_scheme rest p : base_ok base -> here p rest -> sv rest ->
  runs (mkcfg S_no_scheme p [] false false false new_url) (outcome3 (std_no_scheme rest)).
Proof.
  intros BOK H S. unfold std_no_scheme, file_base, flat_no_scheme. destruct base as [d|] eqn:B.
  - destruct (str_eqb (scheme d) $"file") eqn:F; rewrite <- ?B.
    + assert (O : has_opaque_path d = false) by (apply BOK; unfold is_special; apply str_eqb_eq in F; rewrite F; reflexivity).
      st H; [rewrite B; unfold std_opaque_path; fold (has_opaque_path d); rewrite O, F; reflexivity|]. apply r_file; auto. rewrite B. exact BOK.
    + destruct (has_opaque_path d) eqn:O.
      * destruct rest as [|c t]; [apply q_fail; [reflexivity|exact (here_le _ _ H)|]; st0 H; rewrite B; unfold std_opaque_path; fold (has_opaque_path d); now rewrite O|].
        destruct (c =? 35) eqn:C.
        -- st H; [rewrite B; unfold std_opaque_path; fold (has_opaque_path d); rewrite O, C; reflexivity|].
           apply (r_fragment0 t); [exact (here_next _ _ _ H)|exact (sv_cons _ _ S)].
        -- apply q_fail; [reflexivity|exact (here_le _ _ H)|]. st0 H. rewrite B. unfold std_opaque_path. fold (has_opaque_path d). now rewrite O, C.
      * st H; [rewrite B; unfold std_opaque_path; fold (has_opaque_path d); rewrite O, F; reflexivity|]. apply r_relative; auto.
  - rewrite <- ?B. apply q_fail; [reflexivity|exact (here_le _ _ H)|]. st0 H. now rewrite B.
Qed.
Definition std_scheme_case (sch t : str) : res urlrec :=
  if str_eqb sch $"file" then std_file t else flat_scheme E base enc sch t.
Lemma r_colon sch t p : base_ok base -> here p (58 :: t) -> sv t ->
  runs (mkcfg S_scheme p sch false false false new_url) (outcome3 (std_scheme_case sch t)).
Proof.
  intros BOK H S. pose proof (here_next _ _ _ H) as H1. unfold std_scheme_case, flat_scheme.
  assert (X : forall k, parser_step hp base inp (mkcfg S_scheme p sch false false false new_url) = Some k -> forall r, runs k r -> runs (mkcfg S_scheme p sch false false false new_url) r).
  { intros k K r R. eapply q_step; [reflexivity|exact (here_le _ _ H)|exact K|exact R]. }
  unfold parser_step in X. cbn [k_state k_ptr k_buf k_at k_br k_pw k_url] in X. rewrite (here_nth _ _ H) in X. cbn [hd_error] in X.
  change (std_scheme_char 58) with false in X. change (58 =? 58) with true in X. cbv iota in X. rewrite special_eq in X. change (is_special (set_scheme sch new_url)) with (special_scheme sch) in X.
  destruct (str_eqb sch $"file") eqn:F.
  { apply (X _ eq_refl). apply r_file; auto. right. apply str_eqb_eq in F. now rewrite F. }
  destruct (special_scheme sch) eqn:Sp.
  - assert (R1 : runs (mkcfg S_special_authority_slashes (Datatypes.S p) [] false false false (set_scheme sch new_url))
      (outcome3 (flat_authority E enc (set_scheme sch new_url) (drop_while is_slash t)))).
    { destruct t as [|c [|e t]].
      - st H1; [reflexivity|]. now apply r_ignore.
      - st H1; [rewrite (here_nth1 _ _ _ H1), andb_false_r; reflexivity|]. now apply r_ignore.
      - destruct ((c =? 47) && (e =? 47)) eqn:Q.
        + st H1; [rewrite (here_nth1 _ _ _ H1); cbn [hd_error sis]; rewrite Q; reflexivity|].
          cbn [drop_while]. apply andb_true_iff in Q as [Q1 Q2]. rewrite !slash_eq, Q1, Q2. cbn [orb].
          apply r_ignore; auto; [exact (here_next _ _ _ (here_next _ _ _ H1))|exact (sv_cons _ _ (sv_cons _ _ S))].
        + st H1; [rewrite (here_nth1 _ _ _ H1); cbn [hd_error sis]; rewrite Q; reflexivity|]. now apply r_ignore. }
    destruct base as [d|] eqn:B; rewrite <- ?B in X, R1 |- *.
    + destruct (str_eqb (scheme d) sch) eqn:Q; cbn [andb].
      * apply (X _ eq_refl). assert (O : has_opaque_path d = false) by (apply BOK; unfold is_special; apply str_eqb_eq in Q; now rewrite Q).
        assert (Hd : set_scheme sch new_url = set_scheme (scheme d) new_url) by (apply str_eqb_eq in Q; now rewrite Q).
        assert (W : negb (starts_with $"//" t) = true -> sis (hd_error t) 47 && sis (nth_error inp (Datatypes.S (Datatypes.S p))) 47 = false).
        { destruct t as [|c t]; [reflexivity|]. rewrite (here_nth1 _ _ _ H1). destruct t as [|e t]; [intros _; apply andb_false_r|].
          change ($"//") with [47; 47]. cbn [starts_with hd_error sis]. rewrite andb_true_r. intros W. apply negb_true_iff in W. rewrite (N.eqb_sym c), (N.eqb_sym e). exact W. }
        destruct (starts_with $"//" t) eqn:St; cbn [negb].
        -- destruct t as [|c [|e t]]; try discriminate St; [cbn in St; rewrite andb_false_r in St; discriminate|].
           change ($"//") with [47; 47] in St. cbn [starts_with] in St. rewrite andb_true_r in St. apply andb_true_iff in St as [Q1 Q2]. apply N.eqb_eq in Q1, Q2. subst c e.
           st H1; [rewrite (here_nth1 _ _ _ H1); reflexivity|]. cbn [drop_while]. change (is_slash 47) with true. cbv iota.
           apply r_ignore; auto; [exact (here_next _ _ _ (here_next _ _ _ H1))|exact (sv_cons _ _ (sv_cons _ _ S))].
        -- specialize (W eq_refl). st H1; [rewrite W; reflexivity|]. apply r_relative; auto.
      * apply (X _ eq_refl). exact R1.
    + apply (X _ eq_refl). exact R1.
  - rewrite (here_nth1 _ _ _ H) in X. destruct t as [|c t].
    { apply (X _ eq_refl). apply (r_opaque [] (Datatypes.S p) (set_path (POpaque []) (set_scheme sch new_url)) []); auto. }
    cbn [hd_error sis] in X. destruct (c =? 47) eqn:C.
    + apply (X _ eq_refl). pose proof (here_next _ _ _ H1) as H2. pose proof (sv_cons _ _ S) as S2. destruct t as [|e t].
      * st H2; [reflexivity|]. now apply r_path0.
      * destruct (e =? 47) eqn:Q.
        -- st H2; [rewrite Q; reflexivity|]. apply r_authority0; auto; [exact (here_next _ _ _ H2)|exact (sv_cons _ _ S2)].
        -- st H2; [rewrite Q; reflexivity|]. now apply r_path0.
    + apply (X _ eq_refl). apply (r_opaque (c :: t) (Datatypes.S p) (set_path (POpaque []) (set_scheme sch new_url)) []); auto.
Qed.
Lemma here0 : here 0 inp. Proof. exists []. auto. Qed.
Hypothesis SV : sv inp.
Hypothesis BOK : base_ok base.
Lemma r_scheme t : forall p buf, here p t -> sv t ->
  runs (mkcfg S_scheme p buf false false false new_url)
    (outcome3 (match span is_scheme_char t with
     | (a, x :: r) => if x =? 58 then std_scheme_case (buf ++ std_lower a) r else std_no_scheme inp
     | (_, []) => std_no_scheme inp
     end)).
Proof.
  induction t as [|c t IH]; intros p buf H S; cbn [span].
  - st H; [reflexivity|]. apply r_no_scheme; [exact BOK|apply here0|exact SV].
  - destruct (is_scheme_char c) eqn:Q.
    + rewrite scheme_char_eq in Q. st H; [rewrite Q; reflexivity|].
      specialize (IH (Datatypes.S p) (buf ++ [std_lower1 c]) (here_next _ _ _ H) (sv_cons _ _ S)). destruct (span is_scheme_char t) as [a [|x r]]; [exact IH|].
      rewrite <- app_assoc in IH. exact IH.
    + destruct (c =? 58) eqn:C.
      * apply N.eqb_eq in C. subst c. cbn [std_lower map]. rewrite app_nil_r. apply r_colon; [exact BOK|exact H|exact (sv_cons _ _ S)].
      * rewrite scheme_char_eq in Q. st H; [rewrite Q, C; reflexivity|]. apply r_no_scheme; [exact BOK|apply here0|exact SV].
Qed.
Definition std_main : res urlrec :=
  match scheme_split inp with Some (sch, t) => std_scheme_case (std_lower sch) t | None => std_no_scheme inp end.
Theorem r_main : runs (mkcfg S_scheme_start 0 [] false false false new_url) (outcome3 std_main).
Proof.
  pose proof here0 as H. unfold std_main. unfold scheme_split.
  assert (N : forall c t, inp = c :: t -> std_alpha c = false -> runs (mkcfg S_scheme_start 0 [] false false false new_url) (outcome3 (std_no_scheme inp))).
  { intros c t Q A. eapply q_step; [reflexivity|exact (here_le _ _ H)| |apply r_no_scheme; [exact BOK|exact H|exact SV]]. st0 H. rewrite Q. cbn [hd_error]. now rewrite A. }
  destruct inp as [|c t] eqn:I.
  - rewrite <- I in *. eapply q_step; [reflexivity|exact (here_le _ _ H)| |apply r_no_scheme; [exact BOK|exact H|exact SV]]. st0 H. rewrite I. reflexivity.
  - rewrite <- I in *. rewrite alpha_eq. destruct (std_alpha c) eqn:A.
    + eapply q_step; [reflexivity|exact (here_le _ _ H)|st0 H; rewrite I; cbn [hd_error]; rewrite A; reflexivity|].
      assert (H1 : here 1 t) by (apply (here_next 0 c); rewrite <- I; exact H). cbn [app].
      assert (S1 : sv t) by (apply (sv_cons c); rewrite <- I; exact SV).
      pose proof (r_scheme t 1%nat [std_lower1 c] H1 S1) as R. destruct (span is_scheme_char t) as [a [|x r]]; [exact R|]. destruct (x =? 58); exact R.
    + exact (N c t I A).
Qed.
End Run.

(* ---------- parse_url ---------- *)
Lemma lstrip_eq s : std_lstrip s = drop_while is_c0_space s.
Proof. induction s as [|c t IH]; [reflexivity|]. cbn [std_lstrip drop_while]. unfold is_c0_space, std_c0_space in *. now rewrite IH. Qed.
Lemma rstrip_eq s : std_rstrip s = rstrip_by is_c0_space s.
Proof. symmetry. apply rstrip_std. Qed.
Lemma input_eq s : std_input s = clean s.
Proof. unfold std_input, clean, strip_c0. rewrite lstrip_eq, rstrip_eq. reflexivity. Qed.
Lemma clean_sv s : sv s -> sv (clean s).
Proof. intros H. apply Forall_forall. intros c Hc. apply clean_in in Hc. unfold sv in H. rewrite Forall_forall in H. auto. Qed.
Lemma filter_len {A} (f : A -> bool) l : (length (filter f l) <= length l)%nat.
Proof. induction l as [|x l IH]; [reflexivity|]. cbn [filter]. destruct (f x); cbn [length]; lia. Qed.
Lemma clean_len s : (length (clean s) <= length s)%nat.
Proof.
  rewrite <- input_eq. unfold std_input, std_strip_tabs.
  assert (A : forall t, (length (std_lstrip t) <= length t)%nat) by (induction t as [|c t IH]; [reflexivity|]; cbn [std_lstrip]; destruct (std_c0_space c); cbn [length]; lia).
  assert (B : forall t, (length (std_rstrip t) <= length t)%nat).
  { induction t as [|c t IH]; [reflexivity|]. cbn [std_rstrip]. destruct (std_rstrip t) as [|x r]; [destruct (std_c0_space c)|]; cbn [length] in *; lia. }
  pose proof (filter_len (fun c => negb (std_tab_newline c)) (std_rstrip (std_lstrip s))). pose proof (A s). pose proof (B (std_lstrip s)). lia.
Qed.
Lemma base_good base : std_good_base base -> base_ok base.
Proof.
  destruct base as [b|]; [|trivial]. cbn. intros H S. apply special_spec in S. specialize (H S). destruct H as (l & H). unfold has_opaque_path. now rewrite H.
Qed.
(** the deviating case in terms of the input *)
Lemma file_only_spec base s : file_only base s = true ->
  exists b, base = Some b /\ file_base base = Some b /\ (std_input s = [] \/ exists sch, scheme_split (std_input s) = Some (sch, []) /\ std_lower sch = $"file").
Proof.
  unfold file_only, file_base. destruct base as [b|]; [|discriminate]. intros H. apply andb_true_iff in H as [-> H]. exists b. split; [reflexivity|]. split; [reflexivity|].
  apply existsb_exists in H as (x & [<-|[<-|[]]] & H); apply str_eqb_eq in H.
  - left. destruct (std_input s); [reflexivity|discriminate].
  - right. change ($"file:") with [102; 105; 108; 101; 58] in H. change ($"file") with [102; 105; 108; 101].
    apply lower_cons in H as (c1 & t1 & -> & L1 & H). apply lower_cons in H as (c2 & t2 & -> & L2 & H). apply lower_cons in H as (c3 & t3 & -> & L3 & H).
    apply lower_cons in H as (c4 & t4 & -> & L4 & H). apply lower_cons in H as (c5 & t5 & -> & L5 & H). destruct t5; [|discriminate]. clear H.
    apply lower_inv in L1, L2, L3, L4, L5. assert (c5 = 58) by lia. subst c5. exists [c1; c2; c3; c4]. split.
    + apply (scheme_split_syntax [c1; c2; c3; c4] []). apply scheme_spec. unfold std_scheme, std_scheme_char, std_alpha. cbn [forallb]. lia.
    + cbn [std_lower map]. unfold std_lower1.
      destruct ((65 <=? c1) && (c1 <=? 90)) eqn:Q1; destruct ((65 <=? c2) && (c2 <=? 90)) eqn:Q2; destruct ((65 <=? c3) && (c3 <=? 90)) eqn:Q3; destruct ((65 <=? c4) && (c4 <=? 90)) eqn:Q4;
      repeat (apply (f_equal2 (@cons N)); [lia|]); reflexivity.
Qed.
Lemma file_only_not base s : file_only base s = false -> file_base base = None \/
  (std_input s <> [] /\ forall sch t, scheme_split (std_input s) = Some (sch, t) -> std_lower sch = $"file" -> t <> []).
Proof.
  unfold file_only, file_base. destruct base as [b|]; [|auto]. destruct (str_eqb (scheme b) $"file"); [|auto]. cbn [andb]. intros H. right. split.
  - intros Q. rewrite Q in H. discriminate.
  - intros sch t Q L ->. apply scheme_split_ok in Q as [_ Q]. rewrite Q in H. assert (X : std_lower (sch ++ [58]) = $"file:") by (unfold std_lower in *; rewrite map_app, L; reflexivity).
    rewrite X in H. discriminate.
Qed.
Lemma std_main_code E base s : base_ok base -> file_only base s = false -> std_main E base (clean s) = flat_main E base $"utf-8" (clean s).
Proof.
  intros BO H. apply file_only_not in H. rewrite input_eq in H. unfold std_main, flat_main.
  destruct (scheme_split (clean s)) as [[sch t]|] eqn:Q.
  - unfold std_scheme_case. change (lower sch) with (std_lower sch). destruct (str_eqb (std_lower sch) $"file") eqn:F; [|reflexivity]. unfold flat_scheme. rewrite F.
    apply str_eqb_eq in F. unfold std_file. destruct H as [->|[_ H]]; [destruct t; reflexivity|]. specialize (H sch t eq_refl F). destruct t; [congruence|]. reflexivity.
  - unfold std_no_scheme, flat_no_scheme. destruct (file_base base) as [b|] eqn:F; [|reflexivity]. destruct H as [H|[H _]]; [congruence|].
    unfold file_base in F. destruct base as [b'|]; [|discriminate]. destruct (str_eqb (scheme b') $"file") eqn:X; [|discriminate]. injection F as ->.
    unfold std_file. destruct (clean s) as [|c t] eqn:Z; [congruence|]. 
    assert (O : has_opaque_path b = false) by (apply BO; unfold is_special; apply str_eqb_eq in X; rewrite X; reflexivity). rewrite O. reflexivity.
Qed.
Lemma std_main_only E base s b : base_ok base -> base = Some b -> file_only base s = true ->
  std_main E base (clean s) = Ok (file_base_url b file_url) /\
  flat_main E base $"utf-8" (clean s) = Ok (std_append [] (file_base_url b file_url)).
Proof.
  intros BO B H. apply file_only_spec in H as (b' & B' & F & H). rewrite input_eq in H. assert (b' = b) by congruence. subst b'. clear B'.
  assert (X : str_eqb (scheme b) $"file" = true) by (unfold file_base in F; rewrite B in F; destruct (str_eqb (scheme b) $"file"); [reflexivity|discriminate]).
  assert (O : has_opaque_path b = false) by (rewrite B in BO; apply BO; unfold is_special; apply str_eqb_eq in X; rewrite X; reflexivity).
  assert (K : flat_file E base $"utf-8" [] = Ok (std_append [] (file_base_url b file_url))).
  { unfold flat_file. rewrite B, X. unfold flat_path. cbn [span flat_tail]. unfold std_append. change (path (file_base_url b file_url)) with (path b).
    rewrite (path_list b O). unfold path_segs at 1. change (path (file_base_url b file_url)) with (path b). rewrite (path_list b O).
    change (pieces (is_special (file_base_url b file_url)) []) with [@nil N]. cbn [walk]. unfold push. cbv zeta. change (utf8_percent_encode [] SAFE_PATH false) with (@nil N).
    change (str_in [] DOUBLE_DOT) with false. change (str_in [] SINGLE_DOT) with false. change (is_windows_drive_letter []) with false. cbv iota. rewrite andb_false_r. reflexivity. }
  unfold std_main, flat_main. destruct H as [->|(sch & -> & L)].
  - cbn [scheme_split]. unfold std_no_scheme, std_file, flat_no_scheme. rewrite F. split; [reflexivity|]. rewrite B. rewrite O, X. rewrite <- B. exact K.
  - unfold std_scheme_case, std_file, flat_scheme. change (lower sch) with (std_lower sch). rewrite L, F. split; [reflexivity|exact K].
Qed.

(* ---------- where the code raises ValueError ---------- *)
(** the step depends on the host parser at most at the buffer *)
Lemma step_ask base inp hp1 hp2 k :
  (parser_step (fun _ _ => None) base inp k = None -> parser_step (fun _ _ => Some (HStr [])) base inp k <> None ->
   hp1 (k_buf k) (negb (std_is_special (k_url k))) = hp2 (k_buf k) (negb (std_is_special (k_url k)))) ->
  parser_step hp1 base inp k = parser_step hp2 base inp k.
Proof.
  destruct k as [st p buf a br pw u]. unfold parser_step. cbn [k_state k_ptr k_buf k_at k_br k_pw k_url]. intros H.
  destruct st; try reflexivity.
  - destruct (sis (nth_error inp p) 58 && negb br).
    + destruct (length buf =? 0)%nat; [reflexivity|]. rewrite H; [reflexivity|reflexivity|discriminate].
    + destruct (_ || _ || _ || _ || _); [|reflexivity]. destruct (std_is_special u && (length buf =? 0)%nat) eqn:Q; [reflexivity|].
      rewrite H; [reflexivity|reflexivity|discriminate].
  - destruct (_ || _ || _ || _ || _); [|reflexivity]. destruct (std_any_drive_letter buf); [reflexivity|].
    destruct (length buf =? 0)%nat; [reflexivity|]. rewrite H; [reflexivity|reflexivity|discriminate].
Qed.
Lemma asks_iff base inp k : asks base inp k = true <->
  parser_step (fun _ _ => None) base inp k = None /\ parser_step (fun _ _ => Some (HStr [])) base inp k <> None.
Proof.
  unfold asks. destruct (parser_step (fun _ _ => None) base inp k); [split; [discriminate|intros [H _]; discriminate]|].
  destruct (parser_step (fun _ _ => Some (HStr [])) base inp k); split; auto; [split; [auto|discriminate]|discriminate|now intros [_ H]].
Qed.
Lemma raises_none E h o : host_raises E h o = true -> code_host E h o = None.
Proof. unfold host_raises, code_host. destruct (snd (host_parse E h o)); [discriminate|reflexivity]. Qed.
(** the outcome of the extended machine and the runs of the standard's *)
Lemma lruns_std E base inp k r : lruns E base inp k r ->
  match r with
  | Some x => std_runs (code_host E) base inp k x
  | None => (exists b, std_reads (code_host E) base inp k b /\ too_long E b = true) \/
            (std_runs (code_host E) base inp k None /\ exists h o, std_asks (code_host E) base inp k h o /\ host_raises E h o = true)
  end.
Proof.
  induction 1 as [k L|k L Q|k L Q S|k k' r L Q S R IH].
  - now apply runs_end.
  - unfold raising in Q. apply orb_true_iff in Q as [Q|Q]; apply andb_true_iff in Q as [Q1 Q2].
    + left. exists (k_buf k). split; [now apply reads_here|exact Q2].
    + right. apply asks_iff in Q1 as [A B]. split; [|exists (k_buf k), (negb (std_is_special (k_url k))); split; [now apply asks_here|exact Q2]].
      apply runs_fail; [exact L|]. rewrite <- A. apply step_ask. intros _ _. now apply raises_none.
  - now apply runs_fail.
  - destruct r as [x|].
    + eapply runs_step; eassumption.
    + destruct IH as [(b & A & B)|(A & h & o & B & C)].
      * left. exists b. split; [eapply reads_later; eassumption|exact B].
      * right. split; [eapply runs_step; eassumption|]. exists h, o. split; [eapply asks_later; eassumption|exact C].
Qed.
Lemma reads_raise E base inp k b r : std_reads (code_host E) base inp k b -> too_long E b = true -> lruns E base inp k r -> r = None.
Proof.
  intros A B. revert r. induction A as [k L Q|k k' b L S A IH]; intros r R.
  - assert (X : raising E base inp k = true) by (unfold raising; now rewrite Q, B). inversion R; subst; try reflexivity; try congruence. lia.
  - inversion R; subst; try reflexivity; try congruence; [lia|]. assert (k' = k'0) by congruence. subst. auto.
Qed.
Lemma asks_raise E base inp k h o r : std_asks (code_host E) base inp k h o -> host_raises E h o = true -> lruns E base inp k r -> r = None.
Proof.
  intros A B. revert r. induction A as [k L S1 S2|k k' h o L S A IH]; intros r R.
  - assert (X : raising E base inp k = true) by (unfold raising; rewrite (proj2 (asks_iff base inp k) (conj S1 S2)), B; apply orb_true_r).
    inversion R; subst; try reflexivity; try congruence. lia.
  - inversion R; subst; try reflexivity; try congruence; [lia|]. assert (k' = k'0) by congruence. subst. auto.
Qed.
Lemma outcome3_none r : outcome3 r = None <-> r = Err EValue.
Proof. destruct r as [u|[]]; cbn; split; congruence. Qed.
Lemma outcome3_some r x : outcome3 r = Some x -> x = outcome r.
Proof. destruct r as [u|[]]; cbn; congruence. Qed.
Lemma too_long_iff E b : too_long E b = true <-> ~ short_for (int_limit E) b.
Proof. unfold too_long, short_for. destruct (int_limit E) as [l|]; [lia|]. split; [discriminate|tauto]. Qed.
Lemma host_raises_iff E h o : host_raises E h o = true <-> snd (host_parse E h o) = Err EValue.
Proof. unfold host_raises. destruct (snd (host_parse E h o)) as [x|[]]; split; congruence. Qed.

(** a port text is a part of the input *)
Definition port_inv (k : cfg) : Prop := k_state k = S_port -> (length (k_buf k) <= k_ptr k)%nat.
Lemma port_step hp base inp k k' : parser_step hp base inp k = Some k' -> port_inv k -> port_inv k'.
Proof.
  destruct k as [st p buf a br pw u]. unfold parser_step. cbn [k_state k_ptr k_buf k_at k_br k_pw k_url]. intros H I.
  destruct st; unfold port_inv in I; cbn [k_state k_ptr k_buf] in I;
  repeat match goal with
    | H : context [match ?x with _ => _ end] |- _ =>
        lazymatch x with context [match _ with _ => _ end] => fail | _ => destruct x eqn:? end; try discriminate H
    end; injection H as <-; unfold port_inv; cbn [k_state k_ptr k_buf]; intros; try discriminate; try (cbn; lia).
  rewrite app_length. specialize (I eq_refl). cbn [length]. lia.
Qed.
Lemma reads_len hp base inp k b : std_reads hp base inp k b -> port_inv k -> (length b <= length inp)%nat.
Proof.
  intros A. induction A as [k L Q|k k' b L S A IH]; intros I.
  - unfold std_port_ends in Q. specialize (I ltac:(destruct (k_state k); congruence)). lia.
  - apply IH. eapply port_step; eassumption.
Qed.
Lemma port_read_short hp base s b limit : short_for limit s -> std_port_read hp base s b -> short_for limit b.
Proof.
  intros HL H. apply reads_len in H; [|discriminate]. rewrite input_eq in H. pose proof (clean_len s). unfold short_for in *. destruct limit; [lia|exact I].
Qed.

Lemma run_new E s base : scalar_string s -> base_ok base -> lruns E base (std_input s) (mkcfg S_scheme_start 0 [] false false false new_url) (outcome3 (std_main E base (clean s))).
Proof.
  intros [H1 H2] BO. rewrite input_eq. apply r_main; [|exact BO]. apply clean_sv. apply Forall_forall. unfold is_pystr, surrogate_free in *. rewrite Forall_forall in H1, H2. auto.
Qed.
Lemma new_flat E s base enc : normalize_encoding E enc = $"utf-8" -> base_ok base -> snd (parse_new E s base enc) = flat_main E base $"utf-8" (clean s).
Proof. intros He BO. rewrite parse_new_flat by exact BO. unfold flat_parse. now rewrite He. Qed.
(** ValueError: a port text that is too long, or the host parser raises it *)
Theorem new_raises E s base enc : normalize_encoding E enc = $"utf-8" -> scalar_string s -> std_good_base base ->
  (snd (parse_new E s base enc) = Err EValue <->
   (exists b, std_port_read (code_host E) base s b /\ ~ short_for (int_limit E) b) \/
   (exists h o, std_host_of (code_host E) base s h o /\ snd (host_parse E h o) = Err EValue)).
Proof.
  intros He Hs HB. apply base_good in HB. rewrite (new_flat E s base enc He HB). pose proof (run_new E s base Hs HB) as R.
  assert (F : flat_main E base $"utf-8" (clean s) = Err EValue <-> std_main E base (clean s) = Err EValue).
  { destruct (file_only base s) eqn:Q; [|now rewrite (std_main_code E base s HB Q)]. pose proof Q as Q'. unfold file_only in Q'. destruct base as [b|]; [|discriminate].
    destruct (std_main_only E (Some b) s b HB eq_refl Q) as [C D]. rewrite C, D. split; discriminate. }
  rewrite F, <- outcome3_none. split.
  - intros N. rewrite N in R. apply lruns_std in R. destruct R as [(b & A & B)|(_ & h & o & A & B)].
    + left. exists b. split; [exact A|now apply too_long_iff].
    + right. exists h, o. split; [exact A|now apply host_raises_iff].
  - intros [(b & A & B)|(h & o & A & B)].
    + eapply reads_raise; [exact A|now apply too_long_iff|exact R].
    + eapply asks_raise; [exact A|now apply host_raises_iff|exact R].
Qed.
Lemma conforms_new E s base enc : normalize_encoding E enc = $"utf-8" -> scalar_string s -> (forall b, std_port_read (code_host E) base s b -> short_for (int_limit E) b) -> base_ok base ->
  std_basic_parse (code_host E) base s (outcome (std_main E base (clean s))) /\
  snd (parse_new E s base enc) = flat_main E base $"utf-8" (clean s).
Proof.
  intros He Hs HL BO. split; [|now apply new_flat]. pose proof (lruns_std _ _ _ _ _ (run_new E s base Hs BO)) as R.
  destruct (outcome3 (std_main E base (clean s))) as [x|] eqn:Q.
  - apply outcome3_some in Q. subst x. exact R.
  - apply outcome3_none in Q. rewrite Q. destruct R as [(b & A & B)|[R _]]; [|exact R]. apply HL in A. apply too_long_iff in B. contradiction.
Qed.
(** the whole parser, for the inputs where the code follows the standard *)
Theorem conforms_ports E s base enc : normalize_encoding E enc = $"utf-8" -> scalar_string s -> (forall b, std_port_read (code_host E) base s b -> short_for (int_limit E) b) -> std_good_base base ->
  file_only base s = false -> forall r, std_basic_parse (code_host E) base s r <-> r = outcome (snd (parse_new E s base enc)).
Proof.
  intros He Hs HL HB HF r. apply base_good in HB. destruct (conforms_new E s base enc He Hs HL HB) as [A B]. rewrite B.
  rewrite (std_main_code E base s HB HF) in A. split; [|intros ->; exact A]. intros H. eapply std_runs_det; [exact H|exact A].
Qed.
Theorem conforms_basic E s base enc : normalize_encoding E enc = $"utf-8" -> scalar_string s -> short_for (int_limit E) s -> std_good_base base ->
  file_only base s = false -> forall r, std_basic_parse (code_host E) base s r <-> r = outcome (snd (parse_new E s base enc)).
Proof. intros He Hs HL. apply conforms_ports; auto. intros b. now apply port_read_short. Qed.
(** no authority is read there *)
Theorem conforms_file_only E s b enc : normalize_encoding E enc = $"utf-8" -> scalar_string s -> std_good_base (Some b) ->
  file_only (Some b) s = true -> exists v, std_basic_parse (code_host E) (Some b) s (Some v) /\ snd (parse_new E s (Some b) enc) = Ok (std_append [] v).
Proof.
  intros He Hs HB HF. apply base_good in HB. pose proof (run_new E s (Some b) Hs HB) as R. destruct (std_main_only E (Some b) s b HB eq_refl HF) as [C D].
  rewrite C in R. apply lruns_std in R. rewrite (new_flat E s (Some b) enc He HB), D. exists (file_base_url b file_url). split; [exact R|reflexivity].
Qed.

Lemma parsed_good E t enc u : normalize_encoding E enc = $"utf-8" -> is_pystr t -> snd (parse_new E t None enc) = Ok u -> std_good_base (Some u).
Proof.
  intros He Ht Q. assert (W : wf (hostval E) u) by (eapply (parse_new_wf E t None enc u); eauto; [rewrite He; now left|exact I]).
  apply (wf_base_ok (hostval E) (Some u)) in W. cbn. intros S. apply special_spec in S. specialize (W S). rewrite (path_list u W). eauto.
Qed.
Theorem conforms_url_ports E s base enc : normalize_encoding E enc = $"utf-8" -> scalar_string s -> good_base_arg None base ->
  (forall b, arg_port_read (code_host E) base s b -> short_for (int_limit E) b) ->
  not_file_only (code_host E) base s -> forall r, std_url_parse (code_host E) s base r <-> r = outcome (snd (parse_url E s base enc)).
Proof.
  intros He Hs HB HL HF r. destruct base as [|t|b].
  - rewrite parse_url_none. rewrite <- (conforms_ports E s None enc He Hs HL I eq_refl r). split; [now inversion 1|now constructor].
  - cbn in HB. destruct HB as [Ht _]. rewrite parse_url_str. cbn [arg_port_read] in HL.
    pose proof (conforms_ports E t None enc He Ht (fun b A => HL b (or_introl A)) I eq_refl) as CB.
    destruct (snd (parse_new E t None enc)) as [u|e] eqn:Q; cbn [outcome] in CB.
    + pose proof (parsed_good E t enc u He (proj1 Ht) Q) as GB.
      assert (X : std_basic_parse (code_host E) None t (Some u)) by now apply CB.
      assert (HL2 : forall b, std_port_read (code_host E) (Some u) s b -> short_for (int_limit E) b) by (intros b A; apply HL; right; eauto).
      pose proof (conforms_ports E s (Some u) enc He Hs HL2 GB (HF u X)) as CS. rewrite <- CS. split.
      * inversion 1 as [| |? b ? P1 P2|? P]; subst.
        -- apply CB in P1. injection P1 as ->. exact P2.
        -- apply CB in P. discriminate.
      * intros H. eapply sup_str; eauto.
    + cbn [outcome]. split.
      * inversion 1 as [| |? b ? P1 P2|? P]; subst; [|reflexivity]. apply CB in P1. discriminate.
      * intros ->. apply sup_fail. now apply CB.
  - rewrite parse_url_rec. rewrite <- (conforms_ports E s (Some b) enc He Hs HL HB HF r). split; [now inversion 1|now constructor].
Qed.
Lemma arg_read_short hp base s b limit : short_for limit s -> good_base_arg limit base -> arg_port_read hp base s b -> short_for limit b.
Proof.
  intros HL HB A. destruct base as [|t|u]; cbn [arg_port_read] in A; [eapply port_read_short; eassumption| |eapply port_read_short; eassumption].
  destruct HB as [_ Lt]. destruct A as [A|(u & _ & A)]; [exact (port_read_short _ _ _ _ _ Lt A)|exact (port_read_short _ _ _ _ _ HL A)].
Qed.
Theorem conforms_url E s base enc : normalize_encoding E enc = $"utf-8" -> scalar_string s -> short_for (int_limit E) s -> good_base_arg (int_limit E) base ->
  not_file_only (code_host E) base s -> forall r, std_url_parse (code_host E) s base r <-> r = outcome (snd (parse_url E s base enc)).
Proof.
  intros He Hs HL HB HF. apply conforms_url_ports; auto.
  - destruct base as [|t|u]; [exact I| |exact HB]. exact (conj (proj1 HB) I).
  - intros b. now apply arg_read_short.
Qed.
Theorem url_raises E s base enc : normalize_encoding E enc = $"utf-8" -> scalar_string s -> good_base_arg None base ->
  (snd (parse_url E s base enc) = Err EValue <->
   (exists b, arg_port_read (code_host E) base s b /\ ~ short_for (int_limit E) b) \/
   (exists h o, arg_host_of (code_host E) base s h o /\ snd (host_parse E h o) = Err EValue)).
Proof.
  intros He Hs HB. destruct base as [|t|u]; cbn [arg_port_read arg_host_of].
  - rewrite parse_url_none. now apply new_raises.
  - destruct HB as [Ht _]. rewrite parse_url_str. pose proof (new_raises E t None enc He Ht I) as RT.
    assert (NB : snd (parse_new E t None enc) <> Err EValue -> forall u, std_basic_parse (code_host E) None t (Some u) <-> Some u = outcome (snd (parse_new E t None enc))).
    { intros NE u. apply (conforms_ports E t None enc He Ht); [|exact I|reflexivity]. intros b A. destruct (too_long E b) eqn:Q.
      - exfalso. apply NE, RT. left. exists b. split; [exact A|now apply too_long_iff].
      - unfold too_long in Q. unfold short_for. destruct (int_limit E); [lia|trivial]. }
    assert (NN : snd (parse_new E t None enc) = Err EValue -> (exists b, std_port_read (code_host E) None t b /\ ~ short_for (int_limit E) b) \/
      (exists h o, std_host_of (code_host E) None t h o /\ snd (host_parse E h o) = Err EValue)) by apply RT.
    destruct (snd (parse_new E t None enc)) as [v|e] eqn:Q.
    + specialize (NB ltac:(discriminate)). cbn [outcome] in NB. rewrite (new_raises E s (Some v) enc He Hs (parsed_good E t enc v He (proj1 Ht) Q)). split.
      * intros [(b & A & B)|(h & o & A & B)]; [left; exists b|right; exists h, o]; (split; [right; exists v; split; [now apply NB|exact A]|exact B]).
      * intros [(b & [A|(u & P & A)] & B)|(h & o & [A|(u & P & A)] & B)].
        -- exfalso. assert (X : Ok v = Err EValue) by (apply RT; left; eauto). discriminate X.
        -- apply NB in P. injection P as ->. left. eauto.
        -- exfalso. assert (X : Ok v = Err EValue) by (apply RT; right; eauto). discriminate X.
        -- apply NB in P. injection P as ->. right. eauto.
    + split.
      * intros X. injection X as ->. destruct (NN eq_refl) as [(b & A & B)|(h & o & A & B)]; [left; exists b|right; exists h, o]; (split; [now left|exact B]).
      * intros X. destruct (outcome3 (Err e)) as [oc|] eqn:Y; [|apply outcome3_none in Y; exact Y]. exfalso.
        assert (NE : @Err urlrec e <> Err EValue) by (intros Z; apply outcome3_none in Z; congruence). specialize (NB NE). cbn [outcome] in NB.
        destruct X as [(b & [A|(u & P & A)] & B)|(h & o & [A|(u & P & A)] & B)].
        -- apply NE, RT. left. eauto.
        -- apply NB in P. discriminate P.
        -- apply NE, RT. right. eauto.
        -- apply NB in P. discriminate P.
  - rewrite parse_url_rec. now apply new_raises.
Qed.

(** the standard's parser, run *)
Fixpoint std_exec (fuel : nat) (hp : str -> bool -> option host) (base : option urlrec) (inp : str) (k : cfg) : option (option urlrec) :=
  match fuel with
  | O => None
  | S n =>
      if (length inp <? k_ptr k)%nat then Some (Some (k_url k))
      else match parser_step hp base inp k with None => Some None | Some k' => std_exec n hp base inp k' end
  end.
Lemma std_exec_runs fuel hp base inp : forall k r, std_exec fuel hp base inp k = Some r -> std_runs hp base inp k r.
Proof.
  induction fuel as [|n IH]; intros k r H; [discriminate|]. cbn [std_exec] in H. destruct (length inp <? k_ptr k)%nat eqn:Q.
  - injection H as <-. apply runs_end. lia.
  - destruct (parser_step hp base inp k) as [k'|] eqn:P.
    + eapply runs_step; [lia|exact P|]. now apply IH.
    + injection H as <-. apply runs_fail; [lia|exact P].
Qed.
Lemma std_exec_parse fuel hp base s r : std_exec fuel hp base (std_input s) (mkcfg S_scheme_start 0 [] false false false new_url) = Some r -> std_basic_parse hp base s r.
Proof. apply std_exec_runs. Qed.
Theorem long_port_raises E s base enc b : normalize_encoding E enc = $"utf-8" -> scalar_string s -> good_base_arg None base ->
  arg_port_read (code_host E) base s b -> ~ short_for (int_limit E) b -> snd (parse_url E s base enc) = Err EValue.
Proof. intros He Hs Hb R L. apply url_raises; auto. left. eauto. Qed.
(** the ports that a run reads, computed *)
Fixpoint reads_list (n : nat) (hp : list N -> bool -> option host) (base : option urlrec) (inp : list N) (k : cfg) : list (list N) :=
  match n with
  | O => []
  | S n' => if (k_ptr k <=? length inp)%nat then
      (if std_port_ends inp k then [k_buf k] else []) ++ match parser_step hp base inp k with Some k' => reads_list n' hp base inp k' | None => [] end
    else []
  end.
Lemma reads_list_sound n hp base inp : forall k b, In b (reads_list n hp base inp k) -> std_reads hp base inp k b.
Proof.
  induction n as [|n IH]; intros k b H; [destruct H|]. cbn [reads_list] in H. destruct (k_ptr k <=? length inp)%nat eqn:L; [|destruct H]. apply Nat.leb_le in L. apply in_app_or in H as [H|H].
  - destruct (std_port_ends inp k) eqn:P; [|destruct H]. destruct H as [<-|[]]. now apply reads_here.
  - destruct (parser_step hp base inp k) as [k'|] eqn:S; [|destruct H]. eapply reads_later; eauto.
Qed.
Lemma reads_computed n hp base s b :
  reads_list n hp base (std_input s) (mkcfg S_scheme_start 0 [] false false false new_url) = [b] -> std_port_read hp base s b.
Proof. intros H. apply (reads_list_sound n). rewrite H. now left. Qed.
(** does the run stop within [n] steps? *)
Fixpoint stops_in (n : nat) (hp : list N -> bool -> option host) (base : option urlrec) (inp : list N) (k : cfg) : bool :=
  match n with
  | O => false
  | S n' => if (k_ptr k <=? length inp)%nat then match parser_step hp base inp k with Some k' => stops_in n' hp base inp k' | None => true end else true
  end.
Lemma reads_all n hp base inp : forall k b, stops_in n hp base inp k = true -> std_reads hp base inp k b -> In b (reads_list n hp base inp k).
Proof.
  induction n as [|n IH]; intros k b H R; [discriminate H|]. cbn [stops_in reads_list] in *. destruct R as [k L P|k k' b L S R]; rewrite (proj2 (Nat.leb_le _ _) L) in *; apply in_or_app.
  - left. rewrite P. now left.
  - right. rewrite S in *. now apply IH.
Qed.
Lemma reads_list_complete n hp base s b :
  stops_in n hp base (std_input s) (mkcfg S_scheme_start 0 [] false false false new_url) = true -> std_port_read hp base s b ->
  In b (reads_list n hp base (std_input s) (mkcfg S_scheme_start 0 [] false false false new_url)).
Proof. intros H. now apply reads_all. Qed.
