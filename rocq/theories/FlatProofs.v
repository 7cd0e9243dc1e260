(** The state machine of Parser.v computes what FlatParser.v describes. *)
From Coq Require Import Ascii String.
From Coq Require Import NArith ZArith Bool Arith Lia ZifyBool ZifyN ZifyNat List.
From Verif Require Import PyStr PyInt Codec Env HostModel UrlRecord Parser SpecText FlatParser.
From Verif Require Import Lemmas CodecProofs QuoteProofs LoopProofs.
Import ListNotations.
Open Scope N_scope.

Section Fsm.
Context (E : env) (base : option urlrec) (enc : str).

Definition fsm (n : nat) (st : pstate) (rest : str) (u : urlrec) : res urlrec :=
  out (run (run_fsm n E base enc None st rest) u).

Lemma fsm_eof n rest u : fsm n EOF rest u = Ok u.
Proof. unfold fsm. destruct n; reflexivity. Qed.
Lemma fsm_step n st rest u : st <> EOF ->
  fsm (S n) st rest u =
  match snd (run (step E base enc None st rest) u) with
  | Ok r => fsm n (fst r) (skipn (snd r) rest) (fst (run (step E base enc None st rest) u))
  | Err e => Err e
  end.
Proof.
  intros H. unfold fsm.
  assert (G : run_fsm (S n) E base enc None st rest =
    bind (step E base enc None st rest) (fun r => run_fsm n E base enc None (fst r) (skipn (snd r) rest)))
    by (destruct st; try reflexivity; congruence).
  rewrite G, run_bind. destruct (snd (run _ u)); reflexivity.
Qed.

Ltac st := rewrite fsm_step by discriminate; cbn [step].

Lemma fsm_fragment n rest u : fragment u = Some [] ->
  fsm (S n) FRAGMENT rest u = Ok (set_fragment (Some (enc_fragment rest)) u).
Proof. intros H. st. rewrite (run_fragment _ _ []) by auto. cbn [fst snd]. apply fsm_eof. Qed.
Lemma fsm_fragment_nil n u : fsm (S n) FRAGMENT [] u = Ok u.
Proof. st. unfold parse_fragment. cbn [fragment_loop]. rn. apply fsm_eof. Qed.
Lemma not_hash_none c : not_hash None c = negb (c =? 35).
Proof. reflexivity. Qed.
Lemma fsm_query n rest u : fsm (S (S n)) QUERY rest (set_query (Some []) u) = flat_query E enc u rest.
Proof.
  st. unfold parse_query. rewrite (run_query_loop _ _ _ _ _ _ _ []) by reflexivity.
  unfold flat_query. rewrite (span_ext _ (fun c => negb (c =? 35))) by exact not_hash_none.
  destruct (span (fun c => negb (c =? 35)) rest) as [q t] eqn:Q. cbn [app].
  change (enc_query E enc (set_query (Some []) u) q) with (enc_query E enc u q).
  destruct (enc_query E enc u q) as [x|]; [|reflexivity]. cbn [app]. cbv zeta.
  pose proof (skipn_span (fun c => negb (c =? 35)) rest) as K1.
  pose proof (skipn_span1 (fun c => negb (c =? 35)) rest) as K2. rewrite Q in K1, K2. cbn [fst snd] in K1, K2.
  destruct t as [|c t]; cbn [fst snd].
  - cbn [Nat.add]. rewrite K1. rewrite fsm_fragment_nil. reflexivity.
  - cbn [Nat.add]. rewrite K2. cbn [tl]. rewrite fsm_fragment by reflexivity. reflexivity.
Qed.

(** where the machine goes at the end of a path *)
Definition goto_tail (n : nat) (u : urlrec) (t : str) : res urlrec :=
  match t with
  | [] => Ok u
  | c :: r => if c =? 63 then fsm (S (S n)) QUERY r (set_query (Some []) u)
              else fsm (S (S n)) FRAGMENT r (set_fragment (Some []) u)
  end.
Lemma goto_tail_eq n u t : goto_tail n u t = flat_tail E enc u t.
Proof.
  unfold goto_tail, flat_tail. destruct t as [|c r]; [reflexivity|].
  destruct (c =? 63); [apply fsm_query|]. rewrite fsm_fragment by reflexivity. reflexivity.
Qed.

Lemma in_path_none c : in_path None c = negb (is_qf c).
Proof. reflexivity. Qed.
Lemma fsm_path n rest u l : path u = PList l -> fsm (S (S (S n))) PATH rest u = flat_path E enc u rest.
Proof.
  intros H. st. unfold parse_path. rewrite (run_path_loop _ _ _ _ _ l) by (auto; constructor).
  unfold flat_path. rewrite (span_ext _ (fun c => negb (is_qf c))) by exact in_path_none.
  destruct (span (fun c => negb (is_qf c)) rest) as [p t] eqn:Q. cbn [app]. cbv zeta.
  assert (HP : path_segs u = l) by (unfold path_segs; now rewrite H). rewrite HP.
  pose proof (skipn_span (fun c => negb (is_qf c)) rest) as K1.
  pose proof (skipn_span1 (fun c => negb (is_qf c)) rest) as K2. rewrite Q in K1, K2. cbn [fst snd] in K1, K2.
  rewrite <- (goto_tail_eq n). destruct t as [|c t]; cbn [goto_tail].
  - cbn [fst snd Nat.add]. rewrite K1. st. unfold parse_opaque_path. cbn [opaque_path_loop]. rn. apply fsm_eof.
  - destruct (c =? 63); cbn [fst snd Nat.add]; rewrite K2; reflexivity.
Qed.
Lemma fsm_opaque n rest u : path u = POpaque [] -> fsm (S (S (S n))) OPAQUE_PATH rest u = flat_opaque E enc u rest.
Proof.
  intros H. st. unfold parse_opaque_path. rewrite (run_opaque_loop _ _ _ []) by auto.
  unfold flat_opaque. destruct (span (fun c => negb (is_qf c)) rest) as [p t] eqn:Q. cbn [app]. cbv zeta.
  pose proof (skipn_span (fun c => negb (is_qf c)) rest) as K1.
  pose proof (skipn_span1 (fun c => negb (is_qf c)) rest) as K2. rewrite Q in K1, K2. cbn [fst snd] in K1, K2.
  rewrite <- (goto_tail_eq n). destruct t as [|c t]; cbn [goto_tail].
  - cbn [fst snd Nat.add]. apply fsm_eof.
  - destruct (c =? 63); cbn [fst snd Nat.add]; rewrite K2; reflexivity.
Qed.
Lemma qf_eq c : is_qf c = (c =? 63) || (c =? 35).
Proof. unfold is_qf. change ($"?#") with [63; 35]. cbn [mem existsb]. lia. Qed.
Lemma slash_eq c : is_slash c = (c =? 47) || (c =? 92).
Proof. unfold is_slash. change ($"/\") with [47; 92]. cbn [mem existsb]. lia. Qed.
Lemma fsm_path_start n rest u l : path u = PList l ->
  fsm (S (S (S (S n)))) PATH_START rest u = flat_path_start E enc u rest.
Proof.
  intros H. st. unfold parse_path_start, flat_path_start. rn. cbv zeta.
  destruct rest as [|c t]; cbn [cur isc iscp iseof negb].
  - destruct (is_special u); rn.
    + cbn [skipn]. now rewrite (fsm_path _ _ _ l).
    + cbn [overridden andb negb when]. rn. apply fsm_eof.
  - destruct (is_special u); rn.
    + fold (is_slash c). rewrite (fsm_path _ _ _ l) by auto. destruct (is_slash c); reflexivity.
    + cbn [overridden negb andb]. rewrite qf_eq. destruct (c =? 63) eqn:C1; rn.
      { cbn [orb]. rewrite <- (goto_tail_eq (S n)). cbn [goto_tail skipn]. now rewrite C1. }
      destruct (c =? 35) eqn:C2; rn.
      { cbn [orb]. rewrite <- (goto_tail_eq (S n)). cbn [goto_tail skipn]. now rewrite C1. }
      cbn [orb]. rewrite (fsm_path _ _ _ l) by auto. destruct (c =? 47); reflexivity.
Qed.

(** [t] is empty or starts with a character that ends the authority *)
Definition auth_stop (sp : bool) (t : str) : Prop := match t with [] => True | c :: _ => ends_auth sp c = true end.
Lemma digit_not_end sp c : ends_auth sp c = true -> mem c ASCII_DIGITS = false.
Proof.
  intros H. apply mem_not_In. intros I. unfold ends_auth in H. change ($"/?#") with [47; 63; 35] in H.
  cbn [mem existsb] in H. cbn in I. destruct sp; cbn [andb] in H; lia.
Qed.
Lemma set_port_none u : port u = None -> set_port None u = u.
Proof. destruct u; cbn. now intros ->. Qed.
Lemma fsm_port n ps t u l : path u = PList l -> port u = None ->
  Forall (fun c => ends_auth (is_special u) c = false) ps -> auth_stop (is_special u) t ->
  fsm (S (S (S (S (S n))))) PORT (ps ++ t) u =
  rbind (flat_port E (scheme u) ps) (fun p => flat_path_start E enc (set_port p u) t).
Proof.
  intros H HP Hps Ht. st. unfold parse_port. rewrite run_port_loop. unfold flat_port.
  destruct (forallb (fun c => mem c ASCII_DIGITS) ps) eqn:D.
  - rewrite span_app.
    2:{ apply Forall_forall. now rewrite forallb_forall in D. }
    2:{ destruct t as [|c t]; [exact I|]. now apply digit_not_end in Ht. }
    assert (TT : match t with [] => true | c :: _ => ends_auth (is_special u) c || overridden None end = true).
    { destruct t as [|c t]; [reflexivity|]. unfold auth_stop in Ht. now rewrite Ht. }
    rewrite TT. cbn [app Nat.add]. unfold port_end. cbn [overridden]. rn.
    destruct ps as [|d ps].
    + rn. cbn [length skipn app]. rewrite (fsm_path_start _ _ _ l) by auto. cbn [rbind]. now rewrite set_port_none by auto.
    + destruct (e_int E (d :: ps) 10) as [z|]; [|rn; reflexivity].
      cbv zeta. destruct (65535 <? Z.to_N z); rn; [reflexivity|].
      assert (SK : skipn (length (d :: ps)) ((d :: ps) ++ t) = t) by (rewrite skipn_app, skipn_all, Nat.sub_diag; reflexivity).
      destruct (on_eqb (default_port (scheme u)) (Some (Z.to_N z))); rn; rewrite SK; cbn [rbind];
        rewrite (fsm_path_start _ _ _ l) by auto; reflexivity.
  - (* some non-digit *)
    destruct (span (fun c => mem c ASCII_DIGITS) ps) as [d r] eqn:SS.
    pose proof (span_eq (fun c => mem c ASCII_DIGITS) ps) as Q. pose proof (span_all (fun c => mem c ASCII_DIGITS) ps) as A.
    pose proof (span_stop (fun c => mem c ASCII_DIGITS) ps) as St. rewrite SS in Q, A, St. cbn [fst snd] in *.
    destruct r as [|x r].
    + exfalso. rewrite app_nil_r in Q. subst d. rewrite Forall_forall in A. rewrite <- forallb_forall in A. congruence.
    + rewrite Q, <- app_assoc, span_app; [|exact A|exact St].
      cbn [app]. rewrite Q in Hps. apply Forall_app in Hps as [_ Hps]. inversion Hps; subst.
      rewrite H2. reflexivity.
Qed.
Lemma host_cut_eq br a : a = fst (host_cut br a) ++ match snd (host_cut br a) with Some ps => 58 :: ps | None => [] end.
Proof.
  revert br; induction a as [|c a IH]; intros br; [reflexivity|]. cbn [host_cut].
  destruct ((c =? 58) && negb br) eqn:C.
  - apply andb_true_iff in C as [C _]. apply N.eqb_eq in C as ->. reflexivity.
  - specialize (IH (if c =? 91 then true else if c =? 93 then false else br)).
    destruct (host_cut _ a) as [h p]. cbn [fst snd] in *. cbn [app]. now f_equal.
Qed.
Lemma ends_auth_58 sp c : ends_auth sp c = true -> (c =? 58) = false.
Proof.
  intros H. destruct (c =? 58) eqn:Q; [|reflexivity]. apply N.eqb_eq in Q as ->. unfold ends_auth in H. destruct sp; discriminate.
Qed.
Lemma fsm_host n a t u l : path u = PList l -> port u = None ->
  Forall (fun c => ends_auth (is_special u) c = false) a -> auth_stop (is_special u) t ->
  fsm (S (S (S (S (S (S n)))))) HOST (a ++ t) u = flat_host E enc u a t.
Proof.
  intros H HP Ha Ht. st. unfold parse_host. cbn [overridden andb]. rn. rewrite run_host_loop, host_scan_cut by auto.
  unfold flat_host. pose proof (host_cut_eq false a) as Q. destruct (host_cut false a) as [h [ps|]]; cbn [fst snd] in Q.
  - cbn [app Nat.add cur isc is_hostname_override N.eqb Pos.eqb]. destruct (length h =? 0)%nat; [reflexivity|].
    destruct (snd (host_parse E h (is_not_special u))) as [x|e]; [|reflexivity]. cbn [fst snd rbind].
    assert (SK : skipn (S (length h)) (a ++ t) = ps ++ t).
    { rewrite Q, <- app_assoc. rewrite skipn_app, skipn_all2 by lia.
      replace (S (length h) - length h)%nat with 1%nat by lia. reflexivity. }
    rewrite SK. rewrite Q in Ha. apply Forall_app in Ha as [_ Ha]. inversion Ha; subst.
    rewrite (fsm_port _ _ _ _ l); auto.
  - rewrite app_nil_r in Q. subst h. cbn [app Nat.add].
    assert (C : isc (cur t) 58 = false).
    { destruct t as [|c t]; [reflexivity|]. cbn [cur isc]. now apply ends_auth_58 in Ht. }
    rewrite C. unfold host_end. rn. destruct (is_special u && (length a =? 0)%nat); [rn; reflexivity|].
    cbn [overridden andb]. rn. destruct (snd (host_parse E a (is_not_special u))) as [x|e]; [|reflexivity].
    rn. cbn [rbind]. rewrite skipn_app, skipn_all, Nat.sub_diag. cbn [app skipn].
    now rewrite (fsm_path_start _ _ _ l).
Qed.

(** a record that has no more than a scheme *)
Definition bare (u : urlrec) : Prop := u = set_scheme (scheme u) new_url.
Lemma bare_set s : bare (set_scheme s new_url). Proof. reflexivity. Qed.
Lemma set_creds_bare ui u : username u = [] -> password u = [] -> add_creds false ui u = set_creds ui u.
Proof. intros H1 H2. unfold add_creds, set_creds. rewrite H1, H2. destruct (split_first 58 ui). reflexivity. Qed.

Lemma fsm_authority n rest u : bare u ->
  fsm (S (S (S (S (S (S (S n))))))) AUTHORITY rest u = flat_authority E enc u rest.
Proof.
  intros B. st. unfold parse_authority. rn. rewrite run_authority_loop by (cbn; lia).
  unfold flat_authority. destruct (span (fun c => negb (ends_auth (is_special u) c)) rest) as [a t] eqn:SS.
  pose proof (span_eq (fun c => negb (ends_auth (is_special u) c)) rest) as Q.
  pose proof (span_all (fun c => negb (ends_auth (is_special u) c)) rest) as A.
  pose proof (span_stop (fun c => negb (ends_auth (is_special u) c)) rest) as St. rewrite SS in Q, A, St. cbn [fst snd] in *.
  assert (A' : Forall (fun c => ends_auth (is_special u) c = false) a).
  { eapply Forall_impl; [|exact A]. cbv beta. intros c Hc. now apply negb_true_iff. }
  assert (St' : auth_stop (is_special u) t).
  { unfold auth_stop. destruct t; auto. now apply negb_false_iff. }
  clear A St. cbn [length Nat.sub app at_prefix andb].
  pose proof (split_last_spec 64 a) as SL. destruct (split_last 64 a) as [[ui hp]|].
  - cbv zeta. destruct SL as [-> _]. destruct (length hp =? 0)%nat; [reflexivity|]. cbn [fst snd Nat.add]. rn.
    assert (SK : skipn (S (length ui)) rest = hp ++ t).
    { rewrite Q, <- app_assoc. rewrite skipn_app, skipn_all2 by lia.
      replace (S (length ui) - length ui)%nat with 1%nat by lia. reflexivity. }
    rewrite SK, set_creds_bare by (rewrite B; reflexivity).
    apply Forall_app in A' as [_ A']. inversion A'; subst.
    assert (SP : is_special (set_creds ui u) = is_special u) by (unfold set_creds; destruct (split_first 58 ui); reflexivity).
    apply (fsm_host _ _ _ _ []); try rewrite SP; auto; unfold set_creds; destruct (split_first 58 ui); rewrite B; reflexivity.
  - cbn [fst snd]. rn. cbn [skipn]. rewrite Q. apply (fsm_host _ _ _ _ []); auto; rewrite B; reflexivity.
Qed.
Lemma fsm_ignore n rest u : bare u ->
  fsm (8 + n) SPECIAL_AUTHORITY_IGNORE_SLASHES rest u = flat_authority E enc u (drop_while is_slash rest).
Proof.
  intros B. cbn [Nat.add]. st. unfold parse_ignore_slashes. rewrite run_ignore_slashes. cbn [fst snd Nat.add].
  rewrite skipn_span, span_drop. now apply fsm_authority.
Qed.
Lemma sw2 t : starts_with $"//" t = true -> exists r, t = 47 :: 47 :: r.
Proof. intros H. apply starts_with_iff in H as [r ->]. now exists r. Qed.
Lemma drop_slash2 r : drop_while is_slash (47 :: 47 :: r) = drop_while is_slash r.
Proof. reflexivity. Qed.
Lemma fsm_slashes n rest u : bare u ->
  fsm (9 + n) SPECIAL_AUTHORITY_SLASHES rest u = flat_authority E enc u (drop_while is_slash rest).
Proof.
  intros B. cbn [Nat.add]. st. unfold parse_special_authority_slashes.
  destruct (starts_with $"//" rest) eqn:Q.
  - apply sw2 in Q as [r ->]. rn. cbn [skipn]. rewrite drop_slash2. now apply (fsm_ignore n).
  - rn. cbn [skipn]. now apply (fsm_ignore n).
Qed.
Lemma fsm_poa n rest u : bare u ->
  fsm (8 + n) PATH_OR_AUTHORITY rest u =
  match rest with
  | d :: r => if d =? 47 then flat_authority E enc u r else flat_path E enc u rest
  | [] => flat_path E enc u rest
  end.
Proof.
  intros B. cbn [Nat.add]. st. unfold parse_path_or_authority.
  destruct rest as [|d r]; cbn [cur isc].
  - rn. cbn [skipn]. apply (fsm_path _ _ _ []). rewrite B; reflexivity.
  - destruct (d =? 47); rn; cbn [skipn].
    + now apply fsm_authority.
    + apply (fsm_path _ _ _ []). rewrite B; reflexivity.
Qed.

(* ---------- file ---------- *)
Lemma fsm_file_host n rest u l : path u = PList l ->
  fsm (5 + n) FILE_HOST rest u = flat_file_host E enc u rest.
Proof.
  intros H. cbn [Nat.add]. st. unfold parse_file_host. rewrite run_file_host_loop. unfold flat_file_host.
  destruct (span (fun c => negb (mem c $"/\?#")) rest) as [h t] eqn:SS.
  pose proof (skipn_span (fun c => negb (mem c $"/\?#")) rest) as K. rewrite SS in K. cbn [fst snd] in K.
  cbn [app Nat.add]. unfold file_host_end. cbn [overridden negb andb].
  destruct (is_windows_drive_letter h) eqn:D.
  - rn. rewrite Nat.sub_diag. cbn [skipn]. now rewrite (fsm_path _ _ _ l).
  - destruct h as [|c h].
    + rn. rewrite K. now rewrite (fsm_path_start _ _ _ l).
    + rn. destruct (snd (host_parse E (c :: h) (is_not_special u))) as [x|e]; [|reflexivity].
      rn. rewrite K. cbn [rbind]. rewrite (fsm_path_start _ _ _ l) by auto. reflexivity.
Qed.
Lemma fsm_file_slash n rest u l : path u = PList l ->
  fsm (6 + n) FILE_SLASH rest u = flat_file_slash E base enc u rest.
Proof.
  intros H. cbn [Nat.add]. st. unfold parse_file_slash, flat_file_slash. cbv zeta.
  assert (G : fsm (S (S (S (S (S n))))) PATH rest (file_slash_url base rest u) = flat_path E enc (file_slash_url base rest u) rest).
  { assert (exists l', path (file_slash_url base rest u) = PList l') as [l' Hl'].
    { unfold file_slash_url. destruct base as [b|]; [|eauto]. destruct (str_eqb (scheme b) _); [|eauto]. cbv zeta.
      destruct (path b) as [?|[|s ?]]; cbn [path set_host]; eauto. destruct (_ && _); cbn [path set_path]; eauto. }
    now rewrite (fsm_path _ _ _ l'). }
  assert (G2 : match snd (run (match base with
      | Some b =>
          if str_eqb (scheme b) $"file"
          then
           modify (set_host (uhost b));;
           match path b with
           | PList (s :: _) =>
               when (negb (starts_with_windows_drive_letter rest) && is_normalized_windows_drive_letter s)
                 (u <- get;; match path u with POpaque _ => raise EAssert | PList _ => path_append s end)
           | _ => ret tt
           end;; ret (PATH, 0%nat)
          else ret (PATH, 0%nat)
      | None => ret (PATH, 0%nat)
      end) u) with
      | Ok r => fsm (S (S (S (S (S n))))) (fst r) (skipn (snd r) rest) (fst (run (match base with
      | Some b =>
          if str_eqb (scheme b) $"file"
          then
           modify (set_host (uhost b));;
           match path b with
           | PList (s :: _) =>
               when (negb (starts_with_windows_drive_letter rest) && is_normalized_windows_drive_letter s)
                 (u <- get;; match path u with POpaque _ => raise EAssert | PList _ => path_append s end)
           | _ => ret tt
           end;; ret (PATH, 0%nat)
          else ret (PATH, 0%nat)
      | None => ret (PATH, 0%nat)
      end) u))
      | Err e => Err e end = flat_path E enc (file_slash_url base rest u) rest).
  { rewrite <- G. unfold file_slash_url. destruct base as [b|]; [|rn; reflexivity].
    destruct (str_eqb (scheme b) $"file"); [|rn; reflexivity]. cbv zeta. rn.
    destruct (path b) as [?|[|s ?]]; [rn; reflexivity|rn; reflexivity|].
    destruct (negb (starts_with_windows_drive_letter rest) && is_normalized_windows_drive_letter s); cbn [when]; rn; [|reflexivity].
    cbn [path set_host]. rewrite H. rewrite (run_append _ l) by exact H. rn.
    unfold path_segs. cbn [path set_host]. rewrite H. reflexivity. }
  destruct rest as [|c t]; cbn [cur iscp isc]; [exact G2|].
  fold (is_slash c). destruct (is_slash c); [|exact G2]. rn. cbn [skipn]. now apply (fsm_file_host _ _ _ l).
Qed.
Lemma fsm_file n rest u : base_ok base -> u = new_url \/ u = set_scheme $"file" new_url ->
  fsm (7 + n) FILE rest u = flat_file E base enc rest.
Proof.
  intros BO B. cbn [Nat.add]. st. unfold parse_file, flat_file. rn. cbv zeta.
  assert (FU : set_host (Some (HStr [])) (set_scheme $"file" u) = file_url) by (destruct B as [-> | ->]; reflexivity).
  rewrite FU. clear B FU u.
  assert (NO : fsm (S (S (S (S (S (S n)))))) PATH rest file_url = flat_path E enc file_url rest)
    by (apply (fsm_path _ _ _ []); reflexivity).
  assert (REL : forall b, base = Some b -> scheme b = $"file" -> exists l, path b = PList l).
  { intros b -> Hf. cbn in BO. unfold is_special in BO. rewrite Hf in BO. specialize (BO eq_refl).
    unfold has_opaque_path in BO. destruct (path b); [discriminate|eauto]. }
  destruct rest as [|c t]; cbn [cur iscp isc iseof negb].
  - destruct base as [b|]; [|rn; exact NO]. destruct (str_eqb (scheme b) $"file") eqn:F; [|rn; exact NO].
    apply str_eqb_eq in F. destruct (REL b eq_refl F) as [l HL]. rn. cbn [skipn].
    apply (fsm_path _ _ _ l). exact HL.
  - fold (is_slash c). destruct (is_slash c).
    { rn. cbn [skipn]. now apply (fsm_file_slash n _ _ []). }
    destruct base as [b|]; [|rn; exact NO]. destruct (str_eqb (scheme b) $"file") eqn:F; [|rn; exact NO].
    apply str_eqb_eq in F. destruct (REL b eq_refl F) as [l HL]. rn. rewrite qf_eq.
    destruct (c =? 63) eqn:C1; rn.
    { cbn [orb]. rewrite <- (goto_tail_eq (S (S (S (S n))))). cbn [goto_tail skipn]. rewrite C1. reflexivity. }
    destruct (c =? 35) eqn:C2; rn.
    { cbn [orb]. rewrite <- (goto_tail_eq (S (S (S (S n))))). cbn [goto_tail skipn]. rewrite C1. reflexivity. }
    cbn [orb]. destruct (starts_with_windows_drive_letter (c :: t)); cbn [negb]; rn.
    + cbn [skipn]. now rewrite (fsm_path _ _ _ []).
    + rewrite (run_shorten _ l) by exact HL. rn. cbn [skipn]. rewrite (fsm_path _ _ _ (shorten_segs $"file" l)) by reflexivity.
      unfold path_segs. rewrite HL. reflexivity.
Qed.

(* ---------- relative ---------- *)
Lemma fsm_relative_slash n rest b u : base = Some b -> bare u ->
  fsm (9 + n) RELATIVE_SLASH rest u = flat_relative_slash E b enc u rest.
Proof.
  intros HB B. cbn [Nat.add]. st. unfold parse_relative_slash, flat_relative_slash. rn. cbv zeta. rewrite HB.
  assert (NO : fsm (S (S (S (S (S (S (S (S n)))))))) PATH rest (base_auth b u) = flat_path E enc (base_auth b u) rest).
  { apply (fsm_path _ _ _ []). rewrite B. reflexivity. }
  destruct rest as [|c t]; cbn [cur iscp isc].
  - rewrite andb_false_r. rn. exact NO.
  - fold (is_slash c). destruct (is_special u && is_slash c); rn.
    + cbn [skipn]. now apply (fsm_ignore n).
    + destruct (c =? 47); rn; cbn [skipn]; [now apply fsm_authority|exact NO].
Qed.
Lemma fsm_relative n rest b u : base = Some b -> base_ok base -> has_opaque_path b = false -> scheme b <> $"file" ->
  u = new_url \/ u = set_scheme (scheme b) new_url ->
  fsm (10 + n) RELATIVE rest u = flat_relative E b enc rest.
Proof.
  intros HB BO HO NF B. cbn [Nat.add]. st. unfold parse_relative, flat_relative. rewrite HB.
  replace (str_eqb (scheme b) $"file") with false by (symmetry; now apply str_eqb_neq). rn. cbv zeta.
  assert (SU : set_scheme (scheme b) u = set_scheme (scheme b) new_url) by (destruct B as [-> | ->]; reflexivity).
  rewrite SU. clear SU B u. set (u := set_scheme (scheme b) new_url).
  assert (exists l, path b = PList l) as [l HL].
  { unfold has_opaque_path in HO. destruct (path b); [discriminate|eauto]. }
  destruct rest as [|c t]; cbn [cur isc iseof negb].
  - rewrite andb_false_r. rn. apply fsm_eof.
  - destruct (c =? 47) eqn:C; [|destruct (is_special u && (c =? 92)) eqn:C9]; cbn [orb]; rn.
    + cbn [skipn]. now apply (fsm_relative_slash n).
    + cbn [skipn]. now apply (fsm_relative_slash n).
    + rewrite qf_eq. destruct (c =? 63) eqn:C1; rn.
      { cbn [orb]. rewrite <- (goto_tail_eq (7 + n)). cbn [goto_tail skipn Nat.add]. rewrite C1. reflexivity. }
      destruct (c =? 35) eqn:C2; rn.
      { cbn [orb]. rewrite <- (goto_tail_eq (7 + n)). cbn [goto_tail skipn Nat.add]. rewrite C1. reflexivity. }
      cbn [orb]. rewrite (run_shorten _ l) by exact HL. rn. cbn [skipn].
      rewrite (fsm_path _ _ _ (shorten_segs (scheme b) l)) by reflexivity. unfold path_segs. rewrite HL. reflexivity.
Qed.

(* ---------- the start of the input ---------- *)
Lemma special_not_opaque b : base = Some b -> base_ok base -> special_scheme (scheme b) = true -> has_opaque_path b = false.
Proof. intros -> BO H. now apply BO. Qed.
Lemma fsm_no_scheme n rest : base_ok base -> fsm (11 + n) NO_SCHEME rest new_url = flat_no_scheme E base enc rest.
Proof.
  intros BO. cbn [Nat.add]. st. unfold parse_no_scheme, flat_no_scheme. cbv zeta.
  destruct base as [b|] eqn:HB; [|reflexivity].
  destruct (has_opaque_path b) eqn:HO; cbn [andb].
  - destruct rest as [|c t]; cbn [cur isc]; [reflexivity|]. destruct (c =? 35); cbn [negb]; [|reflexivity]. rn.
    cbn [skipn]. rewrite fsm_fragment by reflexivity. reflexivity.
  - rewrite <- HB. destruct (str_eqb (scheme b) $"file") eqn:F; cbn [negb]; rn; cbn [skipn].
    + apply (fsm_file (3 + n)); [now rewrite HB|now left].
    + apply (fsm_relative n); auto; [now rewrite HB|now apply str_eqb_neq].
Qed.
Lemma fsm_scheme n sch t : base_ok base ->
  match snd (run (scheme_colon base None t (S (length sch)) sch) new_url) with
  | Ok r => forall s, skipn (S (length sch)) s = t ->
            fsm (11 + n) (fst r) (skipn (snd r) s) (fst (run (scheme_colon base None t (S (length sch)) sch) new_url))
            = flat_scheme E base enc (lower sch) t
  | Err e => False
  end.
Proof.
  intros BO. unfold scheme_colon, flat_scheme. cbv zeta. cbn [overridden andb]. rn.
  set (sc := lower sch). destruct (str_eqb sc $"file") eqn:F.
  - rn. intros s HS. rewrite HS. apply (fsm_file (4 + n)); auto. right. apply str_eqb_eq in F. now rewrite F.
  - destruct (special_scheme sc) eqn:SP; cbn [andb].
    + destruct base as [b|] eqn:HB.
      * destruct (str_eqb (scheme b) sc) eqn:Q; rn; intros s HS; rewrite HS.
        -- cbn [Nat.add]. st. unfold parse_special_relative_or_authority.
           destruct (starts_with $"//" t) eqn:W; rn; cbn [negb andb].
           ++ apply sw2 in W as [r ->]. cbn [skipn]. rewrite drop_slash2. now apply (fsm_ignore (2 + n)).
           ++ cbn [skipn]. apply str_eqb_eq in Q. apply (fsm_relative n); auto.
              ** now rewrite HB.
              ** apply special_not_opaque; auto; [now rewrite HB|]. now rewrite Q.
              ** rewrite Q. now apply str_eqb_neq in F.
              ** right. now rewrite Q.
        -- cbn [andb]. now apply (fsm_slashes (2 + n)).
      * rn. intros s HS. rewrite HS. now apply (fsm_slashes (2 + n)).
    + destruct t as [|c r].
      * change (starts_with $"/" []) with false. cbv iota. rn. intros s HS. rewrite HS. rewrite (fsm_opaque (8 + n)) by reflexivity. reflexivity.
      * assert (W : starts_with $"/" (c :: r) = (c =? 47)).
        { change ($"/") with [47]. cbn [starts_with]. destruct r; rewrite andb_true_r; apply N.eqb_sym. }
        rewrite W. destruct (c =? 47); rn; intros s HS.
        -- assert (SK : skipn (S (S (length sch))) s = r).
           { change (S (S (length sch))) with (1 + S (length sch))%nat. rewrite Nat.add_comm.
             assert (G : forall a (s : str), skipn (a + 1) s = skipn 1 (skipn a s)).
             { clear. induction a as [|a IH]; intros [|x s]; auto; apply (IH s). }
             rewrite G, HS. reflexivity. }
           rewrite SK. apply (fsm_poa (3 + n)). reflexivity.
        -- rewrite HS. rewrite (fsm_opaque (8 + n)) by reflexivity. reflexivity.
Qed.
Lemma fsm_main n s : base_ok base -> fsm (12 + n) SCHEME_START s new_url = flat_main E base enc s.
Proof.
  intros BO. change (12 + n)%nat with (S (11 + n)). st. unfold flat_main, scheme_split, parse_scheme.
  destruct s as [|c t]; [cbn [overridden]; rn; now apply fsm_no_scheme|].
  destruct (mem c ASCII_ALPHA).
  - rewrite run_scheme_loop. destruct (span is_scheme_char t) as [a [|x r]] eqn:SS; cbn [overridden fst snd].
    + now apply fsm_no_scheme.
    + destruct (x =? 58); [|cbn [fst snd]; now apply fsm_no_scheme].
      change (S (1 + length a)) with (S (length (c :: a))). change ([c] ++ a) with (c :: a).
      pose proof (fsm_scheme n (c :: a) r BO) as G.
      destruct (snd (run _ new_url)); [|destruct G]. apply G.
      pose proof (skipn_span1 is_scheme_char t) as K. rewrite SS in K. cbn [fst snd tl] in K. exact K.
  - cbn [overridden]. rn. now apply fsm_no_scheme.
Qed.
End Fsm.

Lemma run_new E s base encoding : snd (parse_new E s base encoding) =
  fsm E base (normalize_encoding E encoding) FSM_FUEL SCHEME_START (clean s) new_url.
Proof.
  unfold parse_new. assert (G : forall m : M unit, snd (match m new_url with (l, (u, Ok _)) => (l, Ok u) | (l, (_, Err e)) => (l, Err e) end) = out (run m new_url)).
  { intros m. unfold out, run. destruct (m new_url) as [l [u [[]|e]]]; reflexivity. }
  rewrite G, run_bind. rn. unfold parse_into. rn. unfold fsm, clean. reflexivity.
Qed.
Theorem parse_new_flat E s base encoding : base_ok base ->
  snd (parse_new E s base encoding) = flat_parse E s base encoding.
Proof. intros BO. rewrite run_new. unfold flat_parse. now apply (fsm_main E base _ 8). Qed.
