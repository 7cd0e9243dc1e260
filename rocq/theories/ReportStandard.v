(** What the parser logs is what the machine of SpecReports.v reports. *)
From Coq Require Import Ascii String.
From Coq Require Import NArith ZArith Bool Arith Lia ZifyBool ZifyN ZifyNat List.
From Verif Require Import PyStr PyInt Codec Env HostModel UrlRecord Parser FlatParser Lemmas CodecProofs QuoteProofs LoopProofs FlatProofs
  IPv4Proofs IPv6Proofs WfProofs ParserProofs PathProofs ParamProofs SetterProofs UrlProps ValidatorProofs StandardProofs ReportProofs
  SpecText SpecHost SpecUrl SpecParser SpecReports.
Import ListNotations.
Open Scope N_scope.

Lemma rep_eq b v : rep b v = report b v. Proof. reflexivity. Qed.
Lemma unit_eq c t : unit_errs c t = std_unit_errors c t.
Proof.
  unfold unit_errs, std_unit_errors. rewrite url_cp_eq. cbn [mem existsb negb andb orb]. f_equal.
  unfold rep, report. replace (bad_percent t) with (negb (std_two_hex t)); [reflexivity|].
  unfold bad_percent, std_two_hex, std_hex_digit. destruct t as [|x [|y t]]; try reflexivity.
  cbn [length firstn existsb]. rewrite <- !hex_mem. change (S (S (length t)) <? 2)%nat with false. cbn [orb].
  destruct (mem x ASCII_HEX_DIGITS), (mem y ASCII_HEX_DIGITS); reflexivity.
Qed.

(** the code's host parser with its log *)
Definition code_host_log (E : env) (s : str) (o : bool) : list verr * option host :=
  (fst (host_parse E s o), match snd (host_parse E s o) with Ok h => Some h | Err _ => None end).

Section Run.
Variable E : env.
Variable base : option urlrec.
Variable inp : str.
Notation hp := (code_host_log E).
(** provided that int() takes every port text that is read *)
Definition rpt (k : cfg) (l : list verr) : Prop :=
  (forall b, std_reads (fun h o => snd (hp h o)) base inp k b -> short_for (int_limit E) b) -> std_reported hp base inp k l.
Notation here := (here inp).

Lemma rp_step k k' r l l' : (k_ptr k <= length inp)%nat -> parser_step (fun h o => snd (hp h o)) base inp k = Some k' ->
  std_reports hp base inp k = r -> rpt k' l' -> l = r ++ l' -> rpt k l.
Proof.
  intros L S <- R -> P. apply (reported_step hp base inp k k'); [exact L|exact S|]. apply R. intros b B. apply P. now apply (reads_later _ _ _ k k').
Qed.
Lemma rp_fail k r : (k_ptr k <= length inp)%nat -> parser_step (fun h o => snd (hp h o)) base inp k = None ->
  std_reports hp base inp k = r -> rpt k r.
Proof. intros L S <- _. now apply reported_fail. Qed.
Lemma rp_read k l : (k_ptr k <= length inp)%nat -> std_port_ends inp k = true -> (short_for (int_limit E) (k_buf k) -> rpt k l) -> rpt k l.
Proof. intros L R H P. apply H; [|exact P]. apply P. now apply reads_here. Qed.
Lemma rp_end k : (length inp < k_ptr k)%nat -> rpt k [].
Proof. intros L _. now apply reported_end. Qed.

Ltac cfgs := cbn [k_state k_ptr k_buf k_at k_br k_pw k_url].
Ltac st0 H := unfold parser_step; cfgs; rewrite ?(here_nth _ _ _ H); cbn [hd_error sis orb andb negb].
Ltac sr0 H := unfold std_reports; cfgs; rewrite ?(here_nth _ _ _ H); cbn [hd_error sis orb andb negb].
Ltac st H := eapply rp_step; [cfgs; exact (here_le _ _ _ H)|st0 H|sr0 H|..].
Ltac sf H := eapply rp_fail; [cfgs; exact (here_le _ _ _ H)|st0 H|sr0 H].
Ltac fin H := eapply rp_end; cfgs; exact (here_end _ _ H).

(* ---------- fragment, query, path ---------- *)
Lemma s_fragment rest : forall p u buf a b w, here p rest -> rpt (mkcfg S_fragment p buf a b w u) (frag_errs rest).
Proof.
  induction rest as [|c t IH]; intros p u buf a b w H.
  - st H; [reflexivity|reflexivity|fin H|reflexivity].
  - st H; [reflexivity|reflexivity|apply IH; exact (here_next _ _ _ _ H)|]. cbn [frag_errs].
    rewrite (here_skip _ _ _ (here_next _ _ _ _ H)), unit_eq. reflexivity.
Qed.
Lemma query_log_cons c t : query_log (c :: t) = if c =? 35 then frag_errs t else unit_errs c t ++ query_log t.
Proof.
  unfold query_log. cbn [query_errs span]. destruct (c =? 35); cbn [negb]; [reflexivity|]. destruct (span _ t). cbn [snd]. now rewrite app_assoc.
Qed.
Lemma s_query rest : forall p u buf a b w, here p rest -> rpt (mkcfg S_query p buf a b w u) (query_log rest).
Proof.
  induction rest as [|c t IH]; intros p u buf a b w H.
  - st H; [reflexivity|reflexivity|fin H|reflexivity].
  - rewrite query_log_cons. destruct (c =? 35) eqn:C.
    + st H; [rewrite C; reflexivity|rewrite C; reflexivity|apply s_fragment; exact (here_next _ _ _ _ H)|reflexivity].
    + st H; [rewrite C; reflexivity|rewrite C; reflexivity|apply IH; exact (here_next _ _ _ _ H)|].
      rewrite (here_skip _ _ _ (here_next _ _ _ _ H)), unit_eq. reflexivity.
Qed.
Lemma path_log_cons sp c t : path_log sp (c :: t) =
  if c =? 63 then query_log t else if c =? 35 then frag_errs t
  else if (c =? 47) || (sp && (c =? 92)) then rep (sp && (c =? 92)) VInvalidReverseSolidus ++ path_log sp t
  else unit_errs c t ++ path_log sp t.
Proof.
  destruct (c =? 63) eqn:C1; [rewrite path_log_qf by (rewrite qf_eq, C1; reflexivity); cbn [tail_log]; now rewrite C1|].
  destruct (c =? 35) eqn:C2; [rewrite path_log_qf by (rewrite qf_eq, C1, C2; reflexivity); cbn [tail_log]; now rewrite C1|].
  unfold path_log. cbn [path_errs span]. rewrite qf_eq, C1, C2. cbn [orb negb].
  destruct (span (fun c0 => negb (is_qf c0)) t). cbn [snd]. destruct (_ || _); now rewrite app_assoc.
Qed.
Lemma append_scheme x u : scheme (std_append x u) = scheme u.
Proof. unfold std_append. destruct (path u); reflexivity. Qed.
Lemma shorten_scheme u : scheme (std_shorten u) = scheme u.
Proof. unfold std_shorten. destruct (path u); [reflexivity|]. destruct (_ && _); reflexivity. Qed.
Lemma end_segment_scheme sl buf u : scheme (std_end_segment sl buf u) = scheme u.
Proof.
  unfold std_end_segment. cbv zeta. destruct (std_double_dot buf).
  - destruct sl; rewrite ?append_scheme; apply shorten_scheme.
  - destruct (std_single_dot buf); [destruct sl; [reflexivity|]|]; apply append_scheme.
Qed.
Lemma s_path rest : forall p u buf a b w, here p rest -> rpt (mkcfg S_path p buf a b w u) (path_log (is_special u) rest).
Proof.
  induction rest as [|c t IH]; intros p u buf a b w H.
  - st H; [rewrite andb_false_r; reflexivity|rewrite andb_false_r; reflexivity|fin H|reflexivity].
  - rewrite path_log_cons. destruct (c =? 63) eqn:C1; [|destruct (c =? 35) eqn:C2].
    + assert (Z : (c =? 47) = false /\ (c =? 92) = false) by lia. destruct Z as [Z1 Z2].
      st H; [rewrite C1, Z1, Z2, andb_false_r; reflexivity|rewrite C1, Z1, Z2, andb_false_r; reflexivity|apply s_query; exact (here_next _ _ _ _ H)|reflexivity].
    + assert (Z : (c =? 47) = false /\ (c =? 92) = false) by lia. destruct Z as [Z1 Z2].
      st H; [rewrite C1, C2, Z1, Z2, andb_false_r; reflexivity|rewrite C1, C2, Z1, Z2, andb_false_r; reflexivity|apply s_fragment; exact (here_next _ _ _ _ H)|reflexivity].
    + destruct ((c =? 47) || (is_special u && (c =? 92))) eqn:C3.
      * st H; [rewrite C1, C2, special_eq, C3; reflexivity|rewrite C1, C2, special_eq, C3; reflexivity|apply IH; exact (here_next _ _ _ _ H)|].
        rewrite rep_eq. f_equal. unfold is_special. now rewrite end_segment_scheme.
      * st H; [rewrite C1, C2, special_eq, C3; reflexivity|rewrite C1, C2, special_eq, C3; reflexivity|apply IH; exact (here_next _ _ _ _ H)|].
        rewrite (here_skip _ _ _ (here_next _ _ _ _ H)), unit_eq. reflexivity.
Qed.
Lemma opaque_log_cons c t : opaque_log (c :: t) =
  if c =? 63 then query_log t else if c =? 35 then frag_errs t else unit_errs c t ++ opaque_log t.
Proof.
  unfold opaque_log. cbn [opaque_errs span]. rewrite qf_eq. destruct (c =? 63) eqn:C1; cbn [orb negb snd app tail_log]; [now rewrite C1|].
  destruct (c =? 35) eqn:C2; cbn [orb negb snd app tail_log]; [now rewrite C1|].
  destruct (span _ t). cbn [snd]. now rewrite app_assoc.
Qed.
Lemma s_opaque rest : forall p u buf a b w, here p rest -> rpt (mkcfg S_opaque_path p buf a b w u) (opaque_log rest).
Proof.
  induction rest as [|c t IH]; intros p u buf a b w H.
  - st H; [reflexivity|reflexivity|fin H|reflexivity].
  - rewrite opaque_log_cons. destruct (c =? 63) eqn:C1; [|destruct (c =? 35) eqn:C2].
    + st H; [rewrite C1; reflexivity|rewrite C1; reflexivity|apply s_query; exact (here_next _ _ _ _ H)|reflexivity].
    + st H; [rewrite C1, C2; reflexivity|rewrite C1, C2; reflexivity|apply s_fragment; exact (here_next _ _ _ _ H)|reflexivity].
    + st H; [rewrite C1, C2; reflexivity|rewrite C1, C2; reflexivity|apply IH; exact (here_next _ _ _ _ H)|].
      rewrite (here_skip _ _ _ (here_next _ _ _ _ H)), unit_eq. reflexivity.
Qed.
Lemma pl_slash sp c t : (c =? 47) || (sp && (c =? 92)) = true ->
  path_log sp (c :: t) = rep (sp && (c =? 92)) VInvalidReverseSolidus ++ path_log sp t.
Proof.
  intros H. unfold path_log. cbn [path_errs span]. assert (Q : is_qf c = false) by (rewrite qf_eq; destruct sp; lia).
  rewrite Q, H. cbn [negb]. destruct (span (fun c => negb (is_qf c)) t). cbn [snd]. now rewrite app_assoc.
Qed.
Lemma s_path_start rest p u buf a b w : here p rest -> rpt (mkcfg S_path_start p buf a b w u) (path_log (is_special u) rest).
Proof.
  intros H. destruct (is_special u) eqn:SP.
  - destruct rest as [|c t].
    + st H; [rewrite special_eq, SP; reflexivity|rewrite special_eq, SP; reflexivity|apply s_path; exact H|]. rewrite SP. reflexivity.
    + destruct ((c =? 47) || (c =? 92)) eqn:C.
      * st H; [rewrite special_eq, SP, C; reflexivity|rewrite special_eq, SP; reflexivity|apply s_path; exact (here_next _ _ _ _ H)|].
        rewrite SP. rewrite pl_slash by exact C. reflexivity.
      * st H; [rewrite special_eq, SP, C; reflexivity|rewrite special_eq, SP; reflexivity|apply s_path; exact H|].
        rewrite SP. replace (c =? 92) with false by lia. reflexivity.
  - destruct rest as [|c t].
    + st H; [rewrite special_eq, SP; reflexivity|rewrite special_eq, SP; reflexivity|fin H|reflexivity].
    + rewrite path_log_cons. destruct (c =? 63) eqn:C1; [|destruct (c =? 35) eqn:C2].
      * st H; [rewrite special_eq, SP, C1; reflexivity|rewrite special_eq, SP; reflexivity|apply s_query; exact (here_next _ _ _ _ H)|reflexivity].
      * st H; [rewrite special_eq, SP, C1, C2; reflexivity|rewrite special_eq, SP; reflexivity|apply s_fragment; exact (here_next _ _ _ _ H)|reflexivity].
      * destruct (c =? 47) eqn:C3.
        -- st H; [rewrite special_eq, SP, C1, C2, C3; reflexivity|rewrite special_eq, SP; reflexivity|apply s_path; exact (here_next _ _ _ _ H)|].
           rewrite SP. reflexivity.
        -- st H; [rewrite special_eq, SP, C1, C2, C3; reflexivity|rewrite special_eq, SP; reflexivity|apply s_path; exact H|].
           rewrite SP. rewrite path_log_cons, C1, C2, C3. reflexivity.
Qed.

(* ---------- port and host ---------- *)
Lemma s_port a0 : forall p u buf t a b w, here p (a0 ++ t) ->
  forallb std_digit buf = true -> closed (is_special u) a0 -> stops (is_special u) t ->
  rpt (mkcfg S_port p buf a b w u) (port_log E (scheme u) (buf ++ a0) (path_log (is_special u) t)).
Proof.
  induction a0 as [|c a0 IH]; intros p u buf t a b w H D C T.
  - cbn [app] in H. rewrite app_nil_r in *. unfold port_log.
    assert (D' : forallb (fun c => mem c ASCII_DIGITS) buf = true).
    { rewrite forallb_forall in *. intros c Hc. rewrite digit_eq. auto. }
    rewrite D'. unfold flat_port. rewrite D'.
    assert (X : parser_step (fun h o => snd (hp h o)) base inp (mkcfg S_port p buf a b w u) =
        if (length buf =? 0)%nat then Some (mkcfg S_path_start p [] a b w u) else
        if 65535 <? std_decimal buf then None else Some (mkcfg S_path_start p [] a b w (set_port (std_port_of (scheme u) (std_decimal buf)) u))).
    { destruct t as [|c t]; st0 H; [reflexivity|]. cbn [stops] in T. rewrite special_eq. rewrite ends_eq in T.
      replace (std_digit c) with false by (unfold std_digit; lia). rewrite T. reflexivity. }
    assert (Y : std_reports hp base inp (mkcfg S_port p buf a b w u) = report (65535 <? std_decimal buf) VPortOutOfRange).
    { destruct t as [|c t]; sr0 H; [reflexivity|]. cbn [stops] in T. rewrite special_eq. rewrite ends_eq in T.
      replace (std_digit c) with false by (unfold std_digit; lia). rewrite T. reflexivity. }
    destruct buf as [|x buf]; [|set (bf := x :: buf) in *].
    + cbn [length Nat.eqb] in X. eapply rp_step; [exact (here_le _ _ _ H)|exact X|exact Y|apply s_path_start; exact H|reflexivity].
    + apply rp_read; [exact (here_le _ _ _ H)| |].
      { unfold std_port_ends. cbn [k_state k_buf k_ptr k_url]. rewrite (here_nth _ _ _ H). destruct t as [|c t]; [reflexivity|]. cbn [stops hd_error] in *.
        rewrite ends_eq in T. rewrite special_eq. exact T. }
      cbn [k_buf]. intros SB. assert (V : e_int E bf 10 = Some (Z.of_N (std_decimal bf))).
      { unfold e_int. apply py_int_digits; [auto|discriminate|now apply decimal_eq|]. intros _. exact SB. }
      unfold port_errs. change (match bf with [] => [] | _ :: _ => match e_int E bf 10 with Some z => rep (65535 <? Z.to_N z) VPortOutOfRange | None => [] end end)
        with (match e_int E bf 10 with Some z => rep (65535 <? Z.to_N z) VPortOutOfRange | None => [] end).
      change (length bf =? 0)%nat with false in X. rewrite V. rewrite N2Z.id. cbv zeta. destruct (65535 <? std_decimal bf) eqn:Q.
      * eapply rp_fail; [exact (here_le _ _ _ H)|exact X|]. rewrite Y. reflexivity.
      * eapply rp_step; [exact (here_le _ _ _ H)|exact X|exact Y|apply s_path_start; exact H|reflexivity].
  - inversion C as [|? ? C1 C2]; subst. cbn [app] in H. destruct (std_digit c) eqn:Dc.
    + replace (buf ++ c :: a0) with ((buf ++ [c]) ++ a0) in * by (rewrite <- app_assoc; reflexivity).
      st H; [rewrite Dc; reflexivity|rewrite Dc; reflexivity|apply IH; [exact (here_next _ _ _ _ H)| |exact C2|exact T]|reflexivity].
      rewrite forallb_app, D. cbn [forallb]. now rewrite Dc.
    + unfold port_log. replace (forallb (fun c => mem c ASCII_DIGITS) (buf ++ c :: a0)) with false.
      2:{ rewrite forallb_app. cbn [forallb]. rewrite digit_eq, Dc. cbn [andb]. now rewrite andb_false_r. }
      rewrite ends_eq in C1. sf H; rewrite Dc, special_eq, C1; reflexivity.
Qed.
Lemma s_host a0 : forall p u buf t a b w, here p (a0 ++ t) -> closed (is_special u) a0 -> stops (is_special u) t ->
  rpt (mkcfg S_host p buf a b w u)
    (let sp := is_special u in
     match host_cut b a0 with
     | (h, None) =>
         if sp && (length (buf ++ h) =? 0)%nat then [VHostMissing]
         else fst (host_parse E (buf ++ h) (negb sp)) ++ if_ok (snd (host_parse E (buf ++ h) (negb sp))) (path_log sp t)
     | (h, Some ps) =>
         if (length (buf ++ h) =? 0)%nat then [VHostMissing]
         else fst (host_parse E (buf ++ h) (negb sp)) ++ if_ok (snd (host_parse E (buf ++ h) (negb sp))) (port_log E (scheme u) ps (path_log sp t))
     end).
Proof.
  cbv zeta. induction a0 as [|c a0 IH]; intros p u buf t a b w H C T.
  - cbn [app host_cut] in *. rewrite app_nil_r.
    assert (X : parser_step (fun h o => snd (hp h o)) base inp (mkcfg S_host p buf a b w u) =
       if is_special u && (length buf =? 0)%nat then None
       else match snd (hp buf (negb (is_special u))) with None => None | Some h => Some (mkcfg S_path_start p [] a b w (set_host (Some h) u)) end).
    { destruct t as [|c t]; [st0 H; reflexivity|]. st0 H. cbn [stops] in T. rewrite special_eq. rewrite ends_eq in T. replace (c =? 58) with false by lia. cbn [andb].
      rewrite T. reflexivity. }
    assert (Y : std_reports hp base inp (mkcfg S_host p buf a b w u) =
       if is_special u && (length buf =? 0)%nat then [VHostMissing] else fst (host_parse E buf (negb (is_special u)))).
    { destruct t as [|c t]; [sr0 H; reflexivity|]. sr0 H. cbn [stops] in T. rewrite special_eq. rewrite ends_eq in T. replace (c =? 58) with false by lia. cbn [andb].
      rewrite T. reflexivity. }
    destruct (is_special u && (length buf =? 0)%nat).
    { eapply rp_fail; [exact (here_le _ _ _ H)|exact X|exact Y]. }
    unfold code_host_log in X. cbn [snd] in X. destruct (snd (host_parse E buf (negb (is_special u)))) as [h|e]; cbn [if_ok].
    + eapply rp_step; [exact (here_le _ _ _ H)|exact X|exact Y|apply s_path_start; exact H|reflexivity].
    + rewrite app_nil_r. eapply rp_fail; [exact (here_le _ _ _ H)|exact X|exact Y].
  - inversion C as [|? ? C1 C2]; subst. cbn [app] in H. cbn [host_cut]. destruct ((c =? 58) && negb b) eqn:Q.
    + rewrite app_nil_r.
      assert (X : parser_step (fun h o => snd (hp h o)) base inp (mkcfg S_host p buf a b w u) =
        if (length buf =? 0)%nat then None else match snd (hp buf (negb (is_special u))) with None => None | Some h => Some (mkcfg S_port (Datatypes.S p) [] a b w (set_host (Some h) u)) end).
      { st0 H. rewrite Q. reflexivity. }
      assert (Y : std_reports hp base inp (mkcfg S_host p buf a b w u) =
        if (length buf =? 0)%nat then [VHostMissing] else fst (host_parse E buf (negb (is_special u)))).
      { sr0 H. rewrite Q. reflexivity. }
      destruct (length buf =? 0)%nat.
      { eapply rp_fail; [exact (here_le _ _ _ H)|exact X|exact Y]. }
      unfold code_host_log in X. cbn [snd] in X. destruct (snd (host_parse E buf (negb (is_special u)))) as [h|e]; cbn [if_ok].
      * eapply rp_step; [exact (here_le _ _ _ H)|exact X|exact Y| |reflexivity].
        apply (s_port a0 (Datatypes.S p) (set_host (Some h) u) [] t a b w (here_next _ _ _ _ H)); auto.
      * rewrite app_nil_r. eapply rp_fail; [exact (here_le _ _ _ H)|exact X|exact Y].
    + set (b' := if c =? 91 then true else if c =? 93 then false else b).
      specialize (IH (Datatypes.S p) u (buf ++ [c]) t a b' w (here_next _ _ _ _ H) C2 T).
      destruct (host_cut b' a0) as [h ps].
      st H; [rewrite Q, special_eq; rewrite ends_eq in C1; rewrite C1; fold b'; reflexivity|rewrite Q, special_eq; rewrite ends_eq in C1; rewrite C1; reflexivity|exact IH|].
      cbn [app]. destruct ps; rewrite <- app_assoc; reflexivity.
Qed.
Lemma s_host0 a0 p u t a w : here p (a0 ++ t) -> closed (is_special u) a0 -> stops (is_special u) t ->
  rpt (mkcfg S_host p [] a false w u) (host_log E (scheme u) a0 t).
Proof. intros H C T. exact (s_host a0 p u [] t a false w H C T). Qed.

(* ---------- authority ---------- *)
Lemma s_authority a0 : forall p u buf t a w, here p (a0 ++ t) -> here (p - length buf) (buf ++ a0 ++ t) -> (length buf <= p)%nat ->
  closed (is_special u) (buf ++ a0) -> stops (is_special u) t ->
  rpt (mkcfg S_authority p buf a false w u)
    (at_errs a0 ++ match split_last 64 a0 with
     | None => if a && (length (buf ++ a0) =? 0)%nat then [VInvalidCredentials] else host_log E (scheme u) (buf ++ a0) t
     | Some (_, h) => if (length h =? 0)%nat then [VInvalidCredentials] else host_log E (scheme u) h t
     end).
Proof.
  induction a0 as [|c a0 IH]; intros p u buf t a w H H0 L C T.
  - cbn [app at_errs split_last] in *. rewrite app_nil_r in *.
    assert (X : parser_step (fun h o => snd (hp h o)) base inp (mkcfg S_authority p buf a false w u) =
       if a && (length buf =? 0)%nat then None else Some (mkcfg S_host (p - length buf) [] a false w u)).
    { destruct t as [|c t]; [st0 H; reflexivity|]. st0 H. cbn [stops] in T. rewrite special_eq. rewrite ends_eq in T. replace (c =? 64) with false by lia. rewrite T. reflexivity. }
    assert (Y : std_reports hp base inp (mkcfg S_authority p buf a false w u) = report (a && (length buf =? 0)%nat) VInvalidCredentials).
    { destruct t as [|c t]; [sr0 H; reflexivity|]. sr0 H. cbn [stops] in T. rewrite special_eq. rewrite ends_eq in T. replace (c =? 64) with false by lia. rewrite T. reflexivity. }
    destruct (a && (length buf =? 0)%nat).
    + eapply rp_fail; [exact (here_le _ _ _ H)|exact X|exact Y].
    + eapply rp_step; [exact (here_le _ _ _ H)|exact X|exact Y|apply s_host0; [exact H0|exact C|exact T]|reflexivity].
  - cbn [app] in H. destruct (c =? 64) eqn:Q.
    + set (bf := if a then $"%40" ++ buf else buf). destruct (std_userinfo bf w u) as [pw v] eqn:SU.
      assert (SV : is_special v = is_special u /\ scheme v = scheme u).
      { pose proof (userinfo_keeps bf w u) as K. rewrite SU in K. cbn [snd] in K. unfold is_special. destruct K as [K _]. now rewrite K. }
      destruct SV as [SV1 SV2].
      apply Forall_app in C as [_ C]. inversion C as [|? ? _ C2]; subst.
      specialize (IH (Datatypes.S p) v [] t true pw (here_next _ _ _ _ H)). cbn [app length] in IH. rewrite Nat.sub_0_r in IH.
      specialize (IH (here_next _ _ _ _ H) ltac:(lia)). rewrite SV1, SV2 in IH. specialize (IH C2 T).
      st H; [rewrite Q; fold bf; rewrite SU; reflexivity|rewrite Q; assert (Z : (c =? 47) = false /\ (c =? 63) = false /\ (c =? 35) = false /\ (c =? 92) = false) by lia;
        destruct Z as (-> & -> & -> & ->); rewrite andb_false_r; cbn [orb andb report app]; reflexivity|exact IH|].
      cbn [at_errs split_last]. rewrite Q. cbn [rep report app]. f_equal. f_equal.
      destruct (split_last 64 a0) as [[x y]|]; [reflexivity|]. cbn [andb]. reflexivity.
    + assert (C' := C). apply Forall_app in C' as [_ C']. inversion C' as [|? ? C1 C2]; subst. rewrite ends_eq in C1.
      replace (buf ++ c :: a0) with ((buf ++ [c]) ++ a0) in * by (rewrite <- app_assoc; reflexivity).
      st H; [rewrite Q, special_eq, C1; reflexivity|rewrite Q, special_eq, C1; cbn [orb andb report app]; reflexivity|apply IH; [exact (here_next _ _ _ _ H)| | |exact C|exact T]|].
      * rewrite app_length. cbn [length]. replace (Datatypes.S p - (length buf + 1))%nat with (p - length buf)%nat by lia. rewrite <- app_assoc. exact H0.
      * rewrite app_length. cbn [length]. lia.
      * cbn [report app at_errs split_last]. rewrite Q. cbn [rep app]. f_equal. destruct (split_last 64 a0) as [[x y]|]; reflexivity.
Qed.
Lemma s_authority0 rest p u w : here p rest -> rpt (mkcfg S_authority p [] false false w u) (authority_log E (scheme u) rest).
Proof.
  intros H. unfold authority_log. change (special_scheme (scheme u)) with (is_special u).
  destruct (span (fun c => negb (ends_auth (is_special u) c)) rest) as [a t] eqn:SS.
  pose proof (span_eq (fun c => negb (ends_auth (is_special u) c)) rest) as Q.
  pose proof (LoopProofs.span_all (fun c => negb (ends_auth (is_special u) c)) rest) as A.
  pose proof (span_stop (fun c => negb (ends_auth (is_special u) c)) rest) as St. rewrite SS in Q, A, St. cbn [fst snd] in *.
  subst rest. apply (s_authority a p u [] t false w).
  - exact H.
  - cbn [length app]. now rewrite Nat.sub_0_r.
  - cbn; lia.
  - cbn [app]. eapply Forall_impl; [|exact A]. cbv beta. intros c Hc. now apply negb_true_iff.
  - unfold stops. destruct t; auto. now apply negb_false_iff.
Qed.
Lemma s_ignore rest : forall p u w, here p rest -> rpt (mkcfg S_special_authority_ignore_slashes p [] false false w u) (ignore_log E (scheme u) rest).
Proof.
  induction rest as [|c t IH]; intros p u w H.
  - st H; [reflexivity|reflexivity|apply s_authority0; exact H|reflexivity].
  - unfold ignore_log. cbn [slash_errs drop_while]. rewrite slash_eq. destruct ((c =? 47) || (c =? 92)) eqn:C.
    + st H; [rewrite C; reflexivity|rewrite C; reflexivity|apply IH; exact (here_next _ _ _ _ H)|reflexivity].
    + st H; [rewrite C; reflexivity|rewrite C; reflexivity|apply s_authority0; exact H|reflexivity].
Qed.

(* ---------- file ---------- *)
(** as [file_host_log], but the two characters of a drive letter are not looked at again *)
Definition std_file_host_log (rest : str) : log :=
  let (h, t) := span (fun c => negb (mem c $"/\?#")) rest in
  file_host_errs E true h ++
  if is_windows_drive_letter h then path_log true t
  else match h with [] => path_log true t | _ => if_ok (snd (host_parse E h false)) (path_log true t) end.
Definition std_file_slash_log (rest : str) : log :=
  match rest with
  | c :: t => if is_slash c then rep (c =? 92) VInvalidReverseSolidus ++ std_file_host_log t else path_log true rest
  | [] => path_log true rest
  end.
Definition std_file_log (rest : str) : log :=
  match rest with
  | c :: t =>
      if is_slash c then rep (c =? 92) VInvalidReverseSolidus ++ std_file_slash_log t
      else rep (same_scheme base $"file" && starts_with_windows_drive_letter rest) VFileDriveLetter ++ path_log true rest
  | [] => []
  end.
Lemma s_file_host h : forall p u buf t a b w, here p (h ++ t) -> is_special u = true ->
  Forall (fun c => host_end c = false) (buf ++ h) -> match t with [] => True | c :: _ => host_end c = true end ->
  rpt (mkcfg S_file_host p buf a b w u)
    (file_host_errs E true (buf ++ h) ++
     if is_windows_drive_letter (buf ++ h) then path_log true t
     else match buf ++ h with [] => path_log true t | x => if_ok (snd (host_parse E x false)) (path_log true t) end).
Proof.
  induction h as [|c h IH]; intros p u buf t a b w H SP F T.
  - cbn [app] in H. rewrite app_nil_r in *.
    assert (X : parser_step (fun h o => snd (hp h o)) base inp (mkcfg S_file_host p buf a b w u) =
      if std_any_drive_letter buf then Some (mkcfg S_path p buf a b w u)
      else match buf with
           | [] => Some (mkcfg S_path_start p [] a b w (set_host (Some (HStr [])) u))
           | _ => match snd (hp buf false) with None => None | Some x => Some (mkcfg S_path_start p [] a b w (set_host (Some (no_localhost x)) u)) end
           end).
    { destruct t as [|c t].
      - st0 H. rewrite special_eq, SP. destruct (std_any_drive_letter buf); [reflexivity|]. destruct buf; reflexivity.
      - rewrite host_end_eq in T. st0 H. rewrite T. rewrite special_eq, SP. destruct (std_any_drive_letter buf); [reflexivity|]. destruct buf; reflexivity. }
    assert (Y : std_reports hp base inp (mkcfg S_file_host p buf a b w u) = file_host_errs E true buf).
    { unfold file_host_errs. rewrite any_drive_eq. destruct t as [|c t].
      - sr0 H. rewrite special_eq, SP. destruct (std_any_drive_letter buf); [reflexivity|]. destruct buf; reflexivity.
      - rewrite host_end_eq in T. sr0 H. rewrite T. rewrite special_eq, SP. destruct (std_any_drive_letter buf); [reflexivity|]. destruct buf; reflexivity. }
    rewrite any_drive_eq. destruct (std_any_drive_letter buf) eqn:D.
    + eapply rp_step; [exact (here_le _ _ _ H)|exact X|exact Y|apply s_path; exact H|]. rewrite SP. reflexivity.
    + destruct buf as [|x buf].
      * eapply rp_step; [exact (here_le _ _ _ H)|exact X|exact Y|apply s_path_start; exact H|]. change (is_special (set_host (Some (HStr [])) u)) with (is_special u). rewrite SP. reflexivity.
      * set (bf := x :: buf) in *. unfold code_host_log in X. cbn [snd] in X. destruct (snd (host_parse E bf false)) as [y|e]; cbn [if_ok].
        -- eapply rp_step; [exact (here_le _ _ _ H)|exact X|exact Y|apply s_path_start; exact H|].
           change (is_special (set_host (Some (no_localhost y)) u)) with (is_special u). rewrite SP. reflexivity.
        -- rewrite app_nil_r. eapply rp_fail; [exact (here_le _ _ _ H)|exact X|exact Y].
  - cbn [app] in H. assert (F' := F). apply Forall_app in F' as [_ F']. inversion F' as [|? ? F1 F2]; subst. rewrite host_end_eq in F1.
    replace (buf ++ c :: h) with ((buf ++ [c]) ++ h) in * by (rewrite <- app_assoc; reflexivity).
    st H; [rewrite F1; reflexivity|rewrite F1; reflexivity|apply IH; [exact (here_next _ _ _ _ H)|exact SP|exact F|exact T]|reflexivity].
Qed.
Lemma s_file_host0 rest p u a b w : here p rest -> is_special u = true -> rpt (mkcfg S_file_host p [] a b w u) (std_file_host_log rest).
Proof.
  intros H SP. unfold std_file_host_log. pose proof (span_eq (fun c => negb (host_end c)) rest) as A. pose proof (LoopProofs.span_all (fun c => negb (host_end c)) rest) as B.
  pose proof (span_stop (fun c => negb (host_end c)) rest) as C. change (fun c => negb (mem c $"/\?#")) with (fun c => negb (host_end c)).
  destruct (span (fun c => negb (host_end c)) rest) as [h t]. cbn [fst snd] in *. rewrite A in H.
  pose proof (s_file_host h p u [] t a b w H SP) as R. cbn [app] in R. assert (B' : Forall (fun c => host_end c = false) h).
  { eapply Forall_impl; [|exact B]. cbv beta. intros c Hc. now apply negb_true_iff in Hc. }
  specialize (R B'). assert (C' : match t with [] => True | c :: _ => host_end c = true end) by (destruct t; [exact I|]; now apply negb_false_iff in C).
  specialize (R C'). destruct h; exact R.
Qed.
Lemma s_file_slash rest p u a b w : here p rest -> is_special u = true -> rpt (mkcfg S_file_slash p [] a b w u) (std_file_slash_log rest).
Proof.
  intros H SP. unfold std_file_slash_log.
  assert (X : forall r, (forall c t, rest = c :: t -> is_slash c = false) -> r = path_log true rest -> rpt (mkcfg S_file_slash p [] a b w u) r).
  { intros r Q ->. assert (Y : sis (hd_error rest) 47 || sis (hd_error rest) 92 = false).
    { destruct rest as [|c t]; [reflexivity|]. cbn [hd_error sis]. rewrite <- slash_eq. exact (Q _ _ eq_refl). }
    assert (Z : sis (hd_error rest) 92 = false) by (now apply orb_false_iff in Y).
    assert (V : exists v, parser_step (fun h o => snd (hp h o)) base inp (mkcfg S_file_slash p [] a b w u) = Some (mkcfg S_path p [] a b w v) /\ is_special v = true).
    { st0 H. rewrite Y. destruct base as [d|]; [|now eexists]. destruct (str_eqb (scheme d) $"file"); [|now eexists]. cbv zeta.
      destruct (path d) as [|[|x l]]; try (eexists; split; [reflexivity|exact SP]). destruct (_ && _); [|eexists; split; [reflexivity|exact SP]].
      eexists. split; [reflexivity|]. unfold is_special. rewrite append_scheme. exact SP. }
    destruct V as (v & V1 & V2). eapply rp_step; [exact (here_le _ _ _ H)|exact V1|sr0 H; rewrite Z; reflexivity|apply s_path; exact H|]. rewrite V2. reflexivity. }
  destruct rest as [|c t]; [apply X; [discriminate|reflexivity]|]. destruct (is_slash c) eqn:Q.
  - rewrite slash_eq in Q. st H; [rewrite Q; reflexivity|reflexivity|apply s_file_host0; [exact (here_next _ _ _ _ H)|exact SP]|reflexivity].
  - apply X; [|reflexivity]. intros x y Z. injection Z as <- <-. exact Q.
Qed.
Lemma same_file : same_scheme base $"file" = match base with Some b => str_eqb (scheme b) $"file" | None => false end.
Proof. destruct base; reflexivity. Qed.
Lemma drive_not_slash c t : std_starts_drive_letter (c :: t) = true -> (c =? 47) || (c =? 92) = false.
Proof. destruct t as [|d t]; [discriminate|]. cbn [std_starts_drive_letter std_any_drive_letter]. unfold std_alpha. lia. Qed.
Lemma drive_qf c t : (c =? 63) || (c =? 35) = true -> std_starts_drive_letter (c :: t) = false.
Proof. destruct t as [|d t]; [reflexivity|]. cbn [std_starts_drive_letter std_any_drive_letter]. unfold std_alpha. lia. Qed.
Lemma file_special : special_scheme $"file" = true. Proof. reflexivity. Qed.
Lemma s_file rest p u a b w : here p rest -> rpt (mkcfg S_file p [] a b w u) (std_file_log rest).
Proof.
  intros H. unfold std_file_log. destruct rest as [|c t].
  - assert (Y : std_reports hp base inp (mkcfg S_file p [] a b w u) = []).
    { sr0 H. rewrite (here_skip _ _ _ H). cbn [std_starts_drive_letter]. rewrite andb_false_r. reflexivity. }
    destruct base as [d|] eqn:B; [destruct (str_eqb (scheme d) $"file") eqn:F|]; rewrite <- ?B in *.
    + eapply rp_step; [exact (here_le _ _ _ H)|st0 H; rewrite B, F; reflexivity|exact Y|fin H|reflexivity].
    + eapply rp_step; [exact (here_le _ _ _ H)|st0 H; rewrite B, F; reflexivity|exact Y|apply s_path; exact H|]. reflexivity.
    + eapply rp_step; [exact (here_le _ _ _ H)|st0 H; rewrite B; reflexivity|exact Y|apply s_path; exact H|]. reflexivity.
  - assert (Y : std_reports hp base inp (mkcfg S_file p [] a b w u) =
      report (c =? 92) VInvalidReverseSolidus ++ report (same_scheme base $"file" && std_starts_drive_letter (c :: t)) VFileDriveLetter).
    { sr0 H. rewrite (here_skip _ _ _ H), same_file. reflexivity. }
    destruct (is_slash c) eqn:Q; rewrite slash_eq in Q.
    + replace (std_starts_drive_letter (c :: t)) with false in Y by (destruct (std_starts_drive_letter (c :: t)) eqn:D; [apply drive_not_slash in D; congruence|reflexivity]).
      rewrite andb_false_r in Y. cbn [report] in Y. rewrite app_nil_r in Y.
      eapply rp_step; [exact (here_le _ _ _ H)|st0 H; rewrite Q; reflexivity|exact Y|apply s_file_slash; [exact (here_next _ _ _ _ H)|reflexivity]|reflexivity].
    + replace (c =? 92) with false in Y by lia. cbn [report app] in Y. rewrite starts_drive_eq.
      assert (PL : forall v, is_special v = true -> parser_step (fun h o => snd (hp h o)) base inp (mkcfg S_file p [] a b w u) = Some (mkcfg S_path p [] a b w v) ->
        rpt (mkcfg S_file p [] a b w u) (rep (same_scheme base $"file" && std_starts_drive_letter (c :: t)) VFileDriveLetter ++ path_log true (c :: t))).
      { intros v Hv K. eapply rp_step; [exact (here_le _ _ _ H)|exact K|exact Y|apply s_path; exact H|]. rewrite Hv. reflexivity. }
      destruct base as [d|] eqn:B; [destruct (str_eqb (scheme d) $"file") eqn:F|]; rewrite <- ?B in *.
      * destruct (c =? 63) eqn:C1; [|destruct (c =? 35) eqn:C2].
        -- rewrite drive_qf in * by (rewrite C1; reflexivity). rewrite andb_false_r in *.
           eapply rp_step; [exact (here_le _ _ _ H)|st0 H; rewrite Q, B, F, C1; reflexivity|exact Y|apply s_query; exact (here_next _ _ _ _ H)|].
           cbn [rep report app]. rewrite path_log_cons, C1. reflexivity.
        -- rewrite drive_qf in * by (rewrite C2; apply orb_true_r). rewrite andb_false_r in *.
           eapply rp_step; [exact (here_le _ _ _ H)|st0 H; rewrite Q, B, F, C1, C2; reflexivity|exact Y|apply s_fragment; exact (here_next _ _ _ _ H)|].
           cbn [rep report app]. rewrite path_log_cons, C1, C2. reflexivity.
        -- eapply PL; [|st0 H; rewrite Q, B, F, C1, C2, (here_skip _ _ _ H); reflexivity].
           destruct (std_starts_drive_letter (c :: t)); [reflexivity|]. unfold is_special. rewrite shorten_scheme. reflexivity.
      * eapply PL; [|st0 H; rewrite Q, B, F; reflexivity]. reflexivity.
      * eapply PL; [|st0 H; rewrite Q, B; reflexivity]. reflexivity.
Qed.

(* ---------- relative references ---------- *)
Lemma s_relative_slash rest p u w d : base = Some d -> here p rest -> rpt (mkcfg S_relative_slash p [] false false w u) (relative_slash_log E (scheme u) rest).
Proof.
  intros B H. unfold relative_slash_log. change (special_scheme (scheme u)) with (is_special u). destruct rest as [|c t].
  - st H; [rewrite andb_false_r, B; reflexivity|rewrite andb_false_r; reflexivity|apply s_path; exact H|]. reflexivity.
  - rewrite slash_eq. destruct (is_special u && ((c =? 47) || (c =? 92))) eqn:Q.
    + apply andb_true_iff in Q as [Q1 Q2].
      st H; [rewrite special_eq, Q1, Q2; reflexivity|rewrite special_eq, Q1; reflexivity|apply s_ignore; exact (here_next _ _ _ _ H)|reflexivity].
    + destruct (c =? 47) eqn:C.
      * assert (R : is_special u && (c =? 92) = false) by (destruct (is_special u); lia).
        st H; [rewrite special_eq, C, Q; reflexivity|rewrite special_eq, R; reflexivity|apply s_authority0; exact (here_next _ _ _ _ H)|reflexivity].
      * assert (R : is_special u && (c =? 92) = false) by (destruct (is_special u); lia).
        st H; [rewrite special_eq, C, Q, B; reflexivity|rewrite special_eq, R; reflexivity|apply s_path; exact H|reflexivity].
Qed.
Lemma s_relative rest p u w d : base = Some d -> here p rest -> rpt (mkcfg S_relative p [] false false w u) (relative_log E (scheme d) rest).
Proof.
  intros B H. unfold relative_log. change (special_scheme (scheme d)) with (is_special (set_scheme (scheme d) u)). destruct rest as [|c t].
  - st H; [rewrite B, andb_false_r; reflexivity|rewrite B, andb_false_r; reflexivity|fin H|reflexivity].
  - destruct ((c =? 47) || (is_special (set_scheme (scheme d) u) && (c =? 92))) eqn:Q.
    + st H; [rewrite B, special_eq, Q; reflexivity|rewrite B, special_eq; reflexivity|exact (s_relative_slash _ _ _ _ d B (here_next _ _ _ _ H))|].
      rewrite rep_eq. replace (is_special (set_scheme (scheme d) u) && (c =? 92)) with (c =? 92) by (destruct (is_special (set_scheme (scheme d) u)); lia). reflexivity.
    + assert (R : is_special (set_scheme (scheme d) u) && (c =? 92) = false) by (now apply orb_false_iff in Q).
      rewrite path_log_cons. destruct (c =? 63) eqn:C1; [|destruct (c =? 35) eqn:C2].
      * st H; [rewrite B, special_eq, Q, C1; reflexivity|rewrite B, special_eq, R; reflexivity|apply s_query; exact (here_next _ _ _ _ H)|reflexivity].
      * st H; [rewrite B, special_eq, Q, C1, C2; reflexivity|rewrite B, special_eq, R; reflexivity|apply s_fragment; exact (here_next _ _ _ _ H)|reflexivity].
      * st H; [rewrite B, special_eq, Q, C1, C2; reflexivity|rewrite B, special_eq, R; reflexivity|apply s_path; exact H|].
        cbn [report app]. rewrite path_log_cons, C1, C2. unfold is_special. rewrite shorten_scheme. reflexivity.
Qed.

(* ---------- schemes ---------- *)
Definition std_no_scheme_log (rest : str) : log :=
  match base with
  | None => [VMissingScheme]
  | Some b =>
      if has_opaque_path b then
        match rest with
        | c :: f => if c =? 35 then frag_errs f else [VMissingScheme]
        | [] => [VMissingScheme]
        end
      else if str_eqb (scheme b) $"file" then std_file_log rest
      else relative_log E (scheme b) rest
  end.
Lemma s_no_scheme rest p u : here p rest -> rpt (mkcfg S_no_scheme p [] false false false u) (std_no_scheme_log rest).
Proof.
  intros H. unfold std_no_scheme_log. destruct base as [d|] eqn:B.
  - destruct (has_opaque_path d) eqn:O.
    + destruct rest as [|c t]; [|destruct (c =? 35) eqn:C].
      * sf H; rewrite B; unfold std_opaque_path; fold (has_opaque_path d); rewrite O; reflexivity.
      * st H; [rewrite B; unfold std_opaque_path; fold (has_opaque_path d); rewrite O, C; reflexivity
              |rewrite B; unfold std_opaque_path; fold (has_opaque_path d); rewrite O, C; reflexivity|apply s_fragment; exact (here_next _ _ _ _ H)|reflexivity].
      * sf H; rewrite B; unfold std_opaque_path; fold (has_opaque_path d); rewrite O, C; reflexivity.
    + destruct (str_eqb (scheme d) $"file") eqn:F.
      * st H; [rewrite B; unfold std_opaque_path; fold (has_opaque_path d); rewrite O, F; reflexivity
              |rewrite B; unfold std_opaque_path; fold (has_opaque_path d); rewrite O; reflexivity|apply s_file; exact H|reflexivity].
      * st H; [rewrite B; unfold std_opaque_path; fold (has_opaque_path d); rewrite O, F; reflexivity
              |rewrite B; unfold std_opaque_path; fold (has_opaque_path d); rewrite O; reflexivity|exact (s_relative _ _ _ _ d B H)|reflexivity].
  - sf H; rewrite B; reflexivity.
Qed.
Definition std_scheme_log (sch t : str) : log :=
  if str_eqb sch $"file" then rep (negb (starts_with $"//" t)) VSpecialSchemeMissingSolidus ++ std_file_log t
  else scheme_log E base sch t.
Lemma two_slash_eq p t : here p t -> sis (hd_error t) 47 && sis (nth_error inp (S p)) 47 = starts_with $"//" t.
Proof.
  intros H. change ($"//") with [47; 47]. destruct t as [|c t]; [reflexivity|]. rewrite (here_nth _ _ _ (here_next _ _ _ _ H)).
  cbn [hd_error sis starts_with]. rewrite N.eqb_sym. destruct (47 =? c); [|reflexivity]. destruct t as [|e t]; [reflexivity|].
  cbn [hd_error sis]. rewrite N.eqb_sym. destruct (47 =? e); reflexivity.
Qed.
Lemma starts_skip t : starts_with $"//" t = true -> exists r, t = 47 :: 47 :: r.
Proof.
  change ($"//") with [47; 47]. destruct t as [|c [|e t]]; cbn [starts_with]; try discriminate.
  - now rewrite andb_false_r.
  - intros H. exists t. assert (c = 47 /\ e = 47) as [-> ->] by lia. reflexivity.
Qed.
Lemma s_colon sch t p : here p (58 :: t) -> rpt (mkcfg S_scheme p sch false false false new_url) (std_scheme_log sch t).
Proof.
  intros H. pose proof (here_next _ _ _ _ H) as H1. unfold std_scheme_log, scheme_log.
  assert (Y : std_reports hp base inp (mkcfg S_scheme p sch false false false new_url) =
    report (str_eqb sch $"file" && negb (starts_with $"//" t)) VSpecialSchemeMissingSolidus).
  { sr0 H. change (58 =? 58) with true. cbn [andb]. rewrite (here_skip _ _ _ H1). f_equal. f_equal. f_equal. change ($"//") with [47; 47].
    destruct t as [|x [|y t]]; cbn [starts_with]; rewrite ?andb_false_r; try reflexivity. rewrite (N.eqb_sym x), (N.eqb_sym y), andb_true_r. reflexivity. }
  assert (X : forall k l, parser_step (fun h o => snd (hp h o)) base inp (mkcfg S_scheme p sch false false false new_url) = Some k -> rpt k l ->
    rpt (mkcfg S_scheme p sch false false false new_url) (report (str_eqb sch $"file" && negb (starts_with $"//" t)) VSpecialSchemeMissingSolidus ++ l)).
  { intros k l K R. eapply rp_step; [exact (here_le _ _ _ H)|exact K|exact Y|exact R|reflexivity]. }
  unfold parser_step in X. cbn [k_state k_ptr k_buf k_at k_br k_pw k_url] in X. rewrite (here_nth _ _ _ H) in X. cbn [hd_error] in X.
  change (std_scheme_char 58) with false in X. change (58 =? 58) with true in X. cbv iota in X. rewrite special_eq in X. change (is_special (set_scheme sch new_url)) with (special_scheme sch) in X.
  destruct (str_eqb sch $"file") eqn:F.
  { cbn [andb] in X. rewrite rep_eq. apply (X _ _ eq_refl). apply s_file. exact H1. }
  cbn [andb report app] in X. destruct (special_scheme sch) eqn:Sp.
  - pose proof (two_slash_eq _ _ H1) as TS.
    assert (TWO : starts_with $"//" t = true -> here (Datatypes.S (Datatypes.S (Datatypes.S p))) (skipn 2 t)).
    { intros Q. apply starts_skip in Q as (r & ->). cbn [skipn]. exact (here_next _ _ _ _ (here_next _ _ _ _ H1)). }
    assert (R1 : rpt (mkcfg S_special_authority_slashes (Datatypes.S p) [] false false false (set_scheme sch new_url))
      (if starts_with $"//" t then ignore_log E sch (skipn 2 t) else VSpecialSchemeMissingSolidus :: ignore_log E sch t)).
    { destruct (starts_with $"//" t).
      - st H1; [rewrite TS; reflexivity|rewrite TS; reflexivity|apply s_ignore; apply TWO; reflexivity|reflexivity].
      - st H1; [rewrite TS; reflexivity|rewrite TS; reflexivity|apply s_ignore; exact H1|reflexivity]. }
    unfold same_scheme. destruct base as [d|] eqn:B.
    + destruct (str_eqb (scheme d) sch) eqn:Q; cbn [andb] in *.
      * apply (X _ _ eq_refl). destruct (starts_with $"//" t).
        -- st H1; [rewrite TS; reflexivity|rewrite TS; reflexivity|apply s_ignore; apply TWO; reflexivity|reflexivity].
        -- st H1; [rewrite TS; reflexivity|rewrite TS; reflexivity|exact (s_relative _ _ _ _ d B H1)|].
           apply str_eqb_eq in Q. rewrite Q. reflexivity.
      * apply (X _ _ eq_refl). exact R1.
    + apply (X _ _ eq_refl). exact R1.
  - rewrite (here_nth _ _ _ H1) in X. destruct t as [|c t].
    { apply (X _ _ eq_refl). apply (s_opaque [] (Datatypes.S p)). exact H1. }
    cbn [hd_error sis] in X. destruct (c =? 47) eqn:C.
    + apply (X _ _ eq_refl). pose proof (here_next _ _ _ _ H1) as H2. destruct t as [|e t].
      * st H2; [reflexivity|reflexivity|apply s_path; exact H2|]. reflexivity.
      * destruct (e =? 47) eqn:Q.
        -- st H2; [rewrite Q; reflexivity|reflexivity|apply s_authority0; exact (here_next _ _ _ _ H2)|reflexivity].
        -- st H2; [rewrite Q; reflexivity|reflexivity|apply s_path; exact H2|]. change (is_special (set_scheme sch new_url)) with (special_scheme sch). rewrite Sp. reflexivity.
    + apply (X _ _ eq_refl). apply (s_opaque (c :: t) (Datatypes.S p)). exact H1.
Qed.
Lemma here_0 : here 0 inp. Proof. exists []. auto. Qed.
Lemma s_scheme t : forall p buf, here p t ->
  rpt (mkcfg S_scheme p buf false false false new_url)
    (match span is_scheme_char t with
     | (a, x :: r) => if x =? 58 then std_scheme_log (buf ++ std_lower a) r else std_no_scheme_log inp
     | (_, []) => std_no_scheme_log inp
     end).
Proof.
  induction t as [|c t IH]; intros p buf H; cbn [span].
  - st H; [reflexivity|reflexivity|apply s_no_scheme; apply here_0|reflexivity].
  - destruct (is_scheme_char c) eqn:Q.
    + rewrite scheme_char_eq in Q. assert (C : (c =? 58) = false) by (revert Q; unfold std_scheme_char, std_alpha, std_digit; cbn [one_of existsb]; lia).
      specialize (IH (Datatypes.S p) (buf ++ [std_lower1 c]) (here_next _ _ _ _ H)).
      st H; [rewrite Q; reflexivity|rewrite C; reflexivity|exact IH|]. cbn [andb report app].
      destruct (span is_scheme_char t) as [a [|x r]]; [reflexivity|]. rewrite <- app_assoc. reflexivity.
    + destruct (c =? 58) eqn:C.
      * apply N.eqb_eq in C. subst c. cbn [std_lower map]. rewrite app_nil_r. apply s_colon. exact H.
      * rewrite scheme_char_eq in Q. st H; [rewrite Q, C; reflexivity|rewrite C; reflexivity|apply s_no_scheme; apply here_0|reflexivity].
Qed.
Definition std_main_log : log :=
  match scheme_split inp with Some (sch, t) => std_scheme_log (std_lower sch) t | None => std_no_scheme_log inp end.
Theorem s_main : rpt (mkcfg S_scheme_start 0 [] false false false new_url) std_main_log.
Proof.
  pose proof here_0 as H. unfold std_main_log. unfold scheme_split.
  assert (NS : (forall c t, inp = c :: t -> std_alpha c = false) -> rpt (mkcfg S_scheme_start 0 [] false false false new_url) (std_no_scheme_log inp)).
  { intros A. eapply rp_step; [exact (here_le _ _ _ H)| |reflexivity|apply s_no_scheme; exact H|reflexivity].
    st0 H. destruct inp as [|c t]; [reflexivity|]. cbn [hd_error]. now rewrite (A c t eq_refl). }
  destruct inp as [|c t] eqn:I; rewrite <- I in *.
  - apply NS. rewrite I. discriminate.
  - rewrite alpha_eq. destruct (std_alpha c) eqn:A.
    + assert (H1 : here 1 t) by (apply (here_next _ 0 c); rewrite <- I; exact H).
      pose proof (s_scheme t 1%nat [std_lower1 c] H1) as R.
      eapply rp_step; [exact (here_le _ _ _ H)|st0 H; rewrite I; cbn [hd_error]; rewrite A; reflexivity|reflexivity|exact R|].
      cbn [app]. destruct (span is_scheme_char t) as [a [|x r]]; [reflexivity|]. destruct (x =? 58); reflexivity.
    + apply NS. intros x y Z. rewrite I in Z. injection Z as <- <-. exact A.
Qed.
End Run.

(* ---------- the one place where the two differ ---------- *)
Lemma drive_unit c d t : is_windows_drive_letter [c; d] = true -> path_log true (c :: d :: t) = rep (d =? 124) VInvalidURLUnit ++ path_log true t.
Proof.
  rewrite any_drive_eq. cbn [std_any_drive_letter]. intros H. apply andb_true_iff in H as [H1 H2]. unfold std_alpha in H1.
  rewrite !path_log_cons. replace (c =? 63) with false by lia. replace (c =? 35) with false by lia. replace (c =? 47) with false by lia. replace (c =? 92) with false by lia.
  replace (d =? 63) with false by lia. replace (d =? 35) with false by lia. replace (d =? 47) with false by lia. replace (d =? 92) with false by lia. cbn [orb andb].
  rewrite !unit_eq. unfold std_unit_errors. replace (c =? 37) with false by lia. replace (d =? 37) with false by lia. cbn [andb negb report]. rewrite !app_nil_r, !andb_true_r.
  replace (std_url_code_point c) with true by (symmetry; unfold std_url_code_point; lia). cbn [negb report app]. f_equal.
  assert (d = 58 \/ d = 124) as [-> | ->] by lia; reflexivity.
Qed.
Definition one_more (l l' : log) : Prop :=
  exists l1 l2, l = l1 ++ VFileDriveLetterHost :: l2 /\ l' = l1 ++ VFileDriveLetterHost :: VInvalidURLUnit :: l2.
Definition differ (b : bool) (l l' : log) : Prop := if b then one_more l l' else l = l'.
Lemma differ_app b x l l' : differ b l l' -> differ b (x ++ l) (x ++ l').
Proof. destruct b; cbn [differ]; [|now intros ->]. intros (l1 & l2 & -> & ->). exists (x ++ l1), l2. now rewrite <- !app_assoc. Qed.
Definition pipe2 (t : str) : bool :=
  match t with
  | c :: d :: r => std_alpha c && (d =? 124) && match r with [] => true | e :: _ => (e =? 47) || (e =? 92) || (e =? 63) || (e =? 35) end
  | _ => false
  end.
Lemma host_differs E rest : differ (pipe2 rest) (std_file_host_log E rest) (file_host_log E rest).
Proof.
  unfold std_file_host_log, file_host_log. change (fun c => negb (mem c $"/\?#")) with (fun c => negb (host_end c)).
  pose proof (span_eq (fun c => negb (host_end c)) rest) as A. pose proof (LoopProofs.span_all (fun c => negb (host_end c)) rest) as B.
  pose proof (span_stop (fun c => negb (host_end c)) rest) as C. destruct (span (fun c => negb (host_end c)) rest) as [h t] eqn:SS. cbn [fst snd] in *.
  destruct (is_windows_drive_letter h) eqn:D.
  - assert (X : exists c d, h = [c; d]) by (rewrite any_drive_eq in D; destruct h as [|c [|d [|]]]; try discriminate; eauto). destruct X as (c & d & ->).
    cbn [app] in A. rewrite A. rewrite drive_unit by exact D. unfold file_host_errs. rewrite D.
    assert (P : pipe2 (c :: d :: t) = (d =? 124)).
    { cbn [pipe2]. rewrite any_drive_eq in D. cbn [std_any_drive_letter] in D. apply andb_true_iff in D as [-> _]. cbn [andb].
      assert (T : match t with [] => true | e :: _ => (e =? 47) || (e =? 92) || (e =? 63) || (e =? 35) end = true).
      { destruct t as [|e t]; [reflexivity|]. rewrite <- host_end_eq. now apply negb_false_iff. }
      rewrite T. apply andb_true_r. }
    rewrite P. destruct (d =? 124); cbn [differ rep app]; [|reflexivity]. exists [], (path_log true t). split; reflexivity.
  - replace (pipe2 rest) with false; [reflexivity|]. symmetry. destruct rest as [|c [|d r]]; try reflexivity. cbn [pipe2]. apply not_true_iff_false. intros P.
    apply andb_true_iff in P as [P P3]. apply andb_true_iff in P as [P1 P2]. cbn [span] in SS.
    assert (H1 : host_end c = false) by (rewrite host_end_eq; unfold std_alpha in P1; lia). assert (H2 : host_end d = false) by (rewrite host_end_eq; lia).
    rewrite H1, H2 in SS. cbn [negb] in SS.
    assert (T : span (fun c => negb (host_end c)) r = ([], r)) by (destruct r as [|e r]; [reflexivity|]; cbn [span]; rewrite host_end_eq, P3; reflexivity).
    rewrite T in SS. injection SS as <- <-. rewrite any_drive_eq in D. cbn [std_any_drive_letter] in D. rewrite P1, P2 in D. cbn [andb] in D. now rewrite orb_true_r in D.
Qed.
Lemma file_differs E base rest : differ (std_pipe_host rest) (std_file_log E base rest) (file_log E base rest).
Proof.
  unfold std_file_log, file_log. destruct rest as [|a t]; [reflexivity|]. destruct (is_slash a) eqn:Sa; rewrite slash_eq in Sa.
  2:{ replace (std_pipe_host (a :: t)) with false; [reflexivity|]. destruct t as [|b [|c [|d r]]]; try reflexivity. cbn [std_pipe_host]. now rewrite Sa. }
  unfold std_file_slash_log, file_slash_log. destruct t as [|b t]; [reflexivity|]. destruct (is_slash b) eqn:Sb; rewrite slash_eq in Sb.
  2:{ replace (std_pipe_host (a :: b :: t)) with false; [reflexivity|]. destruct t as [|c [|d r]]; try reflexivity. cbn [std_pipe_host]. now rewrite Sa, Sb. }
  replace (std_pipe_host (a :: b :: t)) with (pipe2 t) by (destruct t as [|c [|d r]]; try reflexivity; cbn [std_pipe_host pipe2]; now rewrite Sa, Sb).
  apply differ_app, differ_app, host_differs.
Qed.
Lemma std_lower_len s : length (std_lower s) = length s.
Proof. apply map_length. Qed.
Lemma pipe_no_scheme s : std_pipe_host s = true -> scheme_split s = None.
Proof.
  destruct s as [|a t]; [discriminate|]. intros H. unfold scheme_split. rewrite alpha_eq. replace (std_alpha a) with false; [reflexivity|].
  symmetry. destruct t as [|b [|c [|d r]]]; try discriminate. cbn [std_pipe_host] in H. unfold std_alpha in *. lia.
Qed.
Lemma file_first5 s sch t : scheme_split s = Some (sch, t) ->
  str_eqb (std_lower (firstn 5 s)) $"file:" = str_eqb (std_lower sch) $"file" /\ (std_lower sch = $"file" -> skipn 5 s = t).
Proof.
  intros H. apply scheme_split_ok in H as [K ->]. split.
  - destruct (str_eqb (std_lower sch) $"file") eqn:F.
    + apply str_eqb_eq in F. assert (L : length sch = 4%nat) by (rewrite <- (std_lower_len sch), F; reflexivity).
      destruct sch as [|c1 [|c2 [|c3 [|c4 [|]]]]]; try discriminate L. cbn [app firstn]. apply str_eqb_eq.
      change (std_lower [c1; c2; c3; c4; 58]) with (std_lower [c1; c2; c3; c4] ++ [58]). rewrite F. reflexivity.
    + apply not_true_iff_false. intros Q. apply str_eqb_eq in Q. apply not_true_iff_false in F. apply F. apply str_eqb_eq. clear F.
      assert (NC : Forall (fun c => c <> 58) sch).
      { apply Forall_forall. intros c Hc ->. apply (in_map std_lower1) in Hc. change (std_lower1 58) with 58 in Hc. change (lower sch) with (map std_lower1 sch) in K.
        destruct (map std_lower1 sch) as [|x r]; [destruct Hc|]. cbn [scheme_ok] in K. destruct K as [K1 K2]. rewrite forallb_forall in K2.
        destruct Hc as [->|Hc]; [discriminate K1|]. specialize (K2 58 Hc). discriminate K2. }
      change ($"file:") with [102; 105; 108; 101; 58] in Q. change ($"file") with [102; 105; 108; 101].
      assert (L58 : std_lower1 58 = 58) by reflexivity.
      assert (Lz : forall c, std_lower1 c = 58 -> c = 58) by (intros c; unfold std_lower1; destruct ((65 <=? c) && (c <=? 90)) eqn:Z; lia).
      destruct sch as [|c1 [|c2 [|c3 [|c4 [|c5 r]]]]]; cbn [app firstn std_lower map] in Q; try change (std_lower1 58) with 58 in Q; try discriminate Q.
      * injection Q as Q1 Q2 Q3 Q4. cbn [std_lower map]. congruence.
      * injection Q as Q1 Q2 Q3 Q4 Q5. exfalso. rewrite Forall_forall in NC. apply (NC c5); [right; right; right; right; left; reflexivity|]. now apply Lz.
  - intros F. assert (L : length sch = 4%nat) by (rewrite <- (std_lower_len sch), F; reflexivity).
    destruct sch as [|c1 [|c2 [|c3 [|c4 [|]]]]]; try discriminate L. reflexivity.
Qed.

Lemma main_differs E base s : base_ok base -> differ (file_pipe_host base s) (std_main_log E base (std_input s)) (main_log E base (std_input s)).
Proof.
  intros BO. unfold std_main_log, main_log, file_pipe_host. set (i := std_input s). destruct (scheme_split i) as [[sch t]|] eqn:Q.
  - destruct (file_first5 _ _ _ Q) as [F1 F2]. rewrite F1.
    replace (std_pipe_host i) with false by (symmetry; apply not_true_iff_false; intros P; apply pipe_no_scheme in P; congruence). rewrite andb_false_r, orb_false_r.
    unfold std_scheme_log, scheme_log. change (lower sch) with (std_lower sch). destruct (str_eqb (std_lower sch) $"file") eqn:F; [|reflexivity].
    apply str_eqb_eq in F. rewrite (F2 F). cbn [andb]. apply differ_app, file_differs.
  - replace (str_eqb (std_lower (firstn 5 i)) $"file:") with false.
    2:{ symmetry. apply not_true_iff_false. intros P. apply str_eqb_eq in P. assert (L : length (std_lower (firstn 5 i)) = 5%nat) by (rewrite P; reflexivity).
        rewrite std_lower_len in L. destruct i as [|c1 [|c2 [|c3 [|c4 [|c5 r]]]]]; try discriminate L. cbn [firstn] in P.
        change ($"file:") with [102; 105; 108; 101; 58] in P. cbn [std_lower map] in P. injection P as P1 P2 P3 P4 P5.
        assert (c5 = 58) by (revert P5; unfold std_lower1; destruct ((65 <=? c5) && (c5 <=? 90)) eqn:Z; lia). subst c5.
        assert (A : std_scheme [c1; c2; c3; c4] = true).
        { unfold std_lower1 in *. unfold std_scheme, std_scheme_char, std_alpha, std_digit. cbn [forallb].
          destruct ((65 <=? c1) && (c1 <=? 90)) eqn:Z1, ((65 <=? c2) && (c2 <=? 90)) eqn:Z2, ((65 <=? c3) && (c3 <=? 90)) eqn:Z3, ((65 <=? c4) && (c4 <=? 90)) eqn:Z4; lia. }
        apply scheme_spec in A. apply (scheme_split_syntax _ r) in A. cbn [app] in A. rewrite A in Q. discriminate. }
    cbn [andb orb]. unfold std_no_scheme_log, no_scheme_log. destruct base as [b|]; [|reflexivity].
    destruct (str_eqb (scheme b) $"file") eqn:F; [|cbn [andb]; destruct (has_opaque_path b); reflexivity].
    assert (O : has_opaque_path b = false) by (apply BO; unfold is_special; apply str_eqb_eq in F; rewrite F; reflexivity).
    rewrite O. cbn [andb]. apply file_differs.
Qed.

(* ---------- leading and trailing characters ---------- *)
Lemma input_reports_eq s : std_input_reports s = rep (needs_strip s) VInvalidURLUnit ++ rep (existsb is_tab_newline (strip_c0 s)) VInvalidURLUnit.
Proof. unfold std_input_reports, strip_c0. rewrite rstrip_eq, lstrip_eq. reflexivity. Qed.

(* ---------- the whole parser ---------- *)
Lemma parse_reports_det hp base s l1 l2 : std_parse_reports hp base s l1 -> std_parse_reports hp base s l2 -> l1 = l2.
Proof. intros (a & A & ->) (b & B & ->). f_equal. now apply (std_reported_det _ _ _ _ _ _ A). Qed.
Section Ports.
Context (E : env) (s : str) (base : option urlrec) (enc : str).
Hypothesis (He : normalize_encoding E enc = $"utf-8") (HP : forall b, std_port_read (code_host E) base s b -> short_for (int_limit E) b) (BG : std_good_base base).
Theorem reports_conform : exists l, std_parse_reports (code_host_log E) base s l /\ differ (file_pipe_host base s) l (fst (parse_new E s base enc)).
Proof.
  pose proof (base_good _ BG) as BO.
  exists (std_input_reports s ++ std_main_log E base (std_input s)). split.
  - exists (std_main_log E base (std_input s)). split; [|reflexivity]. apply s_main. exact HP.
  - rewrite parse_new_log; [|exact BO|].
    + rewrite input_reports_eq, <- input_eq. rewrite (app_assoc (rep (needs_strip s) VInvalidURLUnit)). apply differ_app. now apply main_differs.
    + intros u q. rewrite He, enc_query_utf8. discriminate.
Qed.
Theorem reports_equal : file_pipe_host base s = false ->
  forall l, std_parse_reports (code_host_log E) base s l <-> l = fst (parse_new E s base enc).
Proof.
  intros P. destruct reports_conform as (l0 & H & D). rewrite P in D. cbn [differ] in D. subst l0.
  intros l. split; [|now intros ->]. intros G. now apply (parse_reports_det _ _ _ _ _ G).
Qed.
Theorem reports_one_more : file_pipe_host base s = true ->
  exists l1 l2, fst (parse_new E s base enc) = l1 ++ VFileDriveLetterHost :: VInvalidURLUnit :: l2 /\
    forall l, std_parse_reports (code_host_log E) base s l <-> l = l1 ++ VFileDriveLetterHost :: l2.
Proof.
  intros P. destruct reports_conform as (l0 & H & D). rewrite P in D. destruct D as (l1 & l2 & -> & D).
  exists l1, l2. split; [exact D|]. intros l. split; [|now intros ->]. intros G. now apply (parse_reports_det _ _ _ _ _ G).
Qed.
End Ports.
