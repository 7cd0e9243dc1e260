(** The code's setters compute what the setters of SpecSetters.v compute. *)
From Coq Require Import Ascii String.
From Coq Require Import NArith ZArith Bool Arith Lia ZifyBool ZifyN ZifyNat List.
From Verif Require Import PyStr PyInt Codec Env HostModel UrlRecord Parser SearchParams UrlApi FlatParser Lemmas CodecProofs QuoteProofs LoopProofs FlatProofs
  IPv4Proofs IPv6Proofs WfProofs ParserProofs PathProofs ParamProofs SetterProofs LooseProofs ApiProofs ObjProofs UrlProps StandardProofs
  SpecText SpecHost SpecApi SpecUrl SpecParser SpecSetters SpecWhole.
Import ListNotations.
Open Scope N_scope.

Lemma override_det hp hn inp k u b v c : override_runs hp hn inp k u b -> override_runs hp hn inp k v c -> u = v /\ b = c.
Proof.
  intros H. revert v c. induction H as [k L|k u L S|k u L S|k k' u b L S H IH]; intros v c G; inversion G; subst; clear G; try lia; try congruence;
    try (split; congruence).
  apply IH. congruence.
Qed.
Definition okb {A} (r : res A) : bool := match r with Ok _ => true | Err _ => false end.
(** with the escaping ValueError *)
Definition okb3 {A} (r : res A) : option bool := match r with Ok _ => Some true | Err EValue => None | Err _ => Some false end.

Section Run.
Variable E : env.
Variable so : pstate.
Variable inp : str.
Notation hp := (code_host E).
Notation runs := (override_runs hp (is_hostname_override (Some so)) inp).
Notation here := (here inp).
Ltac st0 H := unfold override_step; cbn [k_state k_ptr k_buf k_at k_br k_pw k_url]; rewrite ?(here_nth inp _ _ H); cbn [hd_error sis orb andb negb].
Ltac st H := eapply or_step; [cbn [k_ptr]; exact (here_le inp _ _ H)|st0 H|].
Ltac rt H := eapply or_ret; [cbn [k_ptr]; exact (here_le inp _ _ H)|st0 H].
Ltac fl H := eapply or_fail; [cbn [k_ptr]; exact (here_le inp _ _ H)|st0 H].
Ltac fin H := eapply or_end; cbn [k_ptr]; exact (here_end inp _ H).

Lemma o_fragment rest : forall p f u buf a b w, here p rest -> fragment u = Some f ->
  runs (mkcfg S_fragment p buf a b w u) (set_fragment (Some (f ++ flat_map (enc1 fragment_set) rest)) u) true.
Proof.
  induction rest as [|c t IH]; intros p f u buf a b w H Hf.
  - replace (set_fragment _ u) with u; [rt H; reflexivity|]. destruct u. cbn in *. now rewrite Hf, app_nil_r.
  - st H; [rewrite Hf; reflexivity|]. cbn [flat_map]. rewrite app_assoc.
    replace (set_fragment (Some ((f ++ enc1 fragment_set c) ++ flat_map (enc1 fragment_set) t)) u)
      with (set_fragment (Some ((f ++ enc1 fragment_set c) ++ flat_map (enc1 fragment_set) t)) (set_fragment (Some (f ++ enc1 fragment_set c)) u)) by reflexivity.
    apply IH; [exact (here_next inp _ _ _ H)|reflexivity].
Qed.
Lemma query_enc u s : sv s -> std_percent_encode (if std_is_special u then special_query_set else SpecText.query_set) false s = put_query u s.
Proof.
  intros Hs. unfold put_query, WfProofs.query_set. rewrite special_eq. destruct (is_special u).
  - symmetry. apply (encode_conforms _ _ _ _ agree_special_query). now apply sv_py.
  - symmetry. apply (encode_conforms _ _ _ _ agree_query). now apply sv_py.
Qed.
Lemma o_query rest : forall p u buf a b w, here p rest -> sv (buf ++ rest) -> query u = Some [] ->
  runs (mkcfg S_query p buf a b w u) (set_query (Some (put_query u (buf ++ rest))) u) true.
Proof.
  induction rest as [|c t IH]; intros p u buf a b w H S Hq.
  - rewrite app_nil_r in *. rt H. rewrite Hq. cbn [app]. now rewrite query_enc.
  - st H; [reflexivity|]. replace (buf ++ c :: t) with ((buf ++ [c]) ++ t) in * by (rewrite <- app_assoc; reflexivity).
    apply IH; auto. exact (here_next inp _ _ _ H).
Qed.
Lemma o_path rest : forall p raw u l a b w, here p rest -> sv raw -> sv rest -> path u = PList l ->
  Forall (fun c => is_sep (is_special u) (Some c) = false) raw ->
  runs (mkcfg S_path p (pe raw) a b w u) (set_path (PList (walk (scheme u) l (pieces (is_special u) (raw ++ rest)))) u) true.
Proof.
  induction rest as [|c t IH]; intros p raw u l a b w H Sr S Hp N.
  - rewrite app_nil_r. rewrite pieces_nosep by exact N. cbn [walk].
    st H; [rewrite andb_false_r; reflexivity|]. rewrite (end_segment_eq u l) by assumption. fin H.
  - destruct (is_sep (is_special u) (Some c)) eqn:C3.
    + rewrite pieces_cons by assumption. rewrite walk_cons by apply pieces_nonempty. unfold is_sep, isc in C3.
      st H; [rewrite special_eq; rewrite C3; cbn [orb]; reflexivity|]. rewrite (end_segment_eq u l) by assumption.
      specialize (IH (Datatypes.S p) [] (set_path (PList (push (scheme u) true l raw)) u) (push (scheme u) true l raw) a b w (here_next inp _ _ _ H)).
      specialize (IH ltac:(constructor) (sv_cons _ _ S) eq_refl ltac:(constructor)). exact IH.
    + pose proof C3 as C3'. unfold is_sep, isc in C3. st H; [rewrite special_eq; rewrite C3; cbn [orb]; reflexivity|].
      specialize (IH (Datatypes.S p) (raw ++ [c]) u l a b w (here_next inp _ _ _ H)). rewrite <- app_assoc in IH. rewrite pe_app in IH.
      change (pe [c]) with (enc1 path_set c ++ []) in IH. rewrite app_nil_r in IH. apply IH.
      * apply sv_app. split; [exact Sr|]. constructor; [|constructor]. now inversion S.
      * exact (sv_cons _ _ S).
      * exact Hp.
      * apply Forall_app. split; [exact N|]. constructor; [exact C3'|constructor].
Qed.
Lemma o_path0 rest p u a b w : here p rest -> sv rest -> path u = PList [] ->
  runs (mkcfg S_path p [] a b w u) (set_path (PList (walk (scheme u) [] (pieces (is_special u) rest))) u) true.
Proof. intros H S O. apply (o_path rest p [] u [] a b w H (Forall_nil _) S O (Forall_nil _)). Qed.
Lemma o_path_start rest p u a b w : here p rest -> sv rest -> path u = PList [] ->
  runs (mkcfg S_path_start p [] a b w u) (set_path (PList (put_path u rest)) u) true.
Proof.
  intros H S O. unfold put_path.
  assert (P : forall rest p sp, here p rest -> sv rest -> is_special u = sp ->
    runs (mkcfg S_path p [] a b w u) (set_path (PList (walk (scheme u) [] (pieces sp rest))) u) true) by (intros r q sp X Y <-; now apply o_path0).
  destruct rest as [|c t].
  - destruct (is_special u) eqn:Q.
    + st H; [rewrite special_eq, Q; reflexivity|]. now apply P.
    + rt H. rewrite special_eq, Q. destruct (uhost u); [now rewrite (set_path_id _ _ O)|]. now rewrite (append_eq _ _ _ O).
  - destruct (is_special u) eqn:Q.
    + st H; [rewrite special_eq, Q; reflexivity|]. rewrite slash_eq. destruct ((c =? 47) || (c =? 92)).
      * apply P; [exact (here_next inp _ _ _ H)|exact (sv_cons _ _ S)|reflexivity].
      * now apply P.
    + st H; [rewrite special_eq, Q; reflexivity|]. destruct (c =? 47).
      * apply P; [exact (here_next inp _ _ _ H)|exact (sv_cons _ _ S)|reflexivity].
      * now apply P.
Qed.

(** The same runs, ending with [None] where the code raises ValueError *)
Notation hn := (is_hostname_override (Some so)).
Definition oasks (k : cfg) : bool :=
  match override_step (fun _ _ => None) hn inp k, override_step (fun _ _ => Some (HStr [])) hn inp k with
  | SFail _, SFail _ => false | SFail _, _ => true | _, _ => false end.
Definition oraising (k : cfg) : bool :=
  (override_port_ends inp k && too_long E (k_buf k)) || (oasks k && host_raises E (k_buf k) (negb (std_is_special (k_url k)))).
Inductive oruns : cfg -> urlrec -> option bool -> Prop :=
| ol_end k : (length inp < k_ptr k)%nat -> oruns k (k_url k) (Some true)
| ol_raise k : (k_ptr k <= length inp)%nat -> oraising k = true -> oruns k (k_url k) None
| ol_ret k u : (k_ptr k <= length inp)%nat -> oraising k = false -> override_step hp hn inp k = SRet u -> oruns k u (Some true)
| ol_fail k u : (k_ptr k <= length inp)%nat -> oraising k = false -> override_step hp hn inp k = SFail u -> oruns k u (Some false)
| ol_step k k' u b : (k_ptr k <= length inp)%nat -> oraising k = false -> override_step hp hn inp k = SGo k' -> oruns k' u b -> oruns k u b.
Lemma oraising_port p buf a b w u : oraising (mkcfg S_port p buf a b w u) = override_port_ends inp (mkcfg S_port p buf a b w u) && too_long E buf.
Proof.
  unfold oraising, oasks. cbn [k_buf]. change (override_step (fun _ _ => Some (HStr [])) hn inp (mkcfg S_port p buf a b w u)) with (override_step (fun _ _ => None) hn inp (mkcfg S_port p buf a b w u)).
  destruct (override_step (fun _ _ => None) hn inp (mkcfg S_port p buf a b w u)); cbn [andb]; now rewrite orb_false_r.
Qed.
Lemma oends_here p rest buf a b w u : here p rest -> match rest with c :: _ => std_digit c = false | [] => True end ->
  override_port_ends inp (mkcfg S_port p buf a b w u) = negb (length buf =? 0)%nat.
Proof.
  intros H R. unfold override_port_ends. cbn [k_state k_buf k_ptr]. rewrite (here_nth inp _ _ H). destruct rest as [|c t]; cbn [hd_error]; [|rewrite R; cbn [negb]]; now rewrite andb_true_r.
Qed.
Lemma oraising_no_ask k : k_state k <> S_port -> override_step (fun _ _ => None) hn inp k = override_step (fun _ _ => Some (HStr [])) hn inp k -> oraising k = false.
Proof.
  intros A B. unfold oraising, oasks. rewrite B. replace (override_port_ends inp k) with false by (unfold override_port_ends; destruct (k_state k); congruence).
  destruct (override_step (fun _ _ => Some (HStr [])) hn inp k); reflexivity.
Qed.
(** a step that hands the buffer to the host parser *)
Lemma oask_step k f : k_state k <> S_port -> (k_ptr k <= length inp)%nat ->
  (forall hp, override_step hp hn inp k = match hp (k_buf k) (negb (std_is_special (k_url k))) with None => SFail (k_url k) | Some h => f h end) ->
  (forall h, match f h with SFail _ => False | _ => True end) ->
  match snd (host_parse E (k_buf k) (negb (std_is_special (k_url k)))) with
  | Ok h => forall v b, match f h with SRet u => v = u /\ b = Some true | SGo k' => oruns k' v b | SFail u => False end -> oruns k v b
  | Err e => oruns k (k_url k) (okb3 (@Err unit e))
  end.
Proof.
  intros NP L X F. assert (Q : oraising k = host_raises E (k_buf k) (negb (std_is_special (k_url k)))).
  { unfold oraising, oasks. rewrite !X. replace (override_port_ends inp k) with false by (unfold override_port_ends; destruct (k_state k); congruence).
    specialize (F (HStr [])). destruct (f (HStr [])); [reflexivity|reflexivity|contradiction]. }
  specialize (X hp). unfold code_host in X. unfold host_raises in Q. destruct (snd (host_parse E (k_buf k) _)) as [h|e].
  - intros v b H. destruct (f h) as [k'|u|u].
    + eapply ol_step; [exact L|exact Q|exact X|exact H].
    + destruct H as [-> ->]. now apply ol_ret.
    + contradiction.
  - destruct e; cbn [okb3]; first [apply ol_raise; [exact L|exact Q]|apply ol_fail; [exact L|exact Q|exact X]].
Qed.
Ltac lst H := eapply ol_step; [cbn [k_ptr]; exact (here_le inp _ _ H)| |st0 H|].
Ltac lrt H := eapply ol_ret; [cbn [k_ptr]; exact (here_le inp _ _ H)| |st0 H].
Ltac lfl H := eapply ol_fail; [cbn [k_ptr]; exact (here_le inp _ _ H)| |st0 H].
Lemma span_ext f g (s : str) : (forall c, f c = g c) -> span f s = span g s.
Proof. intros H. induction s as [|c t IH]; [reflexivity|]. cbn [span]. now rewrite H, IH. Qed.
Lemma o_port rest : forall p u buf a b w, here p rest -> forallb std_digit buf = true ->
  let d := buf ++ fst (span std_digit rest) in
  let r := match flat_port E (scheme u) d with Ok x => (match d with [] => u | _ => set_port x u end, Some true) | Err e => (u, okb3 (@Err unit e)) end in
  oruns (mkcfg S_port p buf a b w u) (fst r) (snd r).
Proof.
  revert rest. assert (G : forall rest p u buf a b w, here p rest -> forallb std_digit buf = true ->
    match rest with c :: _ => std_digit c = false | [] => True end ->
    let r := match flat_port E (scheme u) buf with Ok x => (match buf with [] => u | _ => set_port x u end, Some true) | Err e => (u, okb3 (@Err unit e)) end in
    oruns (mkcfg S_port p buf a b w u) (fst r) (snd r)).
  { intros rest p u buf a b w H D R. unfold flat_port.
    assert (D' : forallb (fun c => mem c ASCII_DIGITS) buf = true).
    { rewrite forallb_forall in *. intros c Hc. rewrite digit_eq. auto. }
    pose proof (oraising_port p buf a b w u) as RP. rewrite (oends_here p rest buf a b w u H R) in RP.
    rewrite D'. destruct buf as [|x buf]; [|set (bf := x :: buf) in *].
    - cbn [fst snd]. destruct rest as [|c t]; (lrt H; [exact RP|]); [reflexivity|]. rewrite R. reflexivity.
    - change (negb (length bf =? 0)%nat && too_long E bf) with (too_long E bf) in RP.
      assert (V : e_int E bf 10 = if too_long E bf then None else Some (Z.of_N (std_decimal bf))).
      { unfold e_int. rewrite (py_int_digits_eq _ _ _ 10 bf (std_decimal bf)); [reflexivity|auto|discriminate|now apply decimal_eq]. }
      rewrite V. destruct (too_long E bf) eqn:TL.
      { cbn [fst snd okb3]. apply (ol_raise (mkcfg S_port p bf a b w u)); [exact (here_le inp _ _ H)|exact RP]. }
      rewrite N2Z.id. destruct (65535 <? std_decimal bf) eqn:Q.
      + cbn [fst snd okb3]. destruct rest as [|c t]; (lfl H; [exact RP|]); [|rewrite R]; cbn [bf length Nat.eqb]; fold bf; now rewrite Q.
      + cbn [fst snd]. rewrite <- port_of_eq. destruct rest as [|c t]; (lrt H; [exact RP|]); [|rewrite R]; cbn [bf length Nat.eqb]; fold bf; now rewrite Q. }
  intros rest. induction rest as [|c t IH]; intros p u buf a b w H D; cbn [span].
  - rewrite app_nil_r. apply (G [] p u buf a b w H D I).
  - destruct (std_digit c) eqn:Dc.
    + destruct (span std_digit t) as [x y] eqn:Sp. cbn [fst] in *. specialize (IH (Datatypes.S p) u (buf ++ [c]) a b w (here_next inp _ _ _ H)).
      rewrite <- !app_assoc in IH. cbn [app] in IH.
      assert (D2 : forallb std_digit (buf ++ [c]) = true) by (rewrite forallb_app, D; cbn [forallb]; now rewrite Dc).
      specialize (IH D2). cbv zeta in IH |- *. lst H; [|rewrite Dc; reflexivity|exact IH].
      rewrite oraising_port. unfold override_port_ends. cbn [k_state k_buf k_ptr]. rewrite (here_nth inp _ _ H). cbn [hd_error]. rewrite Dc. cbn [negb]. now rewrite andb_false_r.
    + cbn [fst]. rewrite app_nil_r. apply (G (c :: t) p u buf a b w H D Dc).
Qed.
Lemma o_port0 rest p u a b w : here p rest ->
  oruns (mkcfg S_port p [] a b w u) (fst (put_port E u rest)) (okb3 (snd (put_port E u rest))).
Proof.
  intros H. pose proof (o_port rest p u [] a b w H eq_refl) as R. cbn [app] in R. cbv zeta in R. unfold put_port. rewrite (span_ext _ std_digit) by (intros; apply digit_eq).
  destruct (flat_port E (scheme u) (fst (span std_digit rest))); exact R.
Qed.
Lemma fh_eq c : mem c $"/\?#" = (c =? 47) || (c =? 92) || (c =? 63) || (c =? 35).
Proof. change ($"/\?#") with [47; 92; 63; 35]. cbn [mem existsb]. rewrite orb_false_r. now rewrite !orb_assoc. Qed.
Lemma o_file_host rest : forall p u buf a b w, here p rest ->
  let r := match buf ++ fst (span (fun c => negb (mem c $"/\?#")) rest) with
    | [] => (set_host (Some (HStr [])) u, Some true)
    | h => match snd (host_parse E h (is_not_special u)) with Ok x => (set_host (Some (no_localhost x)) u, Some true) | Err e => (u, okb3 (@Err unit e)) end end in
  oruns (mkcfg S_file_host p buf a b w u) (fst r) (snd r).
Proof.
  revert rest. assert (G : forall rest p u buf a b w, here p rest -> match rest with c :: _ => mem c $"/\?#" = true | [] => True end ->
    let r := match buf with
    | [] => (set_host (Some (HStr [])) u, Some true)
    | h => match snd (host_parse E h (is_not_special u)) with Ok x => (set_host (Some (no_localhost x)) u, Some true) | Err e => (u, okb3 (@Err unit e)) end end in
    oruns (mkcfg S_file_host p buf a b w u) (fst r) (snd r)).
  { intros rest p u buf a b w H R.
    assert (X : forall hp, override_step hp hn inp (mkcfg S_file_host p buf a b w u) =
      if (length buf =? 0)%nat then SRet (set_host (Some (HStr [])) u)
        else match hp buf (negb (std_is_special u)) with
             | None => SFail u
             | Some h => SRet (set_host (Some (match h with HStr s => if str_eqb s $"localhost" then HStr [] else h | _ => h end)) u)
             end).
    { intros hp0. destruct rest as [|c t]; st0 H; [reflexivity|]. rewrite fh_eq in R. rewrite R. reflexivity. }
    destruct buf as [|c buf].
    { cbn [fst snd]. eapply ol_ret; [exact (here_le inp _ _ H)| |exact (X _)]. apply oraising_no_ask; [discriminate|]. now rewrite !X. }
    set (bf := c :: buf) in *. cbv zeta.
    pose proof (oask_step (mkcfg S_file_host p bf a b w u) (fun h => SRet (set_host (Some (match h with HStr s => if str_eqb s $"localhost" then HStr [] else h | _ => h end)) u))
      ltac:(discriminate) (here_le inp _ _ H) X (fun h => I)) as O.
    cbn [k_buf k_url] in O. change (negb (std_is_special u)) with (is_not_special u) in O.
    destruct (snd (host_parse E bf (is_not_special u))) as [x|e]; cbn [fst snd]; [|exact O]. apply O. split; reflexivity. }
  intros rest. induction rest as [|c t IH]; intros p u buf a b w H; cbn [span].
  - cbn [fst]. rewrite app_nil_r. pose proof (G [] p u buf a b w H I) as R. destruct buf; exact R.
  - destruct (mem c $"/\?#") eqn:Dc; cbn [negb].
    + cbn [fst]. rewrite app_nil_r. pose proof (G (c :: t) p u buf a b w H Dc) as R. destruct buf; exact R.
    + destruct (span (fun c => negb (mem c $"/\?#")) t) as [x y] eqn:Sp. cbn [fst] in *.
      specialize (IH (Datatypes.S p) u (buf ++ [c]) a b w (here_next inp _ _ _ H)). rewrite <- !app_assoc in IH. cbn [app] in IH.
      cbv zeta in IH |- *. rewrite fh_eq in Dc. lst H; [|rewrite Dc; reflexivity|exact IH].
      apply oraising_no_ask; [discriminate|]. st0 H. now rewrite Dc.
Qed.
Lemma port_seen u : (port u = Some 0 -> includes_credentials u = true) -> std_credentials u || std_has_port u = includes_credentials u || port_truthy (port u).
Proof.
  intros P0. unfold std_credentials, std_has_port, port_truthy in *. unfold includes_credentials in *. rewrite negb_andb. destruct (port u) as [[|n]|]; [|reflexivity|reflexivity].
  rewrite (P0 eq_refl). reflexivity.
Qed.
Lemma o_host rest : forall p u buf a b w, here p rest -> str_eqb (scheme u) $"file" = false ->
  (port u = Some 0 -> is_special u = false -> buf ++ fst (host_scan (is_special u) b rest) = [] -> isc (cur (snd (host_scan (is_special u) b rest))) 58 = false -> includes_credentials u = true) ->
  let r :=
    (let (h0, r) := host_scan (is_special u) b rest in
     let h := buf ++ h0 in
     if isc (cur r) 58 then
      if (length h =? 0)%nat then (u, Err EURLParse)
      else if is_hostname_override (Some so) then (u, Ok tt)
      else match snd (host_parse E h (is_not_special u)) with
           | Ok x => put_port E (set_host (Some x) u) (tl r)
           | Err e => (u, Err e)
           end
    else if (length h =? 0)%nat && is_special u then (u, Err EURLParse)
    else if (length h =? 0)%nat && (includes_credentials u || port_truthy (port u)) then (u, Ok tt)
    else match snd (host_parse E h (is_not_special u)) with
         | Ok x => (set_host (Some x) u, Ok tt)
         | Err e => (u, Err e)
         end) in
  oruns (mkcfg S_host p buf a b w u) (fst r) (okb3 (snd r)).
Proof.
  revert rest. assert (FIN : forall rest p u buf a b w, here p rest -> (port u = Some 0 -> is_special u = false -> buf = [] -> includes_credentials u = true) ->
    (forall hp, override_step hp hn inp (mkcfg S_host p buf a b w u) =
        if is_special u && (length buf =? 0)%nat then SFail u
        else if (length buf =? 0)%nat && (std_credentials u || std_has_port u) then SRet u
        else match hp buf (is_not_special u) with None => SFail u | Some h => SRet (set_host (Some h) u) end) ->
    let r := if (length buf =? 0)%nat && is_special u then (u, Err EURLParse)
    else if (length buf =? 0)%nat && (includes_credentials u || port_truthy (port u)) then (u, Ok tt)
    else match snd (host_parse E buf (is_not_special u)) with
         | Ok x => (set_host (Some x) u, Ok tt)
         | Err e => (u, Err e)
         end in
    oruns (mkcfg S_host p buf a b w u) (fst r) (okb3 (snd r))).
  { intros rest p u buf a b w H P0 X. cbv zeta. rewrite (andb_comm (is_special u)) in X.
    assert (NA : (length buf =? 0)%nat && is_special u = true \/ (length buf =? 0)%nat && (std_credentials u || std_has_port u) = true -> oraising (mkcfg S_host p buf a b w u) = false).
    { intros Y. apply oraising_no_ask; [discriminate|]. rewrite !X. destruct ((length buf =? 0)%nat && is_special u); [reflexivity|]. destruct Y as [Y|Y]; [discriminate|]. now rewrite Y. }
    destruct ((length buf =? 0)%nat && is_special u) eqn:Q1.
    { cbn [fst snd okb3]. apply ol_fail; [exact (here_le inp _ _ H)|apply NA; now left|exact (X _)]. }
    assert (PT : (length buf =? 0)%nat && (std_credentials u || std_has_port u) = (length buf =? 0)%nat && (includes_credentials u || port_truthy (port u))).
    { destruct buf; [|reflexivity]. cbn [length Nat.eqb andb] in *. apply port_seen. auto. }
    rewrite PT in X, NA. destruct ((length buf =? 0)%nat && (includes_credentials u || port_truthy (port u))) eqn:Q2.
    { cbn [fst snd okb3]. apply ol_ret; [exact (here_le inp _ _ H)|apply NA; now right|exact (X _)]. }
    pose proof (oask_step (mkcfg S_host p buf a b w u) (fun h => SRet (set_host (Some h) u)) ltac:(discriminate) (here_le inp _ _ H) X (fun h => I)) as O.
    cbn [k_buf k_url] in O. change (negb (std_is_special u)) with (is_not_special u) in O.
    destruct (snd (host_parse E buf (is_not_special u))) as [x|e]; cbn [fst snd]; [|exact O]. apply O. split; reflexivity. }
  intros rest. induction rest as [|c t IH]; intros p u buf a b w H F P0; cbn [host_scan] in *.
  - cbn [cur isc fst snd] in *. rewrite app_nil_r in *. cbv zeta. apply (FIN [] p u buf a b w H); [auto|].
    intros hp0. st0 H. rewrite F. reflexivity.
  - destruct ((c =? 58) && negb b) eqn:Q; cbn [orb fst snd] in *.
    + rewrite app_nil_r in *. cbn [cur isc tl]. apply andb_true_iff in Q as [Q1 Q2]. rewrite Q1. cbv zeta.
      assert (X : forall hp, override_step hp hn inp (mkcfg S_host p buf a b w u) =
        if (length buf =? 0)%nat then SFail u
        else if is_hostname_override (Some so) then SRet u
        else match hp buf (is_not_special u) with None => SFail u | Some h => SGo (mkcfg S_port (Datatypes.S p) [] a b w (set_host (Some h) u)) end).
      { intros hp0. st0 H. rewrite F, Q1, Q2. reflexivity. }
      destruct (length buf =? 0)%nat.
      { cbn [fst snd okb3]. apply ol_fail; [exact (here_le inp _ _ H)| |exact (X _)]. apply oraising_no_ask; [discriminate|now rewrite !X]. }
      destruct (is_hostname_override (Some so)) eqn:HO.
      { cbn [fst snd okb3]. apply ol_ret; [exact (here_le inp _ _ H)| |rewrite HO; exact (X _)]. apply oraising_no_ask; [discriminate|]. now rewrite HO, !X. }
      assert (X' : forall hp, override_step hp hn inp (mkcfg S_host p buf a b w u) =
        match hp buf (is_not_special u) with None => SFail u | Some h => SGo (mkcfg S_port (Datatypes.S p) [] a b w (set_host (Some h) u)) end) by (intros hp0; rewrite HO; apply X).
      pose proof (oask_step (mkcfg S_host p buf a b w u) (fun h => SGo (mkcfg S_port (Datatypes.S p) [] a b w (set_host (Some h) u))) ltac:(discriminate) (here_le inp _ _ H) X' (fun h => I)) as O.
      cbn [k_buf k_url] in O. change (negb (std_is_special u)) with (is_not_special u) in O.
      destruct (snd (host_parse E buf (is_not_special u))) as [x|e]; cbn [fst snd]; [|exact O]. apply O. apply o_port0. exact (here_next inp _ _ _ H).
    + destruct (ends_auth (is_special u) c) eqn:Ea.
      * cbn [fst snd] in *. rewrite app_nil_r in *. cbn [cur isc] in *. rewrite ends_eq in Ea.
        assert (C58 : (c =? 58) = false) by lia. rewrite C58 in *. cbv zeta. apply (FIN (c :: t) p u buf a b w H); [auto|].
        intros hp0. st0 H. rewrite F, C58, special_eq. cbn [andb]. rewrite Ea. reflexivity.
      * rewrite ends_eq in Ea. specialize (IH (Datatypes.S p) u (buf ++ [c]) a (if c =? 91 then true else if c =? 93 then false else b) w (here_next inp _ _ _ H) F).
        destruct (host_scan (is_special u) (if c =? 91 then true else if c =? 93 then false else b) t) as [h0 r]. cbv zeta in IH |- *.
        match type of IH with ?P -> _ => assert (P1 : P) by (intros _ _ Z; destruct buf; discriminate Z); specialize (IH P1); clear P1 end.
        rewrite <- app_assoc in IH. lst H; [|rewrite F, Q, special_eq, Ea; reflexivity|exact IH].
        apply oraising_no_ask; [discriminate|]. st0 H. now rewrite F, Q, special_eq, Ea.
Qed.
Lemma o_host0 rest p u a w : here p rest ->
  (port u = Some 0 -> is_special u = false -> fst (host_scan (is_special u) false rest) = [] -> isc (cur (snd (host_scan (is_special u) false rest))) 58 = false -> includes_credentials u = true) ->
  oruns (mkcfg S_host p [] a false w u) (fst (put_host E so u rest)) (okb3 (snd (put_host E so u rest))).
Proof.
  intros H P0. unfold put_host. destruct (str_eqb (scheme u) $"file") eqn:F.
  - lst H; [|rewrite F; reflexivity|].
    { apply oraising_no_ask; [discriminate|]. st0 H. now rewrite F. }
    pose proof (o_file_host rest p u [] a false w H) as R. cbn [app] in R. cbv zeta in R. unfold put_file_host.
    destruct (fst (span _ rest)); [exact R|]. destruct (snd (host_parse E _ _)); exact R.
  - pose proof (o_host rest p u [] a false w H F P0) as R. exact R.
Qed.
Lemma lower_same s : lower s = std_lower s. Proof. reflexivity. Qed.
Lemma o_scheme_end x t p u buf a b w : here p (x :: t) -> std_scheme_char x = false -> x =? 58 = true -> (port u = Some 0 -> is_special u = true -> buf = $"file" -> scheme u <> $"file" -> includes_credentials u = true) ->
  (scheme u = $"file" -> uhost u <> None) ->
  let r := if scheme_blocked u buf then u else put_scheme u buf in runs (mkcfg S_scheme p buf a b w u) r true.
Proof.
  intros H Sx X P0 FH. rt H. rewrite Sx, X. clear H. unfold scheme_blocked.
  change (std_is_special (set_scheme buf u)) with (special_scheme buf). rewrite special_eq. unfold is_not_special. change (special_scheme (scheme u)) with (is_special u).
  assert (XO : xorb (is_special u) (special_scheme buf) = is_special u && negb (special_scheme buf) || negb (is_special u) && special_scheme buf)
    by (destruct (is_special u), (special_scheme buf); reflexivity).
  rewrite XO. destruct (is_special u && negb (special_scheme buf) || negb (is_special u) && special_scheme buf) eqn:BL; cbn [orb]; [reflexivity|].
  assert (EH : str_eqb (scheme u) $"file" && std_empty_host u = str_eqb (scheme u) $"file" && null_or_empty_host (uhost u)).
  { destruct (str_eqb (scheme u) $"file") eqn:F; [|reflexivity]. apply str_eqb_eq in F. specialize (FH F). unfold std_empty_host, null_or_empty_host. destruct (uhost u) as [[[|]| |]|]; try reflexivity. congruence. }
  assert (DP : std_port_is_default (set_scheme buf u) = port_truthy (port u) && on_eqb (default_port buf) (port u)).
  { unfold std_port_is_default, default_port, std_special_schemes, SPECIAL_SCHEMES. cbn [existsb find fst snd scheme set_scheme port].
    repeat match goal with |- context [str_eqb buf ?x] => let Q := fresh "Q" in destruct (str_eqb buf x) eqn:Q; [apply str_eqb_eq in Q; subst buf; cbn; destruct (port u) as [[|n]|]; cbn; try congruence; try reflexivity; now rewrite ?orb_false_r|] end.
    cbn. destruct (port u) as [[|n]|]; reflexivity. }
  assert (SAME : str_eqb buf $"file" = true -> str_eqb (scheme u) $"file" = true -> port u = Some 0 -> (if port_truthy (port u) && on_eqb (default_port buf) (port u) then set_port None (set_scheme buf u) else set_scheme buf u) = u).
  { intros B1 B2 P. rewrite P. cbn [port_truthy andb]. apply str_eqb_eq in B1, B2. subst buf. destruct u. cbn in *. now subst. }
  destruct (str_eqb buf $"file") eqn:BF.
  - rewrite !andb_true_r. destruct (str_eqb (scheme u) $"file") eqn:SF.
    + assert (PZ : {port u = Some 0} + {port u <> Some 0}) by (destruct (port u) as [[|n]|]; [now left|right; discriminate..]). destruct PZ as [P|P].
      * unfold std_has_port. rewrite P, orb_true_r. change (port_truthy (Some 0)) with false. destruct (includes_credentials u || false); cbn [orb]; [reflexivity|].
        destruct (true && null_or_empty_host (uhost u)); [reflexivity|]. f_equal. symmetry. now apply SAME.
      * rewrite port_seen by congruence. destruct (includes_credentials u || port_truthy (port u)); cbn [orb]; [reflexivity|]. rewrite EH.
        destruct (true && null_or_empty_host (uhost u)); [reflexivity|]. f_equal. unfold put_scheme. now rewrite DP.
    + rewrite port_seen.
      * destruct (includes_credentials u || port_truthy (port u)); cbn [orb]; [reflexivity|]. cbn [andb]. f_equal. unfold put_scheme. now rewrite DP.
      * intros P. apply P0; [exact P| |now apply str_eqb_eq|now apply str_eqb_neq]. apply str_eqb_eq in BF. subst buf. destruct (is_special u); [reflexivity|]. discriminate BL.
  - rewrite !andb_false_r. cbn [orb]. rewrite EH. destruct (str_eqb (scheme u) $"file" && null_or_empty_host (uhost u)); [reflexivity|]. f_equal. unfold put_scheme. now rewrite DP.
Qed.
Lemma o_scheme rest : forall p u buf a b w, here p rest ->
  (port u = Some 0 -> is_special u = true -> scheme u <> $"file" -> buf ++ lower (fst (span is_scheme_char rest)) = $"file" ->
   isc (cur (snd (span is_scheme_char rest))) 58 = true -> includes_credentials u = true) -> (scheme u = $"file" -> uhost u <> None) ->
  let r := match span is_scheme_char rest with
           | (x, y :: _) => if y =? 58 then (if scheme_blocked u (buf ++ lower x) then (u, true) else (put_scheme u (buf ++ lower x), true)) else (u, false)
           | (_, []) => (u, false) end in
  runs (mkcfg S_scheme p buf a b w u) (fst r) (snd r).
Proof.
  induction rest as [|c t IH]; intros p u buf a b w H P0 FH; cbn [span].
  - cbn [fst snd]. fl H. reflexivity.
  - rewrite scheme_char_eq. destruct (std_scheme_char c) eqn:Sc.
    + specialize (IH (Datatypes.S p) u (buf ++ [std_lower1 c]) a b w (here_next inp _ _ _ H)). cbn [span] in P0. rewrite scheme_char_eq, Sc in P0.
      destruct (span is_scheme_char t) as [x y]. cbn [fst snd] in IH, P0. rewrite <- app_assoc in IH. change (lower (c :: x)) with ([std_lower1 c] ++ lower x) in P0. specialize (IH P0 FH). cbv zeta in IH |- *.
      change (lower (c :: x)) with ([std_lower1 c] ++ lower x). st H; [rewrite Sc; reflexivity|exact IH].
    + cbv zeta. cbn [span] in P0. rewrite scheme_char_eq, Sc in P0. cbn [fst snd cur isc] in P0. change (lower []) with (@nil N) in *. rewrite app_nil_r in *. destruct (c =? 58) eqn:X.
      * pose proof (o_scheme_end c t p u buf a b w H Sc X (fun A B C D => P0 A B D C eq_refl) FH) as R. cbv zeta in R. destruct (scheme_blocked u buf); exact R.
      * cbn [fst snd]. fl H. rewrite Sc, X. reflexivity.
Qed.
Lemma o_scheme0 rest p u a b w : here p rest -> (port u = Some 0 -> is_special u = true -> scheme u <> $"file" -> forall x y, scheme_split rest = Some (x, y) -> lower x = $"file" -> includes_credentials u = true) ->
  (scheme u = $"file" -> uhost u <> None) ->
  let r := match scheme_split rest with
    | Some (s, _) => if scheme_blocked u (lower s) then (u, true) else (put_scheme u (lower s), true)
    | None => (u, false) end in
  runs (mkcfg S_scheme_start p [] a b w u) (fst r) (snd r).
Proof.
  intros H P0 FH. unfold scheme_split in *. destruct rest as [|c t]; [cbn [fst snd]; fl H; reflexivity|]. rewrite alpha_eq in *.
  destruct (std_alpha c) eqn:A; [|cbn [fst snd]; fl H; now rewrite A].
  pose proof (o_scheme t (Datatypes.S p) u [std_lower1 c] a b w (here_next inp _ _ _ H)) as R. cbv zeta in R |- *.
  match type of R with ?P -> _ => assert (P1 : P); [|specialize (R P1 FH); clear P1] end.
  { intros P Q S4 B C. destruct (span is_scheme_char t) as [x [|y r]]; cbn [fst snd cur isc] in *; [discriminate C|]. rewrite C in P0. exact (P0 P Q S4 _ _ eq_refl B). }
  st H; [rewrite A; reflexivity|]. destruct (span is_scheme_char t) as [x [|y r]]; [exact R|]. destruct (y =? 58); [|exact R].
  change (lower (c :: x)) with ([std_lower1 c] ++ lower x). exact R.
Qed.
End Run.

Lemma here0 (s : str) : StandardProofs.here s 0 s. Proof. exists []. auto. Qed.
(** * Runs that raise *)
Lemma fail_same hn inp k v w : override_step (fun _ _ => None) hn inp k = SFail v -> override_step (fun _ _ => Some (HStr [])) hn inp k = SFail w -> v = w.
Proof.
  destruct k as [st p buf a br pw u]. unfold override_step. cbn [k_state k_ptr k_buf k_at k_br k_pw k_url]. intros H G.
  destruct st; try congruence;
  repeat match goal with
    | H : context [match ?x with _ => _ end] |- _ =>
        lazymatch x with context [match _ with _ => _ end] => fail | _ => destruct x eqn:? end; try discriminate
    end; congruence.
Qed.
Lemma fail_url hp hn inp k v : override_step hp hn inp k = SFail v -> v = k_url k.
Proof.
  destruct k as [st p buf a br pw u]. unfold override_step. cbn [k_state k_ptr k_buf k_at k_br k_pw k_url]. intros H.
  destruct st; try congruence;
  repeat match goal with
    | H : context [match ?x with _ => _ end] |- _ =>
        lazymatch x with context [match _ with _ => _ end] => fail | _ => destruct x eqn:? end; try discriminate
    end; congruence.
Qed.
Lemma ostep_none hp hn inp k : hp (k_buf k) (negb (std_is_special (k_url k))) = None -> override_step hp hn inp k = override_step (fun _ _ => None) hn inp k.
Proof.
  destruct k as [st p buf a br pw u]. unfold override_step. cbn [k_state k_ptr k_buf k_at k_br k_pw k_url]. intros ->. destruct st; reflexivity.
Qed.
Lemma oasks_here so inp k : (k_ptr k <= length inp)%nat -> oasks so inp k = true <->
  exists v, override_step (fun _ _ => None) (is_hostname_override (Some so)) inp k = SFail v /\ override_step (fun _ _ => Some (HStr [])) (is_hostname_override (Some so)) inp k <> SFail v.
Proof.
  intros L. unfold oasks. destruct (override_step (fun _ _ => None) _ inp k) as [x|x|x] eqn:A.
  - split; [discriminate|]. intros (v & X & _). discriminate X.
  - split; [discriminate|]. intros (v & X & _). discriminate X.
  - destruct (override_step (fun _ _ => Some (HStr [])) _ inp k) as [y|y|y] eqn:B.
    + split; [|reflexivity]. intros _. exists x. split; [reflexivity|discriminate].
    + split; [|reflexivity]. intros _. exists x. split; [reflexivity|discriminate].
    + split; [discriminate|]. intros (v & X & Y). injection X as <-. pose proof (fail_same _ _ _ _ _ A B). congruence.
Qed.
Lemma oruns_std E so inp k u r : oruns E so inp k u r ->
  let hn := is_hostname_override (Some so) in
  match r with
  | Some b => override_runs (code_host E) hn inp k u b
  | None => (exists b, override_reads (code_host E) hn inp k b /\ too_long E b = true) \/
            (override_runs (code_host E) hn inp k u false /\ exists h o, override_asks (code_host E) hn inp k h o /\ host_raises E h o = true)
  end.
Proof.
  cbv zeta. induction 1 as [k L|k L Q|k u L Q S|k u L Q S|k k' u r L Q S R IH].
  - now apply or_end.
  - unfold oraising in Q. apply orb_true_iff in Q as [Q|Q]; apply andb_true_iff in Q as [Q1 Q2].
    + left. exists (k_buf k). split; [now apply ord_here|exact Q2].
    + right. pose proof (proj1 (oasks_here so inp k L) Q1) as (v & A & B). split; [|exists (k_buf k), (negb (std_is_special (k_url k))); split; [eapply oa_here; eauto|exact Q2]].
      apply or_fail; [exact L|]. rewrite ostep_none; [rewrite A; f_equal; exact (fail_url _ _ _ _ _ A)|]. unfold code_host, host_raises in *. destruct (snd (host_parse E _ _)) as [x|e]; [discriminate|reflexivity].
  - now apply or_ret.
  - now apply or_fail.
  - destruct r as [b|]; [eapply or_step; eassumption|]. destruct IH as [(b & A & B)|(A & h & o & B & C)].
    + left. exists b. split; [eapply ord_later; eassumption|exact B].
    + right. split; [eapply or_step; eassumption|]. exists h, o. split; [eapply oa_later; eassumption|exact C].
Qed.
Lemma oreads_raise E so inp k b u r : override_reads (code_host E) (is_hostname_override (Some so)) inp k b -> too_long E b = true -> oruns E so inp k u r -> r = None.
Proof.
  intros A B. revert u r. induction A as [k L Q|k k' b L S A IH]; intros u r R.
  - assert (X : oraising E so inp k = true) by (unfold oraising; now rewrite Q, B). inversion R; subst; try reflexivity; try congruence. lia.
  - inversion R; subst; try reflexivity; try congruence; [lia|]. assert (k' = k'0) by congruence. subst. eauto.
Qed.
Lemma oasks_raise E so inp k h o u r : override_asks (code_host E) (is_hostname_override (Some so)) inp k h o -> host_raises E h o = true -> oruns E so inp k u r -> r = None.
Proof.
  intros A B. revert u r. induction A as [k v L S1 S2|k k' h o L S A IH]; intros u r R.
  - assert (X : oraising E so inp k = true). { unfold oraising. rewrite (proj2 (oasks_here so inp k L)), B by eauto. apply orb_true_r. }
    inversion R; subst; try reflexivity; try congruence. lia.
  - inversion R; subst; try reflexivity; try congruence; [lia|]. assert (k' = k'0) by congruence. subst. eauto.
Qed.
Lemma oruns_calm E so inp k u r : oruns E so inp k u r ->
  (forall b, override_reads (code_host E) (is_hostname_override (Some so)) inp k b -> short_for (int_limit E) b) ->
  override_runs (code_host E) (is_hostname_override (Some so)) inp k u (match r with Some b => b | None => false end).
Proof.
  intros R HL. apply oruns_std in R. cbv zeta in R. destruct r as [b|]; [exact R|]. destruct R as [(b & A & B)|(R & _)]; [|exact R]. apply too_long_iff in B. elim B. auto.
Qed.
Lemma oruns_raise E so inp k u r : oruns E so inp k u r ->
  (r = None <->
   (exists b, override_reads (code_host E) (is_hostname_override (Some so)) inp k b /\ ~ short_for (int_limit E) b) \/
   (exists h o, override_asks (code_host E) (is_hostname_override (Some so)) inp k h o /\ snd (host_parse E h o) = Err EValue)).
Proof.
  intros R. split.
  - intros ->. apply oruns_std in R as [(b & A & B)|(_ & h & o & A & B)].
    + left. exists b. split; [exact A|now apply too_long_iff].
    + right. exists h, o. split; [exact A|now apply host_raises_iff].
  - intros [(b & A & B)|(h & o & A & B)].
    + eapply oreads_raise; [exact A|now apply too_long_iff|exact R].
    + eapply oasks_raise; [exact A|now apply host_raises_iff|exact R].
Qed.
Lemma okb3_none {A} (r : res A) : okb3 r = None <-> r = Err EValue.
Proof. destruct r as [x|[]]; cbn [okb3]; split; intros H; try discriminate H; reflexivity. Qed.
Lemma okb3_okb {A} (r : res A) : match okb3 r with Some b => b | None => false end = okb r.
Proof. destruct r as [x|[]]; reflexivity. Qed.

(** port 0 *)
Definition bare_host (s : str) : Prop := match s with [] => True | c :: _ => c = 47 \/ c = 63 \/ c = 35 end.
Lemma bare_scan s : fst (host_scan false false s) = [] -> isc (cur (snd (host_scan false false s))) 58 = false -> bare_host s.
Proof.
  destruct s as [|c t]; [reflexivity|]. cbn [host_scan negb]. rewrite andb_true_r. destruct (c =? 58) eqn:Q; cbn [orb].
  { intros _ H. cbn [snd cur isc] in H. congruence. }
  destruct (ends_auth false c) eqn:Ea.
  - intros _ _. rewrite ends_eq in Ea. cbn [andb bare_host] in *. lia.
  - destruct (host_scan false _ t). discriminate.
Qed.
Lemma scan_bare s : bare_host s -> fst (host_scan false false s) = [] /\ isc (cur (snd (host_scan false false s))) 58 = false.
Proof.
  destruct s as [|c t]; [split; reflexivity|]. cbn [host_scan bare_host]. intros H. assert (E1 : ends_auth false c = true) by (rewrite ends_eq; lia). rewrite E1, orb_true_r. cbn [fst snd cur isc]. split; [reflexivity|lia].
Qed.
Lemma no_cred u : includes_credentials u = false <-> username u = [] /\ password u = [].
Proof.
  unfold includes_credentials. destruct (username u), (password u); cbn; split; intros H; try discriminate H; try (destruct H; discriminate); auto.
Qed.
Lemma bare_put E so u t : is_special u = false -> includes_credentials u = false -> port u = Some 0 -> bare_host t ->
  put_host E so u t = (set_host (Some (HStr [])) u, Ok tt).
Proof.
  intros HS HC HP HB. unfold put_host. destruct (str_eqb (scheme u) $"file") eqn:F.
  { apply str_eqb_eq in F. unfold is_special in HS. rewrite F in HS. discriminate HS. }
  apply scan_bare in HB as [H1 H2]. rewrite HS. destruct (host_scan false false t) as [h r]. cbn [fst snd] in *. subst h. rewrite H2, HC, HP. reflexivity.
Qed.
Lemma bare_runs E so inp u : is_special u = false -> port u = Some 0 -> bare_host inp ->
  oruns E so inp (mkcfg S_host 0 [] false false false u) u (Some true).
Proof.
  intros HS HP HB. assert (F : str_eqb (scheme u) $"file" = false).
  { apply str_eqb_neq. intros F. unfold is_special in HS. rewrite F in HS. discriminate HS. }
  assert (X : forall hp hn, override_step hp hn inp (mkcfg S_host 0 [] false false false u) = SRet u).
  { intros hp hn. unfold override_step. cbn [k_state k_ptr k_buf k_at k_br k_pw k_url]. rewrite F, special_eq, HS. unfold std_has_port. rewrite HP, orb_true_r.
    destruct inp as [|c t]; [reflexivity|]. cbn [nth_error sis bare_host] in *. assert (c =? 58 = false) by lia. rewrite H. cbn [andb orb]. assert ((c =? 47) || (c =? 63) || (c =? 35) = true) by lia. rewrite H0. reflexivity. }
  apply ol_ret; [cbn [k_ptr]; lia| |apply X]. apply oraising_no_ask; [discriminate|]. now rewrite !X.
Qed.
(** the host setters: what the standard's machine does *)
Lemma host_runs E so inp u :
  exists w, oruns E so inp (mkcfg S_host 0 [] false false false u) w (okb3 (snd (put_host E so u inp))) /\
    (w = fst (put_host E so u inp) \/
     (port u = Some 0 /\ includes_credentials u = false /\ is_special u = false /\ bare_host inp /\ w = u)).
Proof.
  assert (D : (port u = Some 0 /\ includes_credentials u = false /\ is_special u = false /\ bare_host inp) \/
    (port u = Some 0 -> is_special u = false -> fst (host_scan (is_special u) false inp) = [] -> isc (cur (snd (host_scan (is_special u) false inp))) 58 = false -> includes_credentials u = true)).
  { destruct (is_special u) eqn:S1; [right; discriminate|]. destruct (includes_credentials u) eqn:C; [right; reflexivity|].
    destruct (port u) as [[|n]|] eqn:P; [|right; discriminate..].
    destruct (fst (host_scan false false inp)) eqn:B; [|right; discriminate]. destruct (isc (cur (snd (host_scan false false inp))) 58) eqn:B2; [right; discriminate|].
    left. repeat split; auto. now apply bare_scan. }
  destruct D as [(P & C & S1 & B)|D].
  - exists u. rewrite bare_put by assumption. cbn [snd okb3]. split; [now apply bare_runs|]. right. auto.
  - exists (fst (put_host E so u inp)). split; [|now left]. apply o_host0; [apply here0|exact D].
Qed.
(** * The setters *)
Lemma set_det hp s u v b v' b' : std_set hp s u v b -> std_set hp s u v' b' -> v = v' /\ b = b'.
Proof.
  intros H G. destruct H; inversion G; subst; try (split; reflexivity); try congruence; try (exfalso; auto; fail);
    try (eapply override_det; eassumption);
    match goal with A : std_basic_parse hp None ?t ?x, B : std_basic_parse hp None ?t ?y |- _ => pose proof (std_runs_det _ _ _ _ _ _ A B) as Q; try discriminate Q; split; congruence end.
Qed.
Lemma strip_spaces_eq s : std_strip_spaces s = rstrip_by (fun c => c =? 32) s.
Proof.
  induction s as [|c t IH]; [reflexivity|]. cbn [std_strip_spaces]. rewrite IH. unfold rstrip_by. cbn [rev].
  assert (D : forall l (x : N), drop_while (fun c => c =? 32) (l ++ [x]) = match drop_while (fun c => c =? 32) l with [] => if x =? 32 then [] else [x] | r => r ++ [x] end).
  { induction l as [|y l IHl]; intros x; cbn [app drop_while]; [destruct (x =? 32); reflexivity|]. destruct (y =? 32); [apply IHl|reflexivity]. }
  rewrite D. destruct (drop_while (fun c => c =? 32) (rev t)) as [|y r]; [destruct (c =? 32); reflexivity|]. rewrite rev_app_distr. cbn [rev app].
  destruct (rev r ++ [y]) eqn:Q; [destruct (rev r); discriminate|]. reflexivity.
Qed.
Lemma rstrip_ext f g s : (forall c, In c s -> f c = g c) -> rstrip_by f s = rstrip_by g s.
Proof.
  intros H. unfold rstrip_by. f_equal. assert (A : forall c, In c (rev s) -> f c = g c) by (intros c Hc; apply H; now apply in_rev).
  induction (rev s) as [|c t IH]; [reflexivity|]. cbn [drop_while]. rewrite <- (A c (or_introl eq_refl)). destruct (f c); [|reflexivity]. apply IH. intros; apply A. now right.
Qed.
Lemma potentially_eq E E0 u v : loose E u -> path v = path u -> potentially_rstrip E0 v = std_potentially_strip v.
Proof.
  intros HL P. unfold potentially_rstrip, std_potentially_strip. destruct (path v) as [s|l] eqn:Q; [|reflexivity]. destruct (fragment v); [reflexivity|]. destruct (query v); [reflexivity|].
  assert (C : qs SAFE_C0_CONTROL s). { destruct HL as (_ & B & _). unfold loose_path in B. rewrite <- P in B. tauto. }
  rewrite strip_spaces_eq. rewrite (rstrip_ext _ (fun c => c =? 32)); [reflexivity|]. intros c Hc. apply py_space_c0. now apply (c0_safe_char s).
Qed.
Lemma tabs_same s : remove_tabs s = std_strip_tabs s. Proof. reflexivity. Qed.
Lemma drop_same c v : strip_char c v = drop_leading c v. Proof. destruct v; reflexivity. Qed.
Lemma strip_tabs_sv s : sv s -> sv (std_strip_tabs s).
Proof. intros H. apply Forall_forall. intros c Hc. apply filter_In in Hc as [Hc _]. unfold sv in H. rewrite Forall_forall in H. auto. Qed.
Lemma strip_tabs_len s : (length (std_strip_tabs s) <= length s)%nat. Proof. apply filter_len. Qed.
Lemma drop_sv c v : sv v -> sv (drop_leading c v).
Proof. intros H. destruct v as [|x t]; [constructor|]. cbn [drop_leading]. destruct (x =? c); [exact (sv_cons _ _ H)|exact H]. Qed.
Lemma enc_frag_eq s : sv s -> enc_fragment s = flat_map (enc1 fragment_set) s.
Proof. intros H. unfold enc_fragment. apply sv_enc; [|exact H]. intros. now apply (encode_conforms _ _ _ _ agree_fragment). Qed.
Lemma opaque_spec u : has_opaque_path u = true <-> std_opaque u.
Proof. unfold has_opaque_path, std_opaque. destruct (path u) as [s|l]; split; intros H; try discriminate; try reflexivity; [eauto|]. destruct H as [s H]. discriminate. Qed.

Lemma split_lower s x y : scheme_split s = Some (x, y) -> s = x ++ 58 :: y.
Proof. intros H. now apply scheme_split_ok in H. Qed.
Lemma file_split s f r : s = f ++ 58 :: r -> std_lower f = $"file" -> scheme_split s = Some (f, r).
Proof.
  intros -> L. destruct f as [|a [|b [|c [|d [|]]]]]; try discriminate L. unfold std_lower in L. cbn [map] in L. injection L as A B C D.
  assert (AL : forall x y, std_lower1 x = y -> std_alpha y = true -> std_alpha x = true) by (intros x y <-; unfold std_alpha, std_lower1 in *; destruct ((65 <=? x) && (x <=? 90)) eqn:Q; lia).
  cbn [app scheme_split]. rewrite alpha_eq, (AL _ _ A eq_refl). cbn [span]. rewrite !scheme_char_eq.
  assert (SC : forall x, std_alpha x = true -> std_scheme_char x = true) by (intros x X; unfold std_scheme_char; now rewrite X).
  rewrite (SC _ (AL _ _ B eq_refl)), (SC _ (AL _ _ C eq_refl)), (SC _ (AL _ _ D eq_refl)). reflexivity.
Qed.
Theorem setters_conform E s o : reached E o -> scalar_string (text_of s) ->
  (forall b, setter_reads (code_host (with_validity E false)) s (o_url o) b -> short_for (int_limit E) b) -> ~ port_zero_case s (o_url o) ->
  forall v b, std_set (code_host (with_validity E false)) s (o_url o) v b <->
    v = o_url (fst (set_attr E s o)) /\ b = okb (snd (set_attr E s o)).
Proof.
  intros HR HS HL P0 v b. set (u := o_url o) in *. apply reached_inv in HR as (HO & _).
  assert (SV : sv (text_of s)). { destruct HS as [H1 H2]. apply Forall_forall. unfold is_pystr, surrogate_free in *. rewrite Forall_forall in H1, H2. auto. }
  assert (FH : scheme u = $"file" -> uhost u <> None).
  { intros F Z. destruct HO as ((_ & _ & _ & W & _) & _ & _). unfold wf_host in W. fold u in W. rewrite Z in W. unfold is_special in W. rewrite F in W. discriminate W. }
  cut (std_set (code_host (with_validity E false)) s u (o_url (fst (set_attr E s o))) (okb (snd (set_attr E s o)))).
  { intros A. split; [intros B; exact (set_det _ _ _ _ _ _ _ B A)|]. intros [-> ->]. exact A. }
  assert (NA : forall b, cannot_have_username_password_port u = b -> if b then std_no_authority u else ~ std_no_authority u).
  { intros x X. destruct x; [now apply no_authority_spec|]. intros Y. apply no_authority_spec in Y. congruence. }
  assert (OP : forall b, has_opaque_path u = b -> if b then std_opaque u else ~ std_opaque u).
  { intros x X. destruct x; [now apply opaque_spec|]. intros Y. apply opaque_spec in Y. congruence. }
  assert (OH : forall so t, so = HOST \/ so = HOSTNAME -> (forall b, override_reads (code_host (EE E)) (is_hostname_override (Some so)) (std_strip_tabs t) (mkcfg S_host 0 [] false false false u) b -> short_for (int_limit E) b) ->
     ~ (port u = Some 0 /\ username u = [] /\ password u = [] /\ std_is_special u = false /\ uhost u <> Some (HStr []) /\ bare_host (std_strip_tabs t)) ->
     std_override (code_host (EE E)) S_host (is_hostname_override (Some so)) t u (fst (put_host (EE E) so u (std_strip_tabs t))) (okb (snd (put_host (EE E) so u (std_strip_tabs t))))).
  { intros so t Hso L Z. destruct (host_runs (EE E) so (std_strip_tabs t) u) as (w & R & W). apply oruns_calm in R; [|exact L]. rewrite okb3_okb in R. unfold std_override.
    destruct W as [<-|(P & C & S1 & B & ->)]; [exact R|]. apply no_cred in C as C'. rewrite bare_put in * by assumption. cbn [fst snd okb] in *.
    assert (HU : uhost u = Some (HStr [])).
    { destruct (uhost u) as [[[|]| |]|] eqn:Q; try reflexivity; exfalso; apply Z; (split; [exact P|]); destruct C' as [C1 C2]; repeat (split; [assumption|]); (split; [discriminate|exact B]). }
    replace (set_host (Some (HStr [])) u) with u; [exact R|]. clear - HU. destruct u. cbn in *. now subst. }
  destruct s as [t|t|t|t|t|t|t|t|t|t]; cbn [text_of] in SV; cbn [setter_reads] in HL; unfold set_attr; cbv zeta; fold u.
  - destruct t as [|c t].
    + cbn [fst snd o_url okb]. rewrite (potentially_eq (EE E) E u) by (auto; reflexivity). apply ss_hash_empty.
    + rewrite reparse_fragment, drop_same, tabs_same. unfold with_url. cbn [fst snd o_url okb]. apply ss_hash; [discriminate|].
      unfold std_override. rewrite enc_frag_eq by now apply strip_tabs_sv, drop_sv.
      exact (o_fragment (EE E) FRAGMENT _ _ 0 [] (set_fragment (Some []) u) [] false false false (here0 _) eq_refl).
  - specialize (OP _ eq_refl). destruct (has_opaque_path u); [apply (ss_host_no _ t u OP)|]. rewrite reparse_host, tabs_same. unfold with_url. cbn [fst snd o_url].
    apply ss_host; [exact OP|]. apply (OH HOST t); [now left|auto|]. intros (Z1 & Z2 & Z3 & Z4 & Z5 & Z6). apply P0. now repeat (split; [assumption|]).
  - specialize (OP _ eq_refl). destruct (has_opaque_path u); [apply (ss_hostname_no _ t u OP)|]. rewrite reparse_hostname, tabs_same. unfold with_url. cbn [fst snd o_url].
    apply ss_hostname; [exact OP|]. apply (OH HOSTNAME t); [now right|auto|]. intros (Z1 & Z2 & Z3 & Z4 & Z5 & Z6). apply P0. now repeat (split; [assumption|]).
  - pose proof (conforms_ports (EE E) t None UTF8 eq_refl HS HL I eq_refl) as C.
    destruct (snd (parse_new (EE E) t None UTF8)) as [x|e] eqn:Q; cbn [fst snd o_url okb outcome] in *; fold u.
    + apply ss_href. now apply C.
    + apply ss_href_fail. now apply C.
  - specialize (NA _ eq_refl). destruct (cannot_have_username_password_port u); [apply (ss_password_no _ t u NA)|]. cbn [fst snd o_url okb].
    rewrite (encode_conforms _ _ _ _ agree_userinfo) by exact (proj1 HS). now apply ss_password.
  - specialize (OP _ eq_refl). destruct (has_opaque_path u); [apply (ss_pathname_no _ t u OP)|]. rewrite reparse_path, tabs_same. unfold with_url. cbn [fst snd o_url okb].
    apply ss_pathname; [exact OP|].
    exact (o_path_start (EE E) PATH_START _ _ 0 (set_path (PList []) u) false false false (here0 _) (strip_tabs_sv _ SV) eq_refl).
  - specialize (NA _ eq_refl). destruct (cannot_have_username_password_port u); [apply (ss_port_no _ t u NA)|]. destruct t as [|c t]; [now apply ss_port_empty|].
    rewrite reparse_port, tabs_same. unfold with_url. cbn [fst snd o_url]. apply ss_port; [exact NA|discriminate|].
    unfold std_override. rewrite <- okb3_okb. apply (oruns_calm (EE E) PORT); [apply o_port0; apply here0|]. auto.
  - rewrite reparse_scheme, tabs_same. unfold with_url. apply ss_protocol.
    pose proof (o_scheme0 (EE E) SCHEME_START _ (std_strip_tabs (t ++ $":")) 0 u false false false (here0 _)) as R. cbv zeta in R.
    match type of R with ?P -> _ => assert (P1 : P); [|specialize (R P1 FH); clear P1] end.
    { intros Z1 Z2 Z3 x y Z4 Z5. destruct (includes_credentials u) eqn:C; [reflexivity|]. exfalso. apply P0. apply no_cred in C as [C1 C2]. split; [exact Z1|]. split; [exact C1|]. split; [exact C2|].
      split; [exact Z2|]. split; [exact Z3|]. exists x, y. split; [now apply split_lower|exact Z5]. }
    destruct (scheme_split (std_strip_tabs (t ++ $":"))) as [[x y]|]; [|exact R]. destruct (scheme_blocked u (lower x)); exact R.
  - destruct t as [|c t].
    + cbn [fst snd o_url okb]. rewrite (potentially_eq (EE E) E u) by (auto; reflexivity). apply ss_search_empty.
    + rewrite reparse_query, drop_same, tabs_same. cbn [fst snd o_url okb]. apply ss_search; [discriminate|].
      exact (o_query (EE E) QUERY _ (std_strip_tabs (drop_leading 63 (c :: t))) 0 (set_query (Some []) u) [] false false false (here0 _) (strip_tabs_sv _ (drop_sv _ _ SV)) eq_refl).
  - specialize (NA _ eq_refl). destruct (cannot_have_username_password_port u); [apply (ss_username_no _ t u NA)|]. cbn [fst snd o_url okb].
    rewrite (encode_conforms _ _ _ _ agree_userinfo) by exact (proj1 HS). now apply ss_username.
Qed.

(** no host is parsed from the port state *)
Lemma no_ask_port hp hn inp k h o : override_asks hp hn inp k h o -> k_state k <> S_port.
Proof.
  induction 1 as [k v L S1 S2|k k' h o L S A IH]; intros Q.
  - apply S2. rewrite <- S1. destruct k as [st p buf a br pw u]. cbn [k_state] in Q. subst st. reflexivity.
  - destruct k as [st p buf a br pw u]. cbn [k_state] in Q. subst st. unfold override_step in S. cbn [k_state k_ptr k_buf k_at k_br k_pw k_url] in S.
    destruct (nth_error inp p) as [c|]; [destruct (std_digit c)|]; try (destruct (length buf =? 0)%nat; [discriminate S|]; destruct (65535 <? std_decimal buf); discriminate S).
    injection S as <-. now apply IH.
Qed.
(** exactly outside those cases *)
Lemma zero_differs E s o : port_zero_case s (o_url o) ->
  std_set (code_host (with_validity E false)) s (o_url o) (o_url o) true /\ o_url (fst (set_attr E s o)) <> o_url o.
Proof.
  set (u := o_url o). intros (P & U & W & H). assert (C : includes_credentials u = false) by now apply no_cred.
  assert (HH : forall so t, so = HOST \/ so = HOSTNAME -> std_is_special u = false -> uhost u <> Some (HStr []) -> bare_host (std_strip_tabs t) ->
    std_override (code_host (EE E)) S_host (is_hostname_override (Some so)) t u u true /\ fst (put_host (EE E) so u (std_strip_tabs t)) <> u).
  { intros so t _ S1 HU B. split; [exact (oruns_std _ _ _ _ _ _ (bare_runs (EE E) so (std_strip_tabs t) u S1 P B))|].
    rewrite bare_put by assumption. cbn [fst]. intros Q. apply HU. rewrite <- Q. reflexivity. }
  assert (OP : ~ std_opaque u -> has_opaque_path u = false).
  { intros N. destruct (has_opaque_path u) eqn:Q; [|reflexivity]. elim N. now apply opaque_spec. }
  destruct s as [t|t|t|t|t|t|t|t|t|t]; try contradiction; unfold set_attr; cbv zeta; fold u.
  - destruct H as (O & S1 & HU & B). rewrite (OP O), reparse_host, tabs_same. unfold with_url. cbn [fst o_url]. destruct (HH HOST t (or_introl eq_refl) S1 HU B) as [A1 A2]. split; [now apply ss_host|exact A2].
  - destruct H as (O & S1 & HU & B). rewrite (OP O), reparse_hostname, tabs_same. unfold with_url. cbn [fst o_url]. destruct (HH HOSTNAME t (or_intror eq_refl) S1 HU B) as [A1 A2]. split; [now apply ss_hostname|exact A2].
  - destruct H as (S1 & F & f & r & Q & L). rewrite reparse_scheme, tabs_same. unfold with_url. cbn [fst o_url].
    rewrite (file_split _ f r Q L). change (lower f) with (std_lower f). rewrite L.
    assert (NB : scheme_blocked u $"file" = false).
    { unfold scheme_blocked. rewrite C, P. unfold is_not_special. change (special_scheme (scheme u)) with (is_special u). change (is_special u) with (std_is_special u). rewrite S1.
      replace (str_eqb (scheme u) $"file") with false by (symmetry; now apply str_eqb_neq). reflexivity. }
    rewrite NB. cbn [fst]. split.
    + apply ss_protocol. unfold std_override. rewrite Q. clear Q NB OP HH. destruct f as [|a [|b [|c [|d [|]]]]]; try discriminate L. unfold std_lower in L. cbn [map] in L. injection L as A1 A2 A3 A4.
      assert (AL : forall x y, std_lower1 x = y -> std_alpha y = true -> std_alpha x = true) by (intros x y <-; unfold std_alpha, std_lower1 in *; destruct ((65 <=? x) && (x <=? 90)) eqn:Q; lia).
      assert (SC : forall x, std_alpha x = true -> std_scheme_char x = true) by (intros x X; unfold std_scheme_char; now rewrite X).
      cbn [app]. eapply or_step; [cbn; lia|unfold override_step; cbn [k_state k_ptr k_buf k_at k_br k_pw k_url nth_error]; now rewrite (AL _ _ A1 eq_refl)|].
      eapply or_step; [cbn; lia|unfold override_step; cbn [k_state k_ptr k_buf k_at k_br k_pw k_url nth_error]; now rewrite (SC _ (AL _ _ A2 eq_refl))|].
      eapply or_step; [cbn; lia|unfold override_step; cbn [k_state k_ptr k_buf k_at k_br k_pw k_url nth_error]; now rewrite (SC _ (AL _ _ A3 eq_refl))|].
      eapply or_step; [cbn; lia|unfold override_step; cbn [k_state k_ptr k_buf k_at k_br k_pw k_url nth_error]; now rewrite (SC _ (AL _ _ A4 eq_refl))|].
      apply or_ret; [cbn; lia|]. unfold override_step. cbn [k_state k_ptr k_buf k_at k_br k_pw k_url nth_error app]. rewrite A1, A2, A3, A4. rewrite S1. unfold std_has_port. rewrite P, orb_true_r. reflexivity.
    + intros X. apply F. rewrite <- X. unfold put_scheme. destruct (port_truthy (port u) && _); reflexivity.
Qed.
Theorem setters_exact E s o : reached E o -> scalar_string (text_of s) ->
  (forall b, setter_reads (code_host (with_validity E false)) s (o_url o) b -> short_for (int_limit E) b) ->
  ((forall v b, std_set (code_host (with_validity E false)) s (o_url o) v b <-> v = o_url (fst (set_attr E s o)) /\ b = okb (snd (set_attr E s o))) <->
   ~ port_zero_case s (o_url o)).
Proof.
  intros HR HS HL. split; [|now apply setters_conform]. intros H Z. destruct (zero_differs E s o Z) as [A B]. apply H in A as [A _]. congruence.
Qed.

(** the setters that raise ValueError *)
Theorem setters_raise E s o : scalar_string (text_of s) ->
  (snd (set_attr E s o) = Err EValue <->
   (exists b, setter_reads (code_host (with_validity E false)) s (o_url o) b /\ ~ short_for (int_limit E) b) \/
   (exists h op, setter_asks (code_host (with_validity E false)) s (o_url o) h op /\ snd (host_parse (with_validity E false) h op) = Err EValue)).
Proof.
  intros HS. set (u := o_url o).
  assert (OP : forall b, has_opaque_path u = b -> if b then std_opaque u else ~ std_opaque u).
  { intros x X. destruct x; [now apply opaque_spec|]. intros Y. apply opaque_spec in Y. congruence. }
  assert (NA : forall b, cannot_have_username_password_port u = b -> if b then std_no_authority u else ~ std_no_authority u).
  { intros x X. destruct x; [now apply no_authority_spec|]. intros Y. apply no_authority_spec in Y. congruence. }
  assert (HH : forall so t, snd (put_host (EE E) so u (std_strip_tabs t)) = Err EValue <->
     (exists b, override_reads (code_host (EE E)) (is_hostname_override (Some so)) (std_strip_tabs t) (mkcfg S_host 0 [] false false false u) b /\ ~ short_for (int_limit E) b) \/
     (exists h op, override_asks (code_host (EE E)) (is_hostname_override (Some so)) (std_strip_tabs t) (mkcfg S_host 0 [] false false false u) h op /\ snd (host_parse (EE E) h op) = Err EValue)).
  { intros so t. destruct (host_runs (EE E) so (std_strip_tabs t) u) as (w & R & _). apply oruns_raise in R. rewrite okb3_none in R. exact R. }
  assert (NO : forall (P : str -> Prop) (Q : str -> bool -> Prop), (forall b, ~ P b) -> (forall h op, ~ Q h op) ->
    ~ ((exists b, P b /\ ~ short_for (int_limit E) b) \/ (exists h op, Q h op /\ snd (host_parse (EE E) h op) = Err EValue))).
  { intros P Q HP HQ [(b & X & _)|(h & op & X & _)]; [exact (HP b X)|exact (HQ h op X)]. }
  assert (OFF : forall (P : str -> Prop) (Q : str -> bool -> Prop) (r : res unit), r = Ok tt \/ r = Err EURLParse -> (forall b, ~ P b) -> (forall h op, ~ Q h op) ->
    (r = Err EValue <-> ((exists b, P b /\ ~ short_for (int_limit E) b) \/ (exists h op, Q h op /\ snd (host_parse (EE E) h op) = Err EValue)))).
  { intros P Q r Hr HP HQ. split; [intros ->; destruct Hr; discriminate|]. intros X. elim (NO P Q HP HQ X). }
  assert (ON : forall (O : Prop) (P : str -> Prop) (Q : str -> bool -> Prop), O ->
    (((exists b, P b /\ ~ short_for (int_limit E) b) \/ (exists h op, Q h op /\ snd (host_parse (EE E) h op) = Err EValue)) <->
     ((exists b, (O /\ P b) /\ ~ short_for (int_limit E) b) \/ (exists h op, (O /\ Q h op) /\ snd (host_parse (EE E) h op) = Err EValue)))).
  { intros O P Q HO. split; (intros [(b & X & Y)|(h & op & X & Y)]; [left; exists b|right; exists h, op]); (split; [|exact Y]); [split; assumption|split; assumption|exact (proj2 X)|exact (proj2 X)]. }
  destruct s as [t|t|t|t|t|t|t|t|t|t]; cbn [setter_reads setter_asks text_of] in *; unfold set_attr; cbv zeta; fold u.
  - apply OFF; [|intros; intros []..]. destruct t; [now left|]. rewrite reparse_fragment. now left.
  - specialize (OP _ eq_refl). destruct (has_opaque_path u); [apply OFF; [now left|intros; intros [X _]; auto..]|]. rewrite reparse_host, tabs_same. unfold with_url. cbn [snd]. rewrite (HH HOST t). apply ON, OP.
  - specialize (OP _ eq_refl). destruct (has_opaque_path u); [apply OFF; [now left|intros; intros [X _]; auto..]|]. rewrite reparse_hostname, tabs_same. unfold with_url. cbn [snd]. rewrite (HH HOSTNAME t). apply ON, OP.
  - pose proof (new_raises (EE E) t None UTF8 eq_refl HS I) as R. rewrite <- R. destruct (snd (parse_new (EE E) t None UTF8)) as [x|e]; cbn [snd]; split; intros X; try discriminate X; now injection X as ->.
  - apply OFF; [|intros; intros []..]. destruct (cannot_have_username_password_port u); now left.
  - apply OFF; [|intros; intros []..]. destruct (has_opaque_path u); [now left|]. rewrite reparse_path. now left.
  - specialize (NA _ eq_refl). destruct (cannot_have_username_password_port u); [apply OFF; [now left|intros; intros [X _]; auto|intros; intros []]|]. destruct t as [|c t].
    + apply OFF; [now left| |intros; intros []]. intros b [_ B]. inversion B as [k L Q|k k' b' L S' B']; subst; [discriminate Q|]. discriminate S'.
    + rewrite reparse_port, tabs_same. unfold with_url. cbn [snd].
      pose proof (o_port0 (EE E) PORT (std_strip_tabs (c :: t)) _ 0 u false false false (here0 _)) as R. apply oruns_raise in R. rewrite okb3_none in R. rewrite R. clear R. split.
      * intros [(b & A & B)|(h & op & A & _)]; [left; exists b; auto|]. exfalso. apply (no_ask_port _ _ _ _ _ _ A). reflexivity.
      * intros [(b & (_ & A) & B)|(h & op & [] & _)]. left. exists b. auto.
  - apply OFF; [|intros; intros []..]. rewrite reparse_scheme. destruct (scheme_split _) as [[x y]|]; [|now right]. destruct (scheme_blocked _ _); now left.
  - apply OFF; [|intros; intros []..]. destruct t; [now left|]. rewrite reparse_query. now left.
  - apply OFF; [|intros; intros []..]. destruct (cannot_have_username_password_port u); now left.
Qed.

(** the machine, executed *)
Fixpoint override_exec (fuel : nat) (hp : str -> bool -> option host) (hn : bool) (inp : str) (k : cfg) : option (urlrec * bool) :=
  match fuel with
  | O => None
  | Datatypes.S n =>
      if (length inp <? k_ptr k)%nat then Some (k_url k, true)
      else match override_step hp hn inp k with
           | SGo k' => override_exec n hp hn inp k'
           | SRet u => Some (u, true)
           | SFail u => Some (u, false)
           end
  end.
Lemma override_exec_runs fuel hp hn inp : forall k u b, override_exec fuel hp hn inp k = Some (u, b) -> override_runs hp hn inp k u b.
Proof.
  induction fuel as [|n IH]; intros k u b H; [discriminate|]. cbn [override_exec] in H. destruct (length inp <? k_ptr k)%nat eqn:Q.
  - injection H as <- <-. apply or_end. lia.
  - destruct (override_step hp hn inp k) as [k'|v|v] eqn:P.
    + eapply or_step; [lia|exact P|]. now apply IH.
    + injection H as <- <-. apply or_ret; [lia|exact P].
    + injection H as <- <-. apply or_fail; [lia|exact P].
Qed.
Lemma override_exec_std fuel hp st hn value u v b :
  override_exec fuel hp hn (std_strip_tabs value) (mkcfg st 0 [] false false false u) = Some (v, b) -> std_override hp st hn value u v b.
Proof. apply override_exec_runs. Qed.
