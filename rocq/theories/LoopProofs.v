(** Closed forms of the parser's per-state loops (results only, no log). *)
From Coq Require Import Ascii String.
From Coq Require Import NArith ZArith Bool Arith Lia ZifyBool ZifyN ZifyNat List.
From Verif Require Import PyStr PyInt Codec Env HostModel UrlRecord Parser SpecText FlatParser.
From Verif Require Import Lemmas CodecProofs QuoteProofs.
Import ListNotations.
Open Scope N_scope.

(* ---------- running the monad ---------- *)
Lemma run_bind {A B} (m : M A) (f : A -> M B) u :
  run (bind m f) u = match snd (run m u) with
                     | Ok a => run (f a) (fst (run m u))
                     | Err e => (fst (run m u), Err e)
                     end.
Proof.
  unfold run, bind. destruct (m u) as [l [u' [a|e]]]; cbn; [|reflexivity]. now destruct (f a u').
Qed.
Lemma run_ret {A} (a : A) u : run (ret a) u = (u, Ok a). Proof. reflexivity. Qed.
Lemma run_get u : run get u = (u, Ok u). Proof. reflexivity. Qed.
Lemma run_modify f u : run (modify f) u = (f u, Ok tt). Proof. reflexivity. Qed.
Lemma run_logm v u : run (logm v) u = (u, Ok tt). Proof. reflexivity. Qed.
Lemma run_raise {A} e u : run (@raise A e) u = (u, Err e). Proof. reflexivity. Qed.
Lemma run_fail {A} v e u : run (@fail A v e) u = (u, Err e). Proof. reflexivity. Qed.
Lemma run_lift {A} (w : W A) u : run (lift w) u = (u, snd w). Proof. reflexivity. Qed.
Lemma run_when_log b v u : run (when b (logm v)) u = (u, Ok tt). Proof. now destruct b. Qed.
Lemma run_check c t u : run (check_unit c t) u = (u, Ok tt).
Proof. unfold check_unit. rewrite run_bind, run_when_log. apply run_when_log. Qed.

Global Hint Rewrite @run_bind @run_ret run_get run_modify run_logm @run_raise @run_fail @run_lift run_when_log run_check : run.
Ltac rn := repeat (autorewrite with run; cbn [fst snd]).

(** the resulting record, whatever it was when an exception was raised *)
Definition out {A} (r : urlrec * res A) : res urlrec :=
  match snd r with Ok _ => Ok (fst r) | Err e => Err e end.

(* ---------- lists ---------- *)
Lemma span_eq p s : s = fst (span p s) ++ snd (span p s).
Proof.
  induction s as [|c t IH]; [reflexivity|]. cbn [span]. destruct (p c); [|reflexivity].
  destruct (span p t). cbn in *. now f_equal.
Qed.
Lemma span_all p s : Forall (fun c => p c = true) (fst (span p s)).
Proof.
  induction s as [|c t IH]; [constructor|]. cbn [span]. destruct (p c) eqn:Q; [|constructor].
  destruct (span p t). cbn in *. now constructor.
Qed.
Lemma span_stop p s : match snd (span p s) with [] => True | c :: _ => p c = false end.
Proof.
  induction s as [|c t IH]; [exact I|]. cbn [span]. destruct (p c) eqn:Q; [|exact Q].
  destruct (span p t). exact IH.
Qed.
Lemma span_len p s : (length (fst (span p s)) + length (snd (span p s)) = length s)%nat.
Proof. rewrite (span_eq p s) at 3. now rewrite app_length. Qed.
Lemma span_app p a t : Forall (fun c => p c = true) a -> match t with [] => True | c :: _ => p c = false end ->
  span p (a ++ t) = (a, t).
Proof.
  induction 1 as [|c a Hc Ha IH]; intros Ht; cbn [app span].
  - destruct t as [|c t]; [reflexivity|]. cbn [span]. now rewrite Ht.
  - rewrite Hc, IH by auto. reflexivity.
Qed.
Lemma span_ext p q s : (forall c, p c = q c) -> span p s = span q s.
Proof. intros H. induction s as [|c t IH]; [reflexivity|]. cbn [span]. rewrite H, IH. reflexivity. Qed.
Lemma skipn_span p s : skipn (length (fst (span p s))) s = snd (span p s).
Proof. rewrite (span_eq p s) at 2. rewrite skipn_app, skipn_all, Nat.sub_diag. reflexivity. Qed.
Lemma skipn_span1 p s : skipn (S (length (fst (span p s)))) s = tl (snd (span p s)).
Proof.
  rewrite (span_eq p s) at 2. rewrite skipn_app, skipn_all2 by lia.
  replace (S (length (fst (span p s))) - length (fst (span p s)))%nat with 1%nat by lia.
  destruct (snd (span p s)); reflexivity.
Qed.

(* ---------- percent-encoding of concatenations ---------- *)
Lemma of_utf16_cut a u b : is_low u = false -> of_utf16 (a ++ u :: b) = of_utf16 a ++ of_utf16 (u :: b).
Proof.
  intros H. enough (G : forall n a, (length a <= n)%nat -> of_utf16 (a ++ u :: b) = of_utf16 a ++ of_utf16 (u :: b))
    by (eapply G; eauto).
  clear a. induction n as [|n IH]; intros a L; [destruct a; [reflexivity|cbn in L; lia]|].
  destruct a as [|x a]; [reflexivity|]. cbn [length] in L.
  change ((x :: a) ++ u :: b) with (x :: (a ++ u :: b)).
  assert (E : forall y t, of_utf16 (y :: t) =
    if is_high y then match t with
      | l :: t' => if is_low l then (65536 + (y - 55296) * 1024 + (l - 56320)) :: of_utf16 t' else 65533 :: of_utf16 t
      | [] => [65533] end
    else if is_low y then 65533 :: of_utf16 t else y :: of_utf16 t) by reflexivity.
  rewrite (E x (a ++ u :: b)), (E x a). destruct (is_high x).
  - destruct a as [|l a].
    + cbn [app]. rewrite H. reflexivity.
    + cbn [app]. destruct (is_low l) eqn:Q.
      * rewrite IH by (cbn in L; lia). reflexivity.
      * pose proof (IH (l :: a)) as G. cbn [app] in G. rewrite G by lia. reflexivity.
  - destruct (is_low x); rewrite IH by lia; reflexivity.
Qed.
Lemma usv_cut a c b : c < 55296 -> usv (a ++ c :: b) = usv a ++ c :: usv b.
Proof.
  intros H. unfold usv, to_utf16. rewrite flat_map_app. cbn [flat_map].
  assert (U : utf16_units c = [c]) by (unfold utf16_units; now replace (c <? 65536) with true by lia).
  rewrite U. cbn [app]. rewrite of_utf16_cut by (unfold is_low; lia). f_equal.
  cbn [of_utf16]. replace (is_high c) with false by (unfold is_high; lia).
  now replace (is_low c) with false by (unfold is_low; lia).
Qed.
Lemma encode_all_app enc a b : encode_all enc (a ++ b) =
  match encode_all enc a, encode_all enc b with Some x, Some y => Some (x ++ y) | _, _ => None end.
Proof.
  induction a as [|c a IH]; cbn [app encode_all].
  - destruct (encode_all enc b); reflexivity.
  - rewrite IH. destruct (enc c); [|reflexivity]. destruct (encode_all enc a); [|reflexivity].
    destruct (encode_all enc b); [|reflexivity]. now rewrite app_assoc.
Qed.
Lemma utf8_encode_cut a c b : c < 128 -> utf8_encode (a ++ c :: b) = utf8_encode a ++ c :: utf8_encode b.
Proof.
  intros H. pose proof (utf8_encode_some (a ++ c :: b)) as S. rewrite usv_cut in S by lia.
  rewrite encode_all_app, utf8_encode_some in S. cbn [encode_all] in S. rewrite utf8_encode_some in S.
  unfold utf8_enc1 in S at 1. replace (is_surrogate c) with false in S by (unfold is_surrogate; lia).
  replace (c <? 128) with true in S by lia. now apply Some_inj in S.
Qed.
Lemma encode_cut a c b safe : c < 128 -> utf8_percent_encode (a ++ c :: b) safe false =
  utf8_percent_encode a safe false ++ utf8_percent_encode [c] safe false ++ utf8_percent_encode b safe false.
Proof.
  intros H. rewrite !utf8_percent_encode_eq, utf8_encode_cut by auto.
  rewrite flat_map_app. cbn [flat_map]. f_equal. rewrite (utf8_encode_ascii [c]) by (repeat constructor; auto).
  cbn [flat_map]. now rewrite app_nil_r.
Qed.
Lemma encode_nil safe : utf8_percent_encode [] safe false = [].
Proof. reflexivity. Qed.

(* ---------- fragment ---------- *)
Lemma run_fragment_loop rest : forall i buffer u f, fragment u = Some f ->
  run (fragment_loop rest i buffer) u =
  (set_fragment (Some (f ++ enc_fragment (buffer ++ rest))) u, Ok (EOF, (i + length rest)%nat)).
Proof.
  induction rest as [|c t IH]; intros i buffer u f H.
  - cbn [fragment_loop]. rewrite app_nil_r. destruct buffer as [|c b].
    + cbn [length Nat.eqb negb when]. rn. unfold enc_fragment. rewrite encode_nil, app_nil_r, <- H.
      cbn [length]. rewrite Nat.add_0_r. destruct u; reflexivity.
    + cbn [length Nat.eqb negb when]. unfold fragment_append. rn. rewrite H. rn.
      now rewrite Nat.add_0_r.
  - cbn [fragment_loop]. rn. rewrite (IH _ _ _ f) by auto. rewrite <- app_assoc. cbn [length app].
    now replace (S i + length t)%nat with (i + S (length t))%nat by lia.
Qed.
Lemma run_fragment rest u f : fragment u = Some f ->
  run (parse_fragment rest) u = (set_fragment (Some (f ++ enc_fragment rest)) u, Ok (EOF, length rest)).
Proof. intros H. unfold parse_fragment. now rewrite (run_fragment_loop rest 0 [] u f). Qed.

(* ---------- query ---------- *)
Definition not_hash (so : option pstate) (c : N) : bool := negb (negb (overridden so) && (c =? 35)).
Lemma run_query_flush E encoding buffer u q : query u = Some q ->
  run (query_flush E encoding buffer) u =
  match enc_query E encoding u buffer with
  | None => (u, Err EUnicode)
  | Some x => (set_query (Some (q ++ x)) u, Ok tt)
  end.
Proof.
  intros H. unfold query_flush, enc_query. rn.
  destruct (string_percent_encode _ _ _ _); [|rn; reflexivity]. unfold query_append. rn. rewrite H. rn. reflexivity.
Qed.
Lemma enc_query_nil E encoding u : enc_query E encoding u [] = Some [].
Proof. reflexivity. Qed.
Lemma set_query_same u q : query u = Some q -> set_query (Some q) u = u.
Proof. destruct u; cbn. now intros ->. Qed.
Lemma run_query_loop E so encoding rest : forall i buffer u q, query u = Some q ->
  run (query_loop E so encoding rest i buffer) u =
  let (b, t) := span (not_hash so) rest in
  match enc_query E encoding u (buffer ++ b) with
  | None => (u, Err EUnicode)
  | Some x =>
      let u' := set_query (Some (q ++ x)) u in
      match t with
      | [] => (u', Ok (FRAGMENT, (i + length b)%nat))
      | _ => (set_fragment (Some []) u', Ok (FRAGMENT, S (i + length b)))
      end
  end.
Proof.
  induction rest as [|c t IH]; intros i buffer u q H.
  - cbn [query_loop span]. rewrite app_nil_r. cbn [length]. rewrite Nat.add_0_r.
    destruct buffer as [|c b].
    + cbn [length Nat.eqb negb when]. rn. rewrite enc_query_nil, app_nil_r. cbv zeta.
      now rewrite set_query_same by auto.
    + cbn [length Nat.eqb negb when]. rn. rewrite (run_query_flush _ _ _ _ q) by auto.
      destruct (enc_query _ _ _ _); reflexivity.
  - cbn [query_loop span]. unfold not_hash at 1. destruct (negb (overridden so) && (c =? 35)).
    + cbn [negb]. rn. rewrite (run_query_flush _ _ _ _ q), app_nil_r by auto. cbn [length].
      destruct (enc_query _ _ _ _); cbn [fst snd]; [|reflexivity]. rn. now rewrite Nat.add_0_r.
    + cbn [negb]. rn. rewrite (IH _ _ _ q) by auto. destruct (span (not_hash so) t) as [b r].
      rewrite <- app_assoc. cbn [app length]. destruct (enc_query _ _ _ _); [|reflexivity]. cbv zeta.
      replace (S i + length b)%nat with (i + S (length b))%nat by lia. reflexivity.
Qed.

(* ---------- opaque path ---------- *)
Lemma run_opaque_loop rest : forall i u s, path u = POpaque s ->
  run (opaque_path_loop rest i) u =
  let (p, t) := span (fun c => negb (is_qf c)) rest in
  let u' := set_path (POpaque (s ++ enc_opaque p)) u in
  match t with
  | [] => (u', Ok (EOF, (i + length p)%nat))
  | c :: _ => if c =? 63 then (set_query (Some []) u', Ok (QUERY, S (i + length p)))
              else (set_fragment (Some []) u', Ok (FRAGMENT, S (i + length p)))
  end.
Proof.
  induction rest as [|c t IH]; intros i u s H.
  - cbn [opaque_path_loop span]. cbv zeta. rn. unfold enc_opaque. cbn [flat_map length].
    rewrite app_nil_r, Nat.add_0_r, <- H. now destruct u.
  - cbn [opaque_path_loop span].
    assert (Q : is_qf c = (c =? 63) || (c =? 35)).
    { unfold is_qf. change ($"?#") with [63; 35]. cbn [mem existsb]. lia. }
    rewrite Q. destruct (c =? 63) eqn:C63; [|destruct (c =? 35) eqn:C35].
    + cbn [orb negb]. cbv zeta. rn. rewrite C63. unfold enc_opaque. cbn [flat_map length].
      rewrite app_nil_r, Nat.add_0_r, <- H. now destruct u.
    + cbn [orb negb]. cbv zeta. rn. rewrite C63. unfold enc_opaque. cbn [flat_map length].
      rewrite app_nil_r, Nat.add_0_r, <- H. now destruct u.
    + cbn [orb negb]. unfold path_extend. rn. rewrite H.
      rewrite (IH _ _ (s ++ utf8_percent_encode [c] SAFE_C0_CONTROL false)) by reflexivity.
      destruct (span (fun c => negb (is_qf c)) t) as [p r]. cbv zeta.
      unfold enc_opaque. cbn [flat_map length]. rewrite <- app_assoc.
      replace (S i + length p)%nat with (i + S (length p))%nat by lia.
      destruct u; destruct r as [|x r]; reflexivity.
Qed.

(* ---------- path ---------- *)
Lemma run_shorten u l : path u = PList l ->
  run shorten_path u = (set_path (PList (shorten_segs (scheme u) l)) u, Ok tt).
Proof. intros H. unfold shorten_path. rn. rewrite H. rn. reflexivity. Qed.
Lemma run_append u l x : path u = PList l -> run (path_append x) u = (set_path (PList (l ++ [x])) u, Ok tt).
Proof. intros H. unfold path_append. rn. rewrite H. rn. reflexivity. Qed.
Lemma set_path_same u l : path u = l -> set_path l u = u.
Proof. destruct u; cbn. now intros ->. Qed.
Definition is_sep (sp : bool) (c : cp) : bool := isc c 47 || (sp && isc c 92).
Lemma run_path_flush c buffer u l : path u = PList l ->
  run (path_flush c buffer) u =
  (set_path (PList (push (scheme u) (is_sep (is_special u) c) l buffer)) u, Ok tt).
Proof.
  intros H. unfold path_flush, push. rn. fold (is_sep (is_special u) c).
  destruct (str_in _ DOUBLE_DOT).
  - rn. rewrite (run_shorten u l) by auto. cbn [fst snd]. destruct (is_sep (is_special u) c); cbn [negb when]; rn; [reflexivity|].
    now rewrite (run_append _ (shorten_segs (scheme u) l)) by reflexivity.
  - destruct (str_in _ SINGLE_DOT).
    + destruct (is_sep (is_special u) c); cbn [negb when]; rn.
      * now rewrite set_path_same by auto.
      * now rewrite (run_append _ l).
    + rewrite H. now rewrite (run_append _ l).
Qed.
Definition in_path (so : option pstate) (c : N) : bool := overridden so || negb (is_qf c).
Lemma norm_app sp a b : norm_slash sp (a ++ b) = norm_slash sp a ++ norm_slash sp b.
Proof. unfold norm_slash, replace_char. destruct sp; [apply map_app|reflexivity]. Qed.
Lemma norm_id sp b : Forall (fun c => is_sep sp (Some c) = false) b -> norm_slash sp b = b /\ mem 47 b = false.
Proof.
  unfold is_sep, isc, norm_slash, replace_char. intros H. split.
  - destruct sp; [|reflexivity]. induction H as [|c b Hc Hb IH]; [reflexivity|]. cbn [map]. rewrite IH.
    cbn [andb] in Hc. apply orb_false_iff in Hc as [_ ->]. reflexivity.
  - apply mem_not_In. rewrite Forall_forall in H. intros I. apply H in I. rewrite N.eqb_refl in I. discriminate.
Qed.
Lemma pieces_nosep sp b : Forall (fun c => is_sep sp (Some c) = false) b -> pieces sp b = [b].
Proof. intros H. unfold pieces. destruct (norm_id sp b H) as [-> M]. now apply split_no_sep. Qed.
Lemma pieces_cons sp b c p : Forall (fun c => is_sep sp (Some c) = false) b -> is_sep sp (Some c) = true ->
  pieces sp (b ++ c :: p) = b :: pieces sp p.
Proof.
  intros H Hc. unfold pieces. rewrite norm_app. destruct (norm_id sp b H) as [-> M].
  assert (N : norm_slash sp (c :: p) = 47 :: norm_slash sp p).
  { unfold norm_slash, replace_char. unfold is_sep, isc in Hc. destruct sp.
    - cbn [map]. destruct (c =? 92) eqn:Q; [reflexivity|]. f_equal. lia.
    - f_equal. lia. }
  rewrite N. now apply split_app.
Qed.
Lemma pieces_nonempty sp p : pieces sp p <> [].
Proof. apply split_not_nil. Qed.
Lemma walk_cons sch segs p ps : ps <> [] -> walk sch segs (p :: ps) = walk sch (push sch true segs p) ps.
Proof. destruct ps; [congruence|]. reflexivity. Qed.

Lemma run_path_loop so rest : forall i buffer u l, path u = PList l ->
  Forall (fun c => is_sep (is_special u) (Some c) = false) buffer ->
  run (path_loop so rest i buffer) u =
  let (p, t) := span (in_path so) rest in
  let u' := set_path (PList (walk (scheme u) l (pieces (is_special u) (buffer ++ p)))) u in
  match t with
  | [] => (u', Ok (OPAQUE_PATH, (i + length p)%nat))
  | c :: _ => if c =? 63 then (set_query (Some []) u', Ok (QUERY, S (i + length p)))
              else (set_fragment (Some []) u', Ok (FRAGMENT, S (i + length p)))
  end.
Proof.
  induction rest as [|c t IH]; intros i buffer u l H HB.
  - cbn [path_loop span]. cbv zeta. rn. rewrite (run_path_flush _ _ u l) by auto. cbn [fst snd].
    rewrite app_nil_r, pieces_nosep by auto. unfold is_sep, isc. rewrite andb_false_r.
    cbn [length]. rewrite Nat.add_0_r. reflexivity.
  - cbn [path_loop span]. rn.
    assert (SQ : (c =? 47) || is_special u && (c =? 92) = is_sep (is_special u) (Some c)) by reflexivity.
    rewrite SQ. destruct (is_sep (is_special u) (Some c)) eqn:HS.
    + cbn [orb]. rn. rewrite (run_path_flush _ _ u l) by auto. cbn [fst snd]. rewrite HS.
      assert (Q : is_qf c = false /\ (c =? 63) = false /\ (c =? 35) = false).
      { unfold is_sep, isc in HS. unfold is_qf. change ($"?#") with [63; 35]. cbn [mem existsb]. lia. }
      destruct Q as (Q & Q1 & Q2). unfold in_path. rewrite Q, Q1, Q2, orb_true_r. cbn [negb].
      rewrite (IH _ [] _ (push (scheme u) true l buffer)) by (try reflexivity; constructor).
      fold (in_path so). destruct (span (in_path so) t) as [p r]. cbv zeta. cbn [app].
      change (is_special (set_path (PList (push (scheme u) true l buffer)) u)) with (is_special u).
      rewrite pieces_cons by auto. rewrite walk_cons by apply pieces_nonempty. cbn [length].
      replace (S i + length p)%nat with (i + S (length p))%nat by lia. destruct r; reflexivity.
    + cbn [orb]. unfold in_path at 1. unfold is_qf at 1. destruct (overridden so) eqn:O.
      * cbn [negb andb orb]. rn. rewrite (IH _ _ _ l) by (auto; apply Forall_app; split; auto).
        destruct (span (in_path so) t) as [p r]. cbv zeta. cbn [app length].
        rewrite <- app_assoc. cbn [app]. replace (S i + length p)%nat with (i + S (length p))%nat by lia. reflexivity.
      * cbn [negb andb orb]. destruct (mem c $"?#") eqn:Q; cbn [negb].
        -- rn. rewrite (run_path_flush _ _ u l) by auto. cbn [fst snd]. rewrite HS, app_nil_r, pieces_nosep by auto.
           cbn [length]. rewrite Nat.add_0_r. cbn [walk]. destruct (c =? 63) eqn:C1; [rn; reflexivity|].
           destruct (c =? 35) eqn:C2; [rn; reflexivity|]. change ($"?#") with [63; 35] in Q. cbn [mem existsb] in Q. lia.
        -- rn. rewrite (IH _ _ _ l) by (auto; apply Forall_app; split; auto).
           destruct (span (in_path so) t) as [p r]. cbv zeta. cbn [app length].
           rewrite <- app_assoc. cbn [app]. replace (S i + length p)%nat with (i + S (length p))%nat by lia. reflexivity.
Qed.

(* ---------- authority ---------- *)
Lemma split_last_app x a b : mem x b = false -> split_last x (a ++ x :: b) = Some (a, b).
Proof.
  intros H. induction a as [|c a IH]; cbn [app split_last].
  - assert (N : split_last x b = None).
    { induction b as [|y b IH]; [reflexivity|]. rewrite mem_cons in H. apply orb_false_iff in H as [H1 H2].
      cbn [split_last]. rewrite IH by auto. now rewrite N.eqb_sym, H1. }
    rewrite N, N.eqb_refl. reflexivity.
  - now rewrite IH.
Qed.
Lemma split_last_none x s : mem x s = false -> split_last x s = None.
Proof.
  induction s as [|y b IH]; intros H; [reflexivity|]. rewrite mem_cons in H. apply orb_false_iff in H as [H1 H2].
  cbn [split_last]. rewrite IH by auto. now rewrite N.eqb_sym, H1.
Qed.
Lemma split_last_spec x s : match split_last x s with
  | Some (a, b) => s = a ++ x :: b /\ mem x b = false
  | None => mem x s = false
  end.
Proof.
  induction s as [|c t IH]; [reflexivity|]. cbn [split_last]. destruct (split_last x t) as [[a b]|].
  - destruct IH as [-> H]. split; auto.
  - destruct (c =? x) eqn:Q.
    + apply N.eqb_eq in Q as ->. split; auto.
    + rewrite mem_cons, N.eqb_sym, Q. exact IH.
Qed.
Definition at_prefix (b : bool) : str := if b then $"%40" else [].
(** the effect of userinfo text [s] (without the '%40' prefix) on the record *)
Definition add_creds (seen : bool) (s : str) (u : urlrec) : urlrec :=
  let (user, pass) := if seen then ([], s) else split_first 58 s in
  set_password (password u ++ enc_userinfo pass) (set_username (username u ++ enc_userinfo user) u).
Lemma find_colon s : find_colon_split s =
  (fst (split_first 58 s), snd (split_first 58 s), mem 58 s).
Proof.
  unfold find_colon_split, split_first.
  assert (G : forall s, match find_char 58 s with
    | None => mem 58 s = false /\ span (fun c => negb (c =? 58)) s = (s, [])
    | Some n => mem 58 s = true /\ span (fun c => negb (c =? 58)) s = (firstn n s, skipn n s) end).
  { clear s. induction s as [|c t IH]; [split; reflexivity|]. cbn [find_char span]. rewrite mem_cons.
    destruct (c =? 58) eqn:Q; cbn [negb].
    - rewrite N.eqb_sym, Q. split; reflexivity.
    - rewrite N.eqb_sym, Q. cbn [orb]. destruct (find_char 58 t); destruct IH as [IH1 IH2]; rewrite IH1, IH2; split; reflexivity. }
  specialize (G s). destruct (find_char 58 s) as [n|]; destruct G as [G1 G2]; rewrite G1, G2; cbn [fst snd tl].
  - f_equal. f_equal. clear. revert s. induction n as [|n IH]; intros [|c s]; try reflexivity. apply IH.
  - reflexivity.
Qed.
Lemma set_creds_same u : set_password (password u) (set_username (username u) u) = u.
Proof. now destruct u. Qed.
Lemma run_add_user s u :
  run (when (negb (length s =? 0)%nat)
        (modify (fun u => set_username (username u ++ utf8_percent_encode s SAFE_USERINFO false) u))) u
  = (set_username (username u ++ enc_userinfo s) u, Ok tt).
Proof.
  destruct s as [|c s]; cbn [length Nat.eqb negb when]; rn; [|reflexivity].
  unfold enc_userinfo. rewrite encode_nil, app_nil_r. now destruct u.
Qed.
Lemma run_add_pass s u :
  run (when (negb (length s =? 0)%nat)
        (modify (fun u => set_password (password u ++ utf8_percent_encode s SAFE_USERINFO false) u))) u
  = (set_password (password u ++ enc_userinfo s) u, Ok tt).
Proof.
  destruct s as [|c s]; cbn [length Nat.eqb negb when]; rn; [|reflexivity].
  unfold enc_userinfo. rewrite encode_nil, app_nil_r. now destruct u.
Qed.
Lemma enc_at a b : enc_userinfo (a ++ 64 :: b) = enc_userinfo a ++ enc_userinfo ($"%40" ++ b).
Proof.
  unfold enc_userinfo. rewrite encode_cut by lia. f_equal. change ($"%40" ++ b) with ([37; 52] ++ 48 :: b).
  rewrite encode_cut by lia. rewrite app_assoc. f_equal.
Qed.
Lemma split_first_app x a b : mem x a = false -> split_first x (a ++ b) = (a ++ fst (split_first x b), snd (split_first x b)).
Proof.
  intros H. unfold split_first. destruct (span (fun c => negb (c =? x)) b) as [p t] eqn:Q.
  assert (G : span (fun c => negb (c =? x)) (a ++ b) = (a ++ p, t)).
  { induction a as [|c a IH]; [exact Q|]. rewrite mem_cons in H. apply orb_false_iff in H as [H1 H2].
    cbn [app span]. rewrite N.eqb_sym, H1. cbn [negb]. now rewrite IH. }
  now rewrite G.
Qed.
Lemma split_first_found x a b : mem x a = false -> split_first x (a ++ x :: b) = (a, b).
Proof.
  intros H. rewrite split_first_app by auto. unfold split_first. cbn [span]. rewrite N.eqb_refl. cbn [negb fst snd tl].
  now rewrite app_nil_r.
Qed.
Lemma mem_split x s : mem x s = true -> exists a b, s = a ++ x :: b /\ mem x a = false.
Proof.
  induction s as [|c t IH]; [discriminate|]. rewrite mem_cons. destruct (x =? c) eqn:Q; intros H.
  - apply N.eqb_eq in Q as ->. now exists [], t.
  - cbn [orb] in H. destruct (IH H) as (a & b & -> & M). exists (c :: a), b. split; [reflexivity|].
    rewrite mem_cons, Q. exact M.
Qed.
Lemma split_first_none x s : mem x s = false -> split_first x s = (s, []).
Proof. intros H. rewrite <- (app_nil_r s) at 1. rewrite split_first_app by auto. cbn. now rewrite app_nil_r. Qed.
Lemma enc_userinfo_nil : enc_userinfo [] = [].
Proof. reflexivity. Qed.
Lemma add_creds_at seen at1 buffer s u :
  add_creds (seen || mem 58 (at_prefix at1 ++ buffer)) ($"%40" ++ s) (add_creds seen (at_prefix at1 ++ buffer) u) =
  add_creds seen (at_prefix at1 ++ buffer ++ 64 :: s) u.
Proof.
  rewrite (app_assoc (at_prefix at1) buffer). set (b := at_prefix at1 ++ buffer). unfold add_creds.
  destruct seen; cbn [orb].
  - rewrite !enc_userinfo_nil, enc_at. cbn [set_username set_password scheme username password uhost port path query fragment]. now rewrite ?app_nil_r, app_assoc.
  - destruct (mem 58 b) eqn:M.
    + destruct (mem_split _ _ M) as (x & y & -> & Mx). rewrite split_first_found by auto.
      rewrite <- app_assoc. cbn [app]. rewrite split_first_found by auto.
      rewrite enc_at, !enc_userinfo_nil. cbn [set_username set_password scheme username password uhost port path query fragment]. now rewrite ?app_nil_r, app_assoc.
    + rewrite (split_first_none 58 b) by auto.
      change ($"%40" ++ s) with ([37; 52; 48] ++ s). rewrite split_first_app by reflexivity.
      change (64 :: s) with ([64] ++ s). rewrite app_assoc. rewrite (split_first_app 58 (b ++ [64]) s) by (rewrite mem_app, M; reflexivity).
      destruct (split_first 58 s) as [x y]. cbn [fst snd]. rewrite <- app_assoc. cbn [app].
      rewrite (enc_at b x). change ($"%40" ++ x) with (37 :: 52 :: 48 :: x).
      rewrite !enc_userinfo_nil. cbn [set_username set_password scheme username password uhost port path query fragment]. now rewrite ?app_nil_r, app_assoc.
Qed.
Lemma run_authority_loop rest : forall i buffer at1 seen u,
  (length buffer <= i)%nat ->
  run (authority_loop rest i buffer at1 seen) u =
  let (a, _) := span (fun c => negb (ends_auth (is_special u) c)) rest in
  match split_last 64 a with
  | None => if at1 && (length (buffer ++ a) =? 0)%nat then (u, Err EURLParse)
            else (u, Ok (i - length buffer)%nat)
  | Some (ui, hp) =>
      let u' := add_creds seen (at_prefix at1 ++ buffer ++ ui) u in
      if (length hp =? 0)%nat then (u', Err EURLParse) else (u', Ok (S (i + length ui)))
  end.
Proof.
  assert (END : forall i buffer at1 u, (length buffer <= i)%nat ->
    run (authority_end i buffer at1) u =
    if at1 && (length buffer =? 0)%nat then (u, Err EURLParse) else (u, Ok (i - length buffer)%nat)).
  { intros. unfold authority_end. destruct (at1 && _); rn; [reflexivity|].
    now replace (S i - (length buffer + 1))%nat with (i - length buffer)%nat by lia. }
  induction rest as [|c t IH]; intros i buffer at1 seen u HL.
  - cbn [authority_loop span split_last]. rewrite END by auto. now rewrite app_nil_r.
  - cbn [authority_loop span]. destruct (c =? 64) eqn:C.
    + apply N.eqb_eq in C as ->.
      assert (T : ends_auth (is_special u) 64 = false) by (unfold ends_auth; now destruct (is_special u)).
      rewrite T. cbn [negb]. rn. cbv zeta.
      assert (P : (if at1 then $"%40" ++ buffer else buffer) = at_prefix at1 ++ buffer) by now destruct at1.
      rewrite P.
      assert (G : forall user pass, run (when (negb (length user =? 0)%nat)
          (modify (fun u => set_username (username u ++ utf8_percent_encode user SAFE_USERINFO false) u)) ;;
        when (negb (length pass =? 0)%nat)
          (modify (fun u => set_password (password u ++ utf8_percent_encode pass SAFE_USERINFO false) u)) ;;
        authority_loop t (S i) [] true (seen || mem 58 (at_prefix at1 ++ buffer))) u =
        run (authority_loop t (S i) [] true (seen || mem 58 (at_prefix at1 ++ buffer)))
           (set_password (password u ++ enc_userinfo pass) (set_username (username u ++ enc_userinfo user) u))).
      { intros. rn. rewrite run_add_user. cbn [fst snd]. rn. rewrite run_add_pass. cbn [fst snd]. reflexivity. }
      assert (G2 : (let '(user, pass, s) := if seen then ([], at_prefix at1 ++ buffer, true) else find_colon_split (at_prefix at1 ++ buffer) in
         run (when (negb (length user =? 0)%nat)
          (modify (fun u => set_username (username u ++ utf8_percent_encode user SAFE_USERINFO false) u)) ;;
        when (negb (length pass =? 0)%nat)
          (modify (fun u => set_password (password u ++ utf8_percent_encode pass SAFE_USERINFO false) u)) ;;
        authority_loop t (S i) [] true s) u) =
        run (authority_loop t (S i) [] true (seen || mem 58 (at_prefix at1 ++ buffer))) (add_creds seen (at_prefix at1 ++ buffer) u)).
      { unfold add_creds. destruct seen.
        - cbn [orb] in *. rewrite G. reflexivity.
        - rewrite find_colon. cbn [orb] in *. rewrite G. destruct (split_first 58 (at_prefix at1 ++ buffer)). reflexivity. }
      clear G. destruct seen; [|rewrite find_colon in *]; rewrite G2; clear G2; rewrite IH by (cbn; lia);
        (assert (S0 : forall s b, is_special (add_creds s b u) = is_special u)
          by (intros s b; unfold add_creds; destruct s; [|destruct (split_first 58 b)]; reflexivity);
         rewrite S0; destruct (span (fun c => negb (ends_auth (is_special u) c)) t) as [a r]; cbn [split_last];
         destruct (split_last 64 a) as [[ui hp]|] eqn:SL;
         [ rewrite add_creds_at; cbn [length];
           replace (S i + length ui)%nat with (i + S (length ui))%nat by lia; reflexivity
         | cbn [N.eqb Pos.eqb andb length app]; rewrite app_nil_r; 
           destruct a; cbn [length Nat.eqb]; [reflexivity|]; rewrite Nat.add_0_r, Nat.sub_0_r; reflexivity ]).
    + rn. fold (ends_auth (is_special u) c). destruct (ends_auth (is_special u) c) eqn:T; cbn [negb].
      * rewrite END by auto. cbn [split_last]. now rewrite app_nil_r.
      * rewrite IH by (rewrite app_length; cbn; lia).
        destruct (span (fun c => negb (ends_auth (is_special u) c)) t) as [a r]. cbn [split_last].
        destruct (split_last 64 a) as [[ui hp]|].
        -- rewrite <- app_assoc. cbn [app length]. replace (S i + length ui)%nat with (i + S (length ui))%nat by lia. reflexivity.
        -- rewrite C, <- app_assoc, (app_length buffer [c]). cbn [length app].
           replace (S i - (length buffer + 1))%nat with (i - length buffer)%nat by lia. reflexivity.
Qed.

(* ---------- host ---------- *)
(** scanning stops at the first ':' outside brackets or end of the authority *)
Fixpoint host_scan (sp br : bool) (s : str) : str * str :=
  match s with
  | [] => ([], [])
  | c :: t =>
      if ((c =? 58) && negb br) || ends_auth sp c then ([], s)
      else let (a, r) := host_scan sp (if c =? 91 then true else if c =? 93 then false else br) t in (c :: a, r)
  end.
Lemma run_host_loop E so rest : forall i buffer br u,
  run (host_loop E so rest i buffer br) u =
  let (b, t) := host_scan (is_special u) br rest in
  if isc (cur t) 58 then
    if (length (buffer ++ b) =? 0)%nat then (u, Err EURLParse)
    else if is_hostname_override so then (u, Ok (EOF, (i + length b)%nat))
    else match snd (host_parse E (buffer ++ b) (is_not_special u)) with
         | Ok h => (set_host (Some h) u, Ok (PORT, S (i + length b)))
         | Err e => (u, Err e)
         end
  else run (host_end E so (i + length b) (buffer ++ b)) u.
Proof.
  induction rest as [|c t IH]; intros i buffer br u.
  - cbn [host_loop host_scan cur isc]. cbn [length]. now rewrite Nat.add_0_r, app_nil_r.
  - cbn [host_loop host_scan]. rn. destruct ((c =? 58) && negb br) eqn:C.
    + cbn [orb cur isc]. apply andb_true_iff in C as [C _]. rewrite C, app_nil_r. cbn [length]. rewrite Nat.add_0_r.
      destruct (length buffer =? 0)%nat; rn; [reflexivity|]. destruct (is_hostname_override so); rn; [reflexivity|].
      destruct (snd (host_parse E buffer (is_not_special u))); rn; reflexivity.
    + cbn [orb]. fold (ends_auth (is_special u) c). destruct (ends_auth (is_special u) c) eqn:T.
      * cbn [cur isc length]. rewrite Nat.add_0_r, app_nil_r.
        assert ((c =? 58) = false) as ->; [|reflexivity].
        destruct (c =? 58) eqn:Q; [|reflexivity]. apply N.eqb_eq in Q as ->. unfold ends_auth in T. destruct (is_special u); discriminate.
      * rewrite IH. destruct (host_scan _ _ t) as [b r]. rewrite <- app_assoc. cbn [app length].
        replace (S i + length b)%nat with (i + S (length b))%nat by lia. reflexivity.
Qed.
Lemma host_scan_cut sp a t : forall br, Forall (fun c => ends_auth sp c = false) a ->
  match t with [] => True | c :: _ => ends_auth sp c = true end ->
  host_scan sp br (a ++ t) = match host_cut br a with
                             | (h, None) => (h, t)
                             | (h, Some ps) => (h, 58 :: ps ++ t)
                             end.
Proof.
  induction a as [|c a IH]; intros br Ha Ht.
  - cbn [app host_cut]. destruct t as [|c t]; [reflexivity|]. cbn [host_scan]. now rewrite Ht, orb_true_r.
  - inversion Ha; subst. cbn [app host_scan host_cut]. rewrite H1, orb_false_r.
    destruct ((c =? 58) && negb br) eqn:C.
    + apply andb_true_iff in C as [C _]. apply N.eqb_eq in C as ->. reflexivity.
    + rewrite IH by auto. destruct (host_cut _ a) as [h [ps|]]; reflexivity.
Qed.

(* ---------- port ---------- *)
Lemma run_port_loop E so rest : forall i buffer u,
  run (port_loop E so rest i buffer) u =
  let (d, t) := span (fun c => mem c ASCII_DIGITS) rest in
  if match t with [] => true | c :: _ => ends_auth (is_special u) c || overridden so end
  then run (port_end E so (i + length d) (buffer ++ d)) u
  else (u, Err EURLParse).
Proof.
  induction rest as [|c t IH]; intros i buffer u.
  - cbn [port_loop span length]. now rewrite Nat.add_0_r, app_nil_r.
  - cbn [port_loop span]. destruct (mem c ASCII_DIGITS).
    + rewrite IH. destruct (span _ t) as [d r]. rewrite <- app_assoc. cbn [app length].
      replace (S i + length d)%nat with (i + S (length d))%nat by lia. reflexivity.
    + rn. unfold ends_auth. rewrite <- orb_assoc. cbn [length]. rewrite Nat.add_0_r, app_nil_r.
      rewrite orb_assoc. destruct (mem c $"/?#" || is_special u && (c =? 92) || overridden so); [reflexivity|]. rn. reflexivity.
Qed.

(* ---------- file host ---------- *)
Lemma run_file_host_loop E so rest : forall i buffer u,
  run (file_host_loop E so rest i buffer) u =
  let (h, _) := span (fun c => negb (mem c $"/\?#")) rest in
  run (file_host_end E so (i + length h) (buffer ++ h)) u.
Proof.
  induction rest as [|c t IH]; intros i buffer u.
  - cbn [file_host_loop span length]. now rewrite Nat.add_0_r, app_nil_r.
  - cbn [file_host_loop span]. destruct (mem c $"/\?#"); cbn [negb].
    + cbn [length]. now rewrite Nat.add_0_r, app_nil_r.
    + rewrite IH. destruct (span _ t) as [d r]. rewrite <- app_assoc. cbn [app length].
      replace (S i + length d)%nat with (i + S (length d))%nat by lia. reflexivity.
Qed.

(* ---------- scheme ---------- *)
Lemma run_scheme_loop base so rest : forall i buffer u,
  run (scheme_loop base so rest i buffer) u =
  match span is_scheme_char rest with
  | (a, x :: r) => if x =? 58 then run (scheme_colon base so r (S (i + length a)) (buffer ++ a)) u
                   else if overridden so then (u, Err EURLParse) else (u, Ok (NO_SCHEME, 0%nat))
  | (_, []) => if overridden so then (u, Err EURLParse) else (u, Ok (NO_SCHEME, 0%nat))
  end.
Proof.
  induction rest as [|c t IH]; intros i buffer u.
  - cbn [scheme_loop span]. destruct (overridden so); rn; reflexivity.
  - cbn [scheme_loop span]. unfold is_scheme_char at 1. destruct (mem c ASCII_ALPHANUMERIC || mem c $"+-.").
    + rewrite IH. destruct (span is_scheme_char t) as [a [|x r]]; [reflexivity|]. rewrite <- app_assoc. cbn [app length].
      replace (S i + length a)%nat with (i + S (length a))%nat by lia. reflexivity.
    + cbn [length]. rewrite Nat.add_0_r, app_nil_r. destruct (c =? 58); [reflexivity|].
      destruct (overridden so); rn; reflexivity.
Qed.
Lemma run_ignore_slashes rest : forall i u, run (ignore_slashes_loop rest i) u =
  (u, Ok (AUTHORITY, (i + length (fst (span is_slash rest)))%nat)).
Proof.
  induction rest as [|c t IH]; intros i u.
  - cbn [ignore_slashes_loop span fst length]. rn. now rewrite Nat.add_0_r.
  - cbn [ignore_slashes_loop span]. fold (is_slash c). destruct (is_slash c); rn.
    + rewrite IH. destruct (span is_slash t) as [a r]. cbn [fst length].
      replace (S i + length a)%nat with (i + S (length a))%nat by lia. reflexivity.
    + cbn [fst length]. now rewrite Nat.add_0_r.
Qed.
Lemma span_drop p s : snd (span p s) = drop_while p s.
Proof. induction s as [|c t IH]; [reflexivity|]. cbn [span drop_while]. destruct (p c); [|reflexivity]. destruct (span p t). exact IH. Qed.
