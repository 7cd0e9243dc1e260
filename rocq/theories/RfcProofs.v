(** Lemmas relating the parser's treatment of relative references to RFC 3986,
    section 5.2 (C100). *)
From Coq Require Import Ascii String.
From Coq Require Import NArith ZArith Bool Arith Lia ZifyBool ZifyN ZifyNat List.
From Verif Require Import PyStr PyInt Codec Env HostModel UrlRecord Parser SpecText SpecHost FlatParser.
From Verif Require Import Lemmas CodecProofs QuoteProofs PyIntProofs LegacyProofs IPv4Proofs HostProofs LoopProofs FlatProofs WfProofs RoundTrip ParserProofs RefProofs PathProofs UrlProps SuffixProofs RefLaws.
From Verif Require Import SpecUrl SpecReference SpecRfc.
Import ListNotations.
Open Scope N_scope.

(* ---------- remove_dot_segments on lists of segments ---------- *)
Definition step (sep : bool) (segs : list str) (p : str) : list str :=
  let l := if str_eqb p $".." then removelast segs else segs in
  if str_eqb p $".." || str_eqb p $"." then (if sep then l else l ++ [[]]) else segs ++ [p].
Fixpoint trail (segs ps : list str) : list str :=
  match ps with
  | [] => segs
  | p :: rest => match rest with [] => step false segs p | _ => trail (step true segs p) rest end
  end.
Definition slashless (s : str) : Prop := mem 47 s = false.
Lemma path_text_app a b : path_text (a ++ b) = path_text a ++ path_text b.
Proof. apply flat_map_app. Qed.
Lemma existsb_47 s : existsb (N.eqb 47) s = mem 47 s. Proof. reflexivity. Qed.
Lemma without_last_free s : slashless s -> without_last s = [].
Proof.
  induction s as [|c s IH]; [reflexivity|]. unfold slashless. cbn [mem existsb without_last]. intros H. apply orb_false_iff in H as [H1 H2]. rewrite existsb_47. unfold mem in *. rewrite H2.
  rewrite N.eqb_sym, H1. now apply IH.
Qed.
Lemma without_last_app a s : slashless s -> without_last (a ++ 47 :: s) = a.
Proof.
  intros H. induction a as [|c a IH].
  - cbn [app without_last]. rewrite existsb_47. unfold slashless in H. now rewrite H.
  - cbn [app without_last]. rewrite existsb_app. cbn [existsb]. change (47 =? 47) with true. rewrite orb_true_r. now rewrite IH.
Qed.
Lemma last_split {A} (l : list A) : l = [] \/ exists a x, l = a ++ [x].
Proof. destruct l as [|y l]; [now left|]. right. exists (removelast (y :: l)), (last (y :: l) y). now apply app_removelast_last. Qed.
Lemma without_last_segs l : Forall slashless l -> without_last (path_text l) = path_text (removelast l).
Proof.
  intros H. destruct (last_split l) as [-> |(a & x & ->)]; [reflexivity|]. apply Forall_app in H as [_ H]. inversion H; subst.
  rewrite removelast_last, path_text_app. cbn [path_text flat_map]. rewrite app_nil_r. now apply without_last_app.
Qed.
Lemma upto_last_segs l : Forall slashless l -> l <> [] -> upto_last_slash (path_text l) = path_text (removelast l) ++ [47].
Proof.
  intros H N. destruct (last_split l) as [-> |(a & x & ->)]; [congruence|]. apply Forall_app in H as [_ H]. inversion H; subst.
  rewrite removelast_last, path_text_app. cbn [path_text flat_map]. rewrite app_nil_r. clear - H2. induction (path_text a) as [|c t IH].
  - cbn [app upto_last_slash]. rewrite existsb_47. unfold slashless in H2. now rewrite H2.
  - cbn [app upto_last_slash]. rewrite existsb_app. cbn [existsb]. change (47 =? 47) with true. rewrite orb_true_r. now rewrite IH.
Qed.
Lemma upto_slash_app s t : slashless s -> match t with [] => True | c :: _ => c = 47 end -> upto_slash (s ++ t) = (s, t).
Proof.
  intros H T. induction s as [|c s IH].
  - cbn [app]. destruct t as [|c t]; [reflexivity|]. subst c. reflexivity.
  - unfold slashless in H. cbn [mem existsb] in H. apply orb_false_iff in H as [H1 H2]. cbn [app upto_slash]. rewrite N.eqb_sym, H1. now rewrite IH.
Qed.
Lemma text_head l : match path_text l with [] => True | c :: _ => c = 47 end. Proof. destruct l; [exact I|reflexivity]. Qed.
Lemma after_nil s : after [] s = Some s. Proof. destruct s; reflexivity. Qed.
Lemma rfc_dot out t : t <> [] -> match t with [] => True | c :: _ => c = 47 end -> rfc_step (47 :: 46 :: t) out = (t, out).
Proof. destruct t as [|c t]; [congruence|]. intros _ ->. destruct t; reflexivity. Qed.
Lemma rfc_dotdot out t : t <> [] -> match t with [] => True | c :: _ => c = 47 end -> rfc_step (47 :: 46 :: 46 :: t) out = (t, without_last out).
Proof. destruct t as [|c t]; [congruence|]. intros _ ->. destruct t; reflexivity. Qed.
Lemma rfc_other p out t : slashless p -> match t with [] => True | c :: _ => c = 47 end -> p <> [46] -> p <> [46; 46] -> rfc_step (47 :: p ++ t) out = (t, out ++ 47 :: p).
Proof.
  intros H T N1 N2. assert (F : first_segment (47 :: p ++ t) = (47 :: p, t)). { cbn [first_segment]. now rewrite upto_slash_app. }
  assert (Z : rfc_step (47 :: p ++ t) out = let (s, r) := first_segment (47 :: p ++ t) in (r, out ++ s)); [|rewrite Z, F; reflexivity].
  clear F. unfold slashless in H. destruct p as [|a p].
  - cbn [app]. destruct t as [|c t]; [reflexivity|]. subst c. reflexivity.
  - cbn [mem existsb] in H. apply orb_false_iff in H as [Ha Hp]. cbn [app]. unfold rfc_step.
    change (after $"../" (47 :: a :: p ++ t)) with (@None (list N)). change (after $"./" (47 :: a :: p ++ t)) with (@None (list N)). cbv iota.
    change (after $"/./" (47 :: a :: p ++ t)) with (after $"./" (a :: p ++ t)). change (after $"/../" (47 :: a :: p ++ t)) with (after $"../" (a :: p ++ t)).
    change (str_eqb (47 :: a :: p ++ t) $"/.") with ((a =? 46) && str_eqb (p ++ t) []). change (str_eqb (47 :: a :: p ++ t) $"/..") with ((a =? 46) && str_eqb (p ++ t) [46]).
    change (str_eqb (47 :: a :: p ++ t) $"." || str_eqb (47 :: a :: p ++ t) $"..") with false. cbv iota.
    change (after $"./" (a :: p ++ t)) with (if 46 =? a then after $"/" (p ++ t) else None). change (after $"../" (a :: p ++ t)) with (if 46 =? a then after $"./" (p ++ t) else None).
    rewrite (N.eqb_sym 46 a). destruct (N.eqb_spec a 46) as [-> |]; [|reflexivity]. cbn [andb]. destruct p as [|b p]; [congruence|].
    cbn [existsb] in Hp. apply orb_false_iff in Hp as [Hb Hp]. cbn [app].
    change (after $"/" (b :: p ++ t)) with (if 47 =? b then after [] (p ++ t) else None). rewrite Hb.
    change (str_eqb (b :: p ++ t) []) with false. change (str_eqb (b :: p ++ t) [46]) with ((b =? 46) && str_eqb (p ++ t) []).
    change (after $"./" (b :: p ++ t)) with (if 46 =? b then after $"/" (p ++ t) else None). rewrite (N.eqb_sym 46 b). destruct (N.eqb_spec b 46) as [-> |]; [|reflexivity].
    destruct p as [|c p]; [congruence|]. cbn [existsb] in Hp. apply orb_false_iff in Hp as [Hc Hp]. cbn [app andb].
    change (after $"/" (c :: p ++ t)) with (if 47 =? c then after [] (p ++ t) else None). rewrite Hc. reflexivity.
Qed.
Lemma rfc_loop_nil n out : rfc_loop n [] out = out. Proof. destruct n; reflexivity. Qed.
Lemma rfc_loop_slash n out : (1 <= n)%nat -> rfc_loop n [47] out = out ++ [47].
Proof. destruct n; [lia|]. intros _. cbn [rfc_loop]. change (rfc_step [47] out) with (@nil N, out ++ [47]). cbv iota. apply rfc_loop_nil. Qed.
Lemma rfc_loop_step m c t out i o : rfc_step (c :: t) out = (i, o) -> rfc_loop (S m) (c :: t) out = rfc_loop m i o.
Proof. intros H. cbn [rfc_loop]. now rewrite H. Qed.
Lemma slashless_removelast l : Forall slashless l -> Forall slashless (removelast l). Proof. apply removelast_forall. Qed.
Lemma rfc_trail ps : ps <> [] -> Forall slashless ps -> forall n segs, Forall slashless segs -> (length (path_text ps) <= n)%nat ->
  rfc_loop n (path_text ps) (path_text segs) = path_text (trail segs ps).
Proof.
  intros N H. induction H as [|p ps Hp Hps IH]; [congruence|]. clear N. intros n segs Hs L. cbn [path_text flat_map] in *. fold (path_text ps) in *.
  destruct n as [|m]; [cbn [app length] in L; lia|]. cbn [app]. assert (L' : (length p + length (path_text ps) <= m)%nat). { cbn [app] in L. cbn [length] in L. rewrite app_length in L. lia. }
  destruct (str_eqb p $".") eqn:D1; [|destruct (str_eqb p $"..") eqn:D2].
  - apply str_eqb_eq in D1. subst p. cbn [trail]. destruct ps as [|q ps].
    + cbn [path_text flat_map app s2l]. change ($"." ++ []) with [46]. rewrite (rfc_loop_step m 47 [46] _ [47] (path_text segs)) by reflexivity. change (step false segs $".") with (segs ++ [[]]).
      rewrite path_text_app. cbn [path_text flat_map app]. apply rfc_loop_slash. cbn in L'. lia.
    + change ($"." ++ path_text (q :: ps)) with (46 :: path_text (q :: ps)). rewrite (rfc_loop_step m _ _ _ _ _ (rfc_dot (path_text segs) (path_text (q :: ps)) ltac:(discriminate) eq_refl)).
      change (step true segs $".") with segs. apply IH; [discriminate|exact Hs|lia].
  - apply str_eqb_eq in D2. subst p. cbn [trail]. destruct ps as [|q ps].
    + cbn [path_text flat_map]. change ($".." ++ []) with [46; 46]. rewrite (rfc_loop_step m 47 [46; 46] _ [47] (without_last (path_text segs))) by reflexivity. change (step false segs $"..") with (removelast segs ++ [[]]).
      rewrite path_text_app, without_last_segs by exact Hs. cbn [path_text flat_map app]. apply rfc_loop_slash. cbn in L'. lia.
    + change ($".." ++ path_text (q :: ps)) with (46 :: 46 :: path_text (q :: ps)). rewrite (rfc_loop_step m _ _ _ _ _ (rfc_dotdot (path_text segs) (path_text (q :: ps)) ltac:(discriminate) eq_refl)).
      change (step true segs $"..") with (removelast segs). rewrite without_last_segs by exact Hs. apply IH; [discriminate|now apply slashless_removelast|lia].
  - assert (N1 : p <> [46]) by (intros ->; discriminate D1). assert (N2 : p <> [46; 46]) by (intros ->; discriminate D2).
    rewrite (rfc_loop_step m _ _ _ _ _ (rfc_other p (path_text segs) (path_text ps) Hp (text_head ps) N1 N2)).
    assert (Z : forall sep, step sep segs p = segs ++ [p]) by (intros sep; unfold step; now rewrite D1, D2).
    assert (T : path_text segs ++ 47 :: p = path_text (segs ++ [p])). { rewrite path_text_app. cbn [path_text flat_map]. now rewrite app_nil_r. }
    rewrite T. cbn [trail]. rewrite !Z. destruct ps as [|q ps]; [apply rfc_loop_nil|]. apply IH; [discriminate|apply Forall_app; split; [exact Hs|repeat constructor; exact Hp]|].
    lia.
Qed.
Lemma rfc_remove ps : ps <> [] -> Forall slashless ps -> remove_dot_segments (path_text ps) = path_text (trail [] ps).
Proof. intros N H. unfold remove_dot_segments. apply (rfc_trail ps N H (length (path_text ps)) []); [constructor|lia]. Qed.
Lemma trail_plain a b segs : b <> [] -> Forall (fun s => s <> [46] /\ s <> [46; 46]) a -> trail segs (a ++ b) = trail (segs ++ a) b.
Proof.
  intros N H. revert segs. induction H as [|s a [H1 H2] Ha IH]; intros segs; [now rewrite app_nil_r|]. cbn [app trail].
  assert (Z : step true segs s = segs ++ [s]).
  { unfold step. destruct (str_eqb s $"..") eqn:D; [apply str_eqb_eq in D; now apply H2 in D|]. destruct (str_eqb s $".") eqn:D'; [apply str_eqb_eq in D'; now apply H1 in D'|]. reflexivity. }
  rewrite Z. destruct (a ++ b) eqn:Q; [apply app_eq_nil in Q as [_ Q]; congruence|]. rewrite IH, <- app_assoc. reflexivity.
Qed.

(* ---------- the parser's segments ---------- *)
Definition pseg (p : str) : str := plain_segment (utf8_percent_encode p SAFE_PATH false).
Lemma pseg_step sch sep segs p : sch <> $"file" -> push sch sep segs p = step sep segs (pseg p).
Proof.
  intros NF. unfold push, pseg, plain_segment. cbv zeta. set (x := utf8_percent_encode p SAFE_PATH false). rewrite dd_spec, sd_spec. rewrite shorten_plain by exact NF.
  assert (X : std_double_dot x = true -> std_single_dot x = false).
  { unfold std_double_dot, std_single_dot. intros H. apply existsb_exists in H as (y & Y & Q). apply str_eqb_eq in Q. rewrite Q. repeat (destruct Y as [<-|Y]; [reflexivity|]). destruct Y. }
  destruct (std_double_dot x) eqn:D; [rewrite X by reflexivity; reflexivity|]. destruct (std_single_dot x) eqn:D'; [reflexivity|].
  destruct (str_eqb sch $"file") eqn:F; [apply str_eqb_eq in F; contradiction|]. cbn [andb]. unfold step.
  destruct (str_eqb x $"..") eqn:Q; [apply str_eqb_eq in Q; rewrite Q in D; discriminate D|]. destruct (str_eqb x $".") eqn:Q'; [apply str_eqb_eq in Q'; rewrite Q' in D'; discriminate D'|]. reflexivity.
Qed.
Lemma walk_trail sch ps segs : sch <> $"file" -> walk sch segs ps = trail segs (map pseg ps).
Proof.
  intros NF. revert segs. induction ps as [|p ps IH]; intros segs; [reflexivity|]. cbn [walk map trail]. rewrite !pseg_step by exact NF. destruct ps as [|q ps]; [reflexivity|]. rewrite IH. reflexivity.
Qed.
Lemma plain_segment_free s : slashless s -> slashless (plain_segment s).
Proof. intros H. unfold plain_segment. destruct (std_single_dot s); [reflexivity|]. destruct (std_double_dot s); [reflexivity|exact H]. Qed.
Lemma pseg_free p : is_pystr p -> slashless p -> slashless (pseg p).
Proof. intros Hp H. apply plain_segment_free. apply enc_not_in; auto; [lia|unfold upper_hex; lia]. Qed.
Lemma plain_dots_split s : 47 :: plain_dots s = path_text (map plain_segment (split 47 s)).
Proof.
  assert (G : forall seg, 47 :: plain_dots_from seg s = path_text (map plain_segment (match split 47 s with p :: ps => (rev seg ++ p) :: ps | [] => [] end))).
  { induction s as [|c s IH]; intros seg.
    - cbn [plain_dots_from split map path_text flat_map]. now rewrite !app_nil_r.
    - cbn [plain_dots_from split]. destruct (N.eqb_spec c 47) as [-> |].
      + specialize (IH []). rewrite IH. pose proof (split_not_nil 47 s). destruct (split 47 s) as [|p ps]; [congruence|]. cbn [rev app map path_text flat_map]. now rewrite app_nil_r.
      + rewrite IH. cbn [rev]. destruct (split 47 s) as [|p ps] eqn:Q; [now apply split_not_nil in Q|]. now rewrite <- app_assoc. }
  unfold plain_dots. rewrite G. destruct (split 47 s) as [|p ps] eqn:Q; [now apply split_not_nil in Q|]. reflexivity.
Qed.
Lemma enc_split p : is_pystr p -> split 47 (utf8_percent_encode p SAFE_PATH false) = map (fun s => utf8_percent_encode s SAFE_PATH false) (split 47 p).
Proof.
  remember (length p) as n eqn:L. assert (L' : (length p <= n)%nat) by lia. clear L. revert p L'. induction n as [|n IH]; intros p L Hp.
  - destruct p; [reflexivity|cbn in L; lia].
  - destruct (mem 47 p) eqn:M.
    + destruct (mem_split 47 p M) as (a & b & -> & A). rewrite encode_cut by lia. change (utf8_percent_encode [47] SAFE_PATH false) with [47]. cbn [app].
      apply Forall_app in Hp as [Ha Hb]. inversion Hb; subst. rewrite !split_app; [|exact A|apply enc_not_in; auto; [lia|unfold upper_hex; lia]]. cbn [map]. f_equal. apply IH; [|assumption].
      rewrite app_length in L. cbn [length] in L. lia.
    + rewrite !split_no_sep; [reflexivity|exact M|apply enc_not_in; auto; [lia|unfold upper_hex; lia]].
Qed.
Lemma pieces_plain sp p : (sp = true -> mem 92 p = false) -> pieces sp p = split 47 p.
Proof. intros H. unfold pieces, norm_slash. destruct sp; [|reflexivity]. unfold replace_char. now rewrite no92_id by auto. Qed.
Lemma plain_text p : is_pystr p -> 47 :: plain_dots (utf8_percent_encode p SAFE_PATH false) = path_text (map pseg (split 47 p)).
Proof. intros Hp. rewrite plain_dots_split, enc_split by exact Hp. now rewrite map_map. Qed.
Lemma psegs_free p : is_pystr p -> Forall slashless (map pseg (split 47 p)).
Proof.
  intros Hp. apply Forall_forall. intros s Hs. apply in_map_iff in Hs as (x & <- & Hx). apply pseg_free; [|exact (split_pieces_no_sep _ _ _ Hx)].
  apply Forall_forall. intros c Hc. unfold is_pystr in Hp. rewrite Forall_forall in Hp. apply Hp. exact (WfProofs.split_in 47 p x c Hx Hc).
Qed.
Lemma psegs_ne p : map pseg (split 47 p) <> []. Proof. pose proof (split_not_nil 47 p). destruct (split 47 p); [congruence|discriminate]. Qed.

(* ---------- paths ---------- *)
Section Refs.
Context (E : env) (enc : str) (b : urlrec) (l : list str) (P : str -> host -> Prop) (WF : wf P b) (L : path b = PList l) (NF : scheme b <> $"file").
Lemma segs_free : Forall slashless l.
Proof.
  destruct WF as (_ & WP & _). unfold wf_path in WP. rewrite L in WP. destruct WP as (WP & _). eapply Forall_impl; [|exact WP]. intros s (_ & A & _). exact A.
Qed.
Lemma segs_plain : Forall (fun s => s <> [46] /\ s <> [46; 46]) l.
Proof.
  destruct WF as (_ & WP & _). unfold wf_path in WP. rewrite L in WP. destruct WP as (WP & _). eapply Forall_impl; [|exact WP]. intros s (_ & _ & _ & A). split; intros ->; discriminate A.
Qed.
Lemma on_path u x : no_qf x -> scheme u <> $"file" -> (is_special u = true -> mem 92 x = false) ->
  flat_path E enc u x = Ok (set_path (PList (trail (path_segs u) (map pseg (split 47 x)))) u).
Proof.
  intros NQ NU BS. unfold flat_path. rewrite no_qf_span by exact NQ. cbn [flat_tail]. rewrite pieces_plain by exact BS. now rewrite walk_trail by exact NU.
Qed.
Definition has_authority : bool := match uhost b with Some _ => true | None => false end.
Definition enc_path (rp : str) : str := plain_dots (utf8_percent_encode rp SAFE_PATH false).
Lemma enc_slash x : is_pystr x -> enc_path (47 :: x) = path_text (map pseg (split 47 x)).
Proof.
  intros H. unfold enc_path. rewrite <- plain_text by exact H. change (47 :: x) with ([] ++ 47 :: x). rewrite encode_cut by lia.
  change (utf8_percent_encode [] SAFE_PATH false) with (@nil N). change (utf8_percent_encode [47] SAFE_PATH false) with [47]. reflexivity.
Qed.
Lemma enc_path_head c x : is_pystr (c :: x) -> c <> 47 -> exists d y, enc_path (c :: x) = d :: y /\ (d =? 47) = false.
Proof.
  intros H C. assert (T : 47 :: enc_path (c :: x) = path_text (map pseg (split 47 (c :: x)))) by now apply plain_text.
  pose proof (psegs_free (c :: x) H) as FR. destruct (QuoteProofs.split_cons 47 c x C) as (p & ps & Q1 & Q2). rewrite Q2 in T, FR. cbn [map path_text flat_map] in T. injection T as T. rewrite T.
  cbn [map] in FR. inversion FR as [|? ? A _]; subst. destruct (pseg (c :: p)) as [|d y] eqn:S.
  - exfalso. unfold pseg, plain_segment in S. destruct (std_single_dot _); [discriminate S|]. destruct (std_double_dot _); [discriminate S|].
    revert S. apply encode_nonempty; [|discriminate]. apply Forall_forall. intros e He. unfold is_pystr in H. rewrite Forall_forall in H. apply H.
    apply (WfProofs.split_in 47 (c :: x) (c :: p) e); [rewrite Q2; now left|exact He].
  - exists d, (y ++ flat_map (fun s => 47 :: s) (map pseg ps)). split; [reflexivity|]. unfold slashless in A. cbn [mem existsb] in A. apply orb_false_iff in A as [A _]. now rewrite N.eqb_sym.
Qed.
Definition target (t : list N) (q : option str) (u : urlrec) : Prop := exists l', u = set_query q (set_path (PList l') (bare_of b)) /\ path_text l' = t.
Lemma ref_path rp q : is_pystr rp -> no_qf rp -> (is_special b = true -> mem 92 rp = false) -> scheme_split rp = None -> (forall x, rp <> 47 :: 47 :: x) ->
  exists u, flat_main E (Some b) enc rp = Ok u /\
    target (fst (rfc_transform has_authority (path_text l) (query b) (enc_path rp) q)) (match rp with [] => query b | _ => None end) u.
Proof.
  intros PY NQ BS NS DS. pose proof (parsed_list_opaque b l L) as O. destruct rp as [|c x].
  - exists (set_fragment None b). split.
    + unfold flat_main. cbn [scheme_split]. unfold flat_no_scheme. rewrite O. destruct (str_eqb (scheme b) $"file") eqn:F; [apply str_eqb_eq in F; contradiction|]. unfold flat_relative. cbv zeta. now rewrite base_all_eq.
    + exists l. split; [|reflexivity]. rewrite <- L. destruct b; reflexivity.
  - destruct (N.eqb_spec c 47) as [-> |C].
    + exists (set_path (PList (trail [] (map pseg (split 47 x)))) (bare_of b)). split.
      * rewrite (slash_main E enc b NF 47 x O eq_refl).
        -- apply on_path; [now inversion NQ|exact NF|]. intros S. specialize (BS S). cbn [mem existsb] in BS. apply orb_false_iff in BS. apply BS.
        -- destruct x as [|d x]; [exact I|]. unfold slash_for. destruct (N.eqb_spec d 47) as [-> |]; [now specialize (DS x)|]. cbn [orb]. destruct (special_scheme (scheme b)) eqn:S; [|reflexivity].
           specialize (BS S). cbn [mem existsb] in BS. cbn [andb]. rewrite N.eqb_sym. destruct (92 =? d); [|reflexivity]. discriminate BS.
      * exists (trail [] (map pseg (split 47 x))). split; [reflexivity|]. rewrite enc_slash by now inversion PY. pose proof (psegs_ne x) as NE. pose proof (psegs_free x ltac:(now inversion PY)) as FR.
        destruct (map pseg (split 47 x)) as [|s ps] eqn:Q; [congruence|]. cbn [path_text flat_map app rfc_transform]. change (47 =? 47) with true. cbn [fst].
        change (47 :: s ++ flat_map (fun s => 47 :: s) ps) with (path_text (s :: ps)). now rewrite rfc_remove.
    + destruct (is_qf c) eqn:QF; [exfalso; inversion NQ; congruence|].
      assert (SL : slash_for (scheme b) c = false).
      { unfold slash_for. destruct (N.eqb_spec c 47); [congruence|]. cbn [orb]. destruct (special_scheme (scheme b)) eqn:S; [|reflexivity]. specialize (BS S). cbn [mem existsb] in BS. cbn [andb]. rewrite N.eqb_sym. destruct (92 =? c); [discriminate BS|reflexivity]. }
      exists (set_path (PList (trail (removelast l) (map pseg (split 47 (c :: x))))) (bare_of b)). split.
      * rewrite (relative_main P E enc b l c x WF L NF NS SL QF), dot_path. unfold directory.
        assert (WP : Forall (seg_ok (is_special b)) l) by (destruct WF as (_ & WP & _); unfold wf_path in WP; rewrite L in WP; apply WP).
        rewrite dir_path; [|now apply removelast_forall|exact NF|reflexivity]. rewrite on_path; [reflexivity|exact NQ|exact NF|exact BS].
      * exists (trail (removelast l) (map pseg (split 47 (c :: x)))). split; [reflexivity|]. destruct (enc_path_head c x PY C) as (d & y & Q & D). rewrite Q. cbn [rfc_transform]. rewrite D. cbn [fst]. rewrite <- Q.
        assert (M : rfc_merge has_authority (path_text l) (enc_path (c :: x)) = path_text (removelast l ++ map pseg (split 47 (c :: x)))).
        { rewrite path_text_app, <- (plain_text (c :: x)) by exact PY. destruct (path_text l) as [|z w] eqn:T.
          - destruct l as [|s l0]; [|discriminate T]. unfold rfc_merge, has_authority. destruct WF as (_ & WP & _). unfold wf_path in WP. rewrite L in WP. destruct WP as (_ & WP & _). destruct (WP eq_refl) as [_ U].
            destruct (uhost b); [reflexivity|congruence].
          - unfold rfc_merge. rewrite <- T. rewrite upto_last_segs; [|exact segs_free|intros ->; discriminate T]. now rewrite <- app_assoc. }
        rewrite M, rfc_remove.
        -- rewrite trail_plain; [reflexivity|apply psegs_ne|apply removelast_forall, segs_plain].
        -- intros Z. apply app_eq_nil in Z as [_ Z]. now apply psegs_ne in Z.
        -- apply Forall_app. split; [apply removelast_forall, segs_free|now apply psegs_free].
Qed.
End Refs.

(* ---------- whole references ---------- *)
Lemma not_in_qf rp : ~ In 63 rp -> ~ In 35 rp -> no_qf rp.
Proof. intros H1 H2. apply Forall_forall. intros c Hc. rewrite qf_eq. destruct (N.eqb_spec c 63); [subst; contradiction|]. destruct (N.eqb_spec c 35); [subst; contradiction|reflexivity]. Qed.
Lemma transform_query a bp bq rp q : is_pystr rp -> snd (rfc_transform a bp bq (enc_path rp) q) = match rp with [] => match q with Some x => Some x | None => bq end | _ => q end.
Proof.
  intros H. destruct rp as [|c x]; [reflexivity|]. destruct (N.eqb_spec c 47) as [-> |C].
  - rewrite enc_slash by now inversion H. pose proof (psegs_ne x). destruct (map pseg (split 47 x)); [congruence|]. reflexivity.
  - destruct (enc_path_head c x H C) as (d & y & -> & D). cbn [rfc_transform]. now rewrite D.
Qed.
Lemma rfc_reference E b l rp q f enc : enc_ok E (normalize_encoding E enc) -> parsed E b -> path b = PList l -> scheme b <> $"file" ->
  is_pystr (reference_text rp q f) -> std_trim (reference_text rp q f) = reference_text rp q f ->
  ~ In 63 rp -> ~ In 35 rp -> (forall x, q = Some x -> ~ In 35 x) -> (std_special (scheme b) -> ~ In 92 rp) -> ~ has_scheme rp -> (forall x, rp <> $"//" ++ x) ->
  (q = None \/ normalize_encoding E enc = $"utf-8" \/ ~ std_special (scheme b) \/ scheme b = $"ws" \/ scheme b = $"wss") ->
  let (tp, tq) := rfc_transform (match uhost b with Some _ => true | None => false end) (path_text l) (query b)
                    (plain_dots (std_percent_encode path_set false rp)) (option_map (std_percent_encode (std_query_set (scheme b)) false) q) in
  exists l', path_text l' = tp /\
    snd (parse_url E (reference_text rp q f) (BRec b) enc) =
    Ok (set_fragment (option_map (std_percent_encode fragment_set false) f) (set_query tq (set_path (PList l') b))).
Proof.
  intros He Hb L NF PY TR H1 H2 HQ BS NS DS UQ. rewrite parsed_flat by exact Hb. unfold flat_parse. rewrite clean_std, TR. set (en := normalize_encoding E enc) in *.
  unfold reference_text in *. apply Forall_app in PY as [Prp PY]. apply Forall_app in PY as [Pq Pf].
  rewrite <- (encode_conforms _ _ _ _ agree_path) by exact Prp. fold (enc_path rp).
  destruct (rfc_transform _ _ _ (enc_path rp) _) as [tp tq] eqn:T.
  pose proof (f_equal fst T) as T1. pose proof (f_equal snd T) as T2. cbn [fst snd] in T1, T2. clear T. rewrite transform_query in T2 by exact Prp.
  pose proof (not_in_qf rp H1 H2) as NQ. assert (BS' : is_special b = true -> mem 92 rp = false). { intros S. apply mem_not_In. apply BS. apply special_spec. exact S. }
  destruct (ref_path E en b l (hostval E) (parsed_wf E b Hb) L NF rp (option_map (std_percent_encode (std_query_set (scheme b)) false) q) Prp NQ BS' (no_scheme_split rp NS)) as (u & U & l' & -> & TX).
  { intros x ->. now apply (DS x). }
  unfold has_authority in TX. rewrite T1 in TX. clear T1. exists l'. split; [exact TX|]. set (v := set_query _ (set_path (PList l') (bare_of b))) in *.
  assert (MT : forall c r, is_qf c = true -> flat_main E (Some b) en (rp ++ c :: r) = flat_tail E en v (c :: r)).
  { intros c r Hc. rewrite (main_tail E en (c :: r) Hc (Some b) rp NQ); [rewrite U; reflexivity|]. split.
    - intros _ O. rewrite (parsed_list_opaque b l L) in O. discriminate O.
    - intros _. unfold same_scheme. destruct (str_eqb (scheme b) $"file") eqn:F; [apply str_eqb_eq in F; contradiction|reflexivity]. }
  assert (FS : forall f, is_pystr f -> enc_fragment f = std_percent_encode fragment_set false f) by (intros g Hg; now apply (encode_conforms _ _ _ _ agree_fragment)).
  destruct q as [q|].
  - cbn [app] in *. pose proof (Forall_inv_tail Pq) as Pq'. rewrite MT by reflexivity. specialize (HQ q eq_refl).
    destruct UQ as [UQ|UQ]; [discriminate UQ|]. destruct (enc_query_ok E en v q He Pq') as (x & X & _).
    assert (X' : x = std_percent_encode (std_query_set (scheme b)) false q) by (apply (enc_query_std E enc v q x Pq' X UQ)).
    assert (TQ : tq = Some x) by (rewrite <- T2, X'; destruct rp; reflexivity). rewrite TQ. clear T2.
    destruct f as [f|].
    + rewrite query_frag by exact HQ. rewrite query_tail by exact HQ. rewrite X. cbn [on_ok]. unfold frag. rewrite FS by exact (Forall_inv_tail Pf). reflexivity.
    + rewrite app_nil_r. rewrite query_tail by exact HQ. rewrite X. reflexivity.
  - cbn [app option_map] in *. assert (TQ : tq = match rp with [] => query b | _ => None end) by (rewrite <- T2; destruct rp; reflexivity). rewrite TQ.
    destruct f as [f|].
    + rewrite MT by reflexivity. cbn [flat_tail]. change (35 =? 63) with false. cbv iota. unfold flat_frag. rewrite FS by exact (Forall_inv_tail Pf). reflexivity.
    + rewrite app_nil_r, U. reflexivity.
Qed.
