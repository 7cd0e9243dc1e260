(** Lemmas relating references against file URLs to RFC 3986, section 5.2 (C100). *)
From Coq Require Import Ascii String.
From Coq Require Import NArith ZArith Bool Arith Lia ZifyBool ZifyN ZifyNat List.
From Verif Require Import PyStr PyInt Codec Env HostModel UrlRecord Parser SpecText SpecHost FlatParser.
From Verif Require Import Lemmas CodecProofs QuoteProofs PyIntProofs LegacyProofs IPv4Proofs HostProofs LoopProofs FlatProofs WfProofs RoundTrip ParserProofs RefProofs PathProofs UrlProps SuffixProofs RefLaws StandardProofs FileRefProofs RfcProofs.
From Verif Require Import SpecUrl SpecParser SpecReference SpecFileReference SpecRfc.
Import ListNotations.
Open Scope N_scope.

Definition undriven (l : list str) : Prop := match l with s :: _ => is_windows_drive_letter s = false | [] => True end.
Lemma undriven_removelast l : undriven l -> undriven (removelast l).
Proof. destruct l as [|s [|s' l]]; [auto|intros _; exact I|intros H; exact H]. Qed.
Lemma undriven_app l s : undriven l -> is_windows_drive_letter s = false -> undriven (l ++ [s]).
Proof. destruct l; [intros _ H; exact H|intros H _; exact H]. Qed.
Lemma undriven_shorten l : undriven l -> shorten_segs $"file" l = removelast l.
Proof.
  destruct l as [|s [|s' l]]; [reflexivity| |reflexivity]. cbn [undriven shorten_segs removelast]. intros H. unfold is_normalized_windows_drive_letter. rewrite H. reflexivity.
Qed.
Lemma enc_drive p : is_pystr p -> is_windows_drive_letter (utf8_percent_encode p SAFE_PATH false) = true -> is_windows_drive_letter p = true.
Proof.
  intros Hp H. destruct (utf8_percent_encode p SAFE_PATH false) as [|a [|c [|? ?]]] eqn:Q; try discriminate H. apply enc_dot in Q; [subst; exact H|exact Hp| |].
  - cbn [is_windows_drive_letter] in H. apply andb_true_iff in H as [A C]. apply mem_In in C. cbn [okd]. destruct (N.eqb_spec a 37) as [-> |]; [discriminate A|].
    destruct C as [<-|[<-|[]]]; reflexivity.
  - rewrite <- Q. now apply utf8_percent_encode_ascii.
Qed.
Lemma file_step sep segs p : is_pystr p -> is_windows_drive_letter p = false -> undriven segs ->
  push $"file" sep segs p = step sep segs (pseg p) /\ undriven (push $"file" sep segs p).
Proof.
  intros Hp ND U. assert (Q : push $"file" sep segs p = push $"http" sep segs p).
  { unfold push. cbv zeta. rewrite undriven_shorten by exact U. rewrite (shorten_plain $"http") by (vm_compute; discriminate).
    destruct (str_in _ DOUBLE_DOT); [reflexivity|]. destruct (str_in _ SINGLE_DOT); [reflexivity|].
    destruct (is_windows_drive_letter (utf8_percent_encode p SAFE_PATH false)) eqn:D; [apply enc_drive in D; [congruence|exact Hp]|]. now rewrite !andb_false_r. }
  split; [rewrite Q; apply pseg_step; vm_compute; discriminate|]. unfold push. cbv zeta. rewrite undriven_shorten by exact U. pose proof (undriven_removelast segs U) as UR.
  assert (N0 : is_windows_drive_letter [] = false) by reflexivity.
  destruct (str_in _ DOUBLE_DOT); [destruct sep; [exact UR|now apply undriven_app]|]. destruct (str_in _ SINGLE_DOT); [destruct sep; [exact U|now apply undriven_app]|].
  destruct (is_windows_drive_letter (utf8_percent_encode p SAFE_PATH false)) eqn:D; [apply enc_drive in D; [congruence|exact Hp]|]. rewrite andb_false_r. now apply undriven_app.
Qed.
Lemma file_walk ps : Forall (fun p => is_pystr p /\ is_windows_drive_letter p = false) ps -> forall segs, undriven segs -> walk $"file" segs ps = trail segs (map pseg ps).
Proof.
  induction 1 as [|p ps [H1 H2] Hps IH]; intros segs U; [reflexivity|]. cbn [walk map trail]. destruct (file_step false segs p H1 H2 U) as [-> _]. destruct (file_step true segs p H1 H2 U) as [Q V].
  destruct ps as [|q ps]; [reflexivity|]. rewrite IH by exact V. now rewrite Q.
Qed.

(** a text without drive letters between its slashes *)
Lemma split_occurs s x : In x (split 47 s) -> exists a b, 47 :: s ++ [47] = a ++ 47 :: x ++ 47 :: b.
Proof.
  remember (length s) as n eqn:L. assert (L' : (length s <= n)%nat) by lia. clear L. revert s L'. induction n as [|n IH]; intros s L H.
  - destruct s; [|cbn in L; lia]. destruct H as [<-|[]]. exists [], []. reflexivity.
  - destruct (mem 47 s) eqn:M.
    + destruct (mem_split 47 s M) as (a & b & -> & A). rewrite split_app in H by exact A. destruct H as [<-|H].
      * exists [], (b ++ [47]). cbn [app]. now rewrite <- app_assoc.
      * destruct (IH b) as (y & z & Q); [rewrite app_length in L; cbn [length] in L; lia|exact H|]. exists (47 :: a ++ y), z. cbn [app]. rewrite <- !app_assoc. cbn [app]. now rewrite Q.
    + rewrite split_no_sep in H by exact M. destruct H as [<-|[]]. exists [], []. reflexivity.
Qed.
Lemma no_drive_pieces s : (forall a c x y, std_any_drive_letter [a; c] = true -> 47 :: s ++ [47] <> x ++ [47; a; c; 47] ++ y) ->
  Forall (fun p => is_windows_drive_letter p = false) (split 47 s).
Proof.
  intros H. apply Forall_forall. intros p Hp. rewrite any_drive_eq. destruct (std_any_drive_letter p) eqn:D; [|reflexivity]. exfalso.
  destruct (split_occurs s p Hp) as (x & y & Q). destruct p as [|a [|c [|? ?]]]; try discriminate D. now apply (H a c x y D).
Qed.
Lemma tail_no_drive c s : (forall a d x y, std_any_drive_letter [a; d] = true -> 47 :: (c :: s) ++ [47] <> x ++ [47; a; d; 47] ++ y) -> c = 47 ->
  forall a d x y, std_any_drive_letter [a; d] = true -> 47 :: s ++ [47] <> x ++ [47; a; d; 47] ++ y.
Proof. intros H -> a d x y D Q. apply (H a d (47 :: x) y D). cbn [app] in *. now rewrite Q. Qed.
Lemma no_drive_starts s : (forall a c x y, std_any_drive_letter [a; c] = true -> 47 :: s ++ [47] <> x ++ [47; a; c; 47] ++ y) -> no_qf s -> mem 92 s = false ->
  std_starts_drive_letter s = false.
Proof.
  intros H NQ BS. destruct s as [|a [|c t]]; try reflexivity. cbn [std_starts_drive_letter]. destruct (std_any_drive_letter [a; c]) eqn:D; [|reflexivity]. cbn [andb].
  destruct t as [|e t]; [exfalso; now apply (H a c [] [] D)|].
  assert (Q : is_qf e = false) by (inversion NQ as [|? ? _ N1]; inversion N1 as [|? ? _ N2]; now inversion N2). rewrite qf_eq in Q.
  destruct (N.eqb_spec e 47) as [-> |N]; [exfalso; now apply (H a c [] (t ++ [47]) D)|].
  assert (B : (e =? 92) = false). { cbn [mem existsb] in BS. repeat (apply orb_false_iff in BS as [? BS]). now rewrite N.eqb_sym. }
  lia.
Qed.

Section Refs.
Context (E : env) (enc : str) (b : urlrec) (l : list str) (P : str -> host -> Prop) (WF : wf P b) (L : path b = PList l) (F : scheme b = $"file") (U : undriven l).
Lemma file_on_path u x : no_qf x -> is_pystr x -> scheme u = $"file" -> mem 92 x = false -> undriven (path_segs u) ->
  Forall (fun p => is_windows_drive_letter p = false) (split 47 x) ->
  flat_path E enc u x = Ok (set_path (PList (trail (path_segs u) (map pseg (split 47 x)))) u).
Proof.
  intros NQ PY SU BS UD ND. unfold flat_path. rewrite no_qf_span by exact NQ. cbn [flat_tail]. rewrite pieces_plain by auto. rewrite SU, file_walk; [reflexivity| |exact UD].
  apply Forall_forall. intros p Hp. split; [|rewrite Forall_forall in ND; now apply ND]. apply Forall_forall. intros c Hc. unfold is_pystr in PY. rewrite Forall_forall in PY. apply PY. exact (WfProofs.split_in 47 x p c Hp Hc).
Qed.
Lemma undriven_drive : drive l = [].
Proof. destruct l as [|s l']; [reflexivity|]. cbn [drive undriven] in *. rewrite <- drive_eq. unfold is_normalized_windows_drive_letter. now rewrite U. Qed.
Lemma file_ref_path rp q : is_pystr rp -> no_qf rp -> mem 92 rp = false -> scheme_split rp = None -> (forall x, rp <> 47 :: 47 :: x) -> rp <> [] ->
  (forall a c x y, std_any_drive_letter [a; c] = true -> 47 :: rp ++ [47] <> x ++ [47; a; c; 47] ++ y) ->
  exists u, flat_main E (Some b) enc rp = Ok u /\
    target b (fst (rfc_transform (has_authority b) (path_text l) (query b) (enc_path rp) q)) None u.
Proof.
  intros PY NQ BS NS DS NE ND. pose proof (parsed_list_opaque b l L) as O. destruct rp as [|c x]; [congruence|].
  assert (WP : Forall (seg_ok true) l /\ file_first $"file" l). { destruct WF as (_ & WP & _). unfold wf_path in WP. rewrite L, (file_special b F), F in WP. tauto. }
  assert (BX : mem 92 x = false) by (cbn [mem existsb] in BS; apply orb_false_iff in BS; apply BS).
  destruct (N.eqb_spec c 47) as [-> |C].
  - exists (set_path (PList (trail [] (map pseg (split 47 x)))) (bare_of b)). split.
    + rewrite (file_slash_main P E enc b l 47 x WF F L eq_refl).
      * unfold unless_drive. rewrite undriven_drive. destruct (std_starts_drive_letter x); (apply file_on_path; [now inversion NQ|now inversion PY|exact F|exact BX|exact I|]);
          apply no_drive_pieces; now apply (tail_no_drive 47 x ND).
      * destruct x as [|d x]; [exact I|]. rewrite slash_eq. destruct (N.eqb_spec d 47) as [-> |]; [now specialize (DS x)|]. cbn [orb].
        cbn [mem existsb] in BX. rewrite N.eqb_sym. destruct (92 =? d); [discriminate BX|reflexivity].
    + exists (trail [] (map pseg (split 47 x))). split; [reflexivity|]. rewrite enc_slash by now inversion PY. pose proof (psegs_ne x) as NE'. pose proof (psegs_free x ltac:(now inversion PY)) as FR.
      destruct (map pseg (split 47 x)) as [|s ps] eqn:Q; [congruence|]. cbn [path_text flat_map app rfc_transform]. change (47 =? 47) with true. cbn [fst].
      change (47 :: s ++ flat_map (fun s => 47 :: s) ps) with (path_text (s :: ps)). now rewrite rfc_remove.
  - destruct (is_qf c) eqn:QF; [exfalso; inversion NQ; congruence|].
    assert (SL : is_slash c = false). { rewrite slash_eq. destruct (N.eqb_spec c 47); [congruence|]. cbn [orb]. cbn [mem existsb] in BS. rewrite N.eqb_sym. destruct (92 =? c); [discriminate BS|reflexivity]. }
    exists (set_path (PList (trail (removelast l) (map pseg (split 47 (c :: x))))) (bare_of b)). split.
    + rewrite (file_relative_main P E enc b l c x WF F L NS SL QF). unfold unless_drive. rewrite no_drive_starts by assumption. rewrite directory_text, undriven_shorten by exact U.
      rewrite file_dir_path; [|apply removelast_forall, WP| |exact F|reflexivity].
      2:{ intros X. pose proof (undriven_removelast l U) as UR. destruct (removelast l); [exact I|]. cbn [undriven] in UR. congruence. }
      rewrite file_on_path; [reflexivity|exact NQ|exact PY|exact F|exact BS|now apply undriven_removelast|now apply no_drive_pieces].
    + exists (trail (removelast l) (map pseg (split 47 (c :: x)))). split; [reflexivity|]. destruct (enc_path_head c x PY C) as (d & y & Q & D). rewrite Q. cbn [rfc_transform]. rewrite D. cbn [fst]. rewrite <- Q.
      assert (M : rfc_merge (has_authority b) (path_text l) (enc_path (c :: x)) = path_text (removelast l ++ map pseg (split 47 (c :: x)))).
      { rewrite path_text_app, <- (plain_text (c :: x)) by exact PY. destruct (path_text l) as [|z w] eqn:T.
        - destruct l as [|s l0]; [|discriminate T]. unfold rfc_merge, has_authority. destruct WF as (_ & WQ & _). unfold wf_path in WQ. rewrite L in WQ. destruct WQ as (_ & WQ & _). destruct (WQ eq_refl) as [_ V].
          destruct (uhost b); [reflexivity|congruence].
        - unfold rfc_merge. rewrite <- T. rewrite upto_last_segs; [|exact (segs_free b l P WF L)|intros ->; discriminate T]. now rewrite <- app_assoc. }
      rewrite M, rfc_remove.
      * rewrite trail_plain; [reflexivity|apply psegs_ne|apply removelast_forall, (segs_plain b l P WF L)].
      * intros Z. apply app_eq_nil in Z as [_ Z]. now apply psegs_ne in Z.
      * apply Forall_app. split; [apply removelast_forall, (segs_free b l P WF L)|now apply psegs_free].
Qed.
End Refs.

Lemma lower1_letter c d : lower1 c = d -> 97 <= d <= 122 -> std_alpha c = true.
Proof. unfold lower1, std_alpha. destruct (_ && _) eqn:Q; lia. Qed.
Lemma has_scheme_file s : lower s = $"file:" -> has_scheme s.
Proof.
  change ($"file:") with [102; 105; 108; 101; 58]. unfold lower. destruct s as [|a [|b [|c [|d [|e [|]]]]]]; try discriminate. cbn [map]. intros H. injection H as A B C D Q.
  exists [a; b; c; d], []. split.
  - cbn [app]. repeat f_equal. unfold lower1 in Q. destruct (_ && _) eqn:X in Q; lia.
  - cbn [std_scheme forallb]. unfold std_scheme_char. rewrite (lower1_letter a 102 A), (lower1_letter b 105 B), (lower1_letter c 108 C), (lower1_letter d 101 D) by lia. reflexivity.
Qed.
Lemma rfc_file_reference E b l rp q f enc : enc_ok E (normalize_encoding E enc) -> parsed E b -> path b = PList l -> scheme b = $"file" -> drive l = [] ->
  is_pystr (reference_text rp q f) -> std_trim (reference_text rp q f) = reference_text rp q f -> reference_text rp q f <> [] ->
  ~ In 63 rp -> ~ In 35 rp -> (forall x, q = Some x -> ~ In 35 x) -> ~ In 92 rp -> ~ has_scheme rp -> (forall x, rp <> $"//" ++ x) ->
  (forall a c x y, std_any_drive_letter [a; c] = true -> $"/" ++ rp ++ $"/" <> x ++ $"/" ++ [a; c] ++ $"/" ++ y) ->
  (q = None \/ normalize_encoding E enc = $"utf-8") ->
  let (tp, tq) := rfc_transform true (path_text l) (query b)
                    (plain_dots (std_percent_encode path_set false rp)) (option_map (std_percent_encode (std_query_set $"file") false) q) in
  exists l', path_text l' = tp /\
    snd (parse_url E (reference_text rp q f) (BRec b) enc) =
    Ok (set_fragment (option_map (std_percent_encode fragment_set false) f) (set_query tq (set_path (PList l') b))).
Proof.
  intros He Hb L F DR PY TR NE H1 H2 HQ BS NS DS ND UQ. rewrite parsed_flat by exact Hb. unfold flat_parse. rewrite clean_std, TR. set (en := normalize_encoding E enc) in *.
  pose proof (parsed_wf E b Hb) as WF.
  assert (HA : has_authority b = true). { unfold has_authority. pose proof WF as ((_ & _ & _ & W & _) & _). unfold wf_host in W. rewrite (file_special b F) in W. destruct (uhost b); [reflexivity|congruence]. }
  assert (UD : undriven l).
  { destruct l as [|s l']; [exact I|]. cbn [undriven]. destruct (is_windows_drive_letter s) eqn:D; [|reflexivity]. exfalso. destruct WF as (_ & WP & _). unfold wf_path in WP. rewrite L in WP.
    destruct WP as (_ & _ & WP). specialize (WP F D). rewrite drive_eq in WP. cbn [drive] in DR. rewrite WP in DR. destruct s; discriminate DR. }
  unfold reference_text in *. apply Forall_app in PY as [Prp PY]. apply Forall_app in PY as [Pq Pf].
  rewrite <- (encode_conforms _ _ _ _ agree_path) by exact Prp. fold (enc_path rp).
  destruct (rfc_transform _ _ _ (enc_path rp) _) as [tp tq] eqn:T.
  pose proof (f_equal fst T) as T1. pose proof (f_equal snd T) as T2. cbn [fst snd] in T1, T2. clear T. rewrite transform_query in T2 by exact Prp.
  pose proof (not_in_qf rp H1 H2) as NQ. assert (BS' : mem 92 rp = false) by now apply mem_not_In.
  assert (FS : forall f, is_pystr f -> enc_fragment f = std_percent_encode fragment_set false f) by (intros g Hg; now apply (encode_conforms _ _ _ _ agree_fragment)).
  assert (V : exists l' v, path_text l' = tp /\ v = set_query (match rp with [] => query b | _ => None end) (set_path (PList l') (bare_of b)) /\
    (rp <> [] -> flat_main E (Some b) en rp = Ok v) /\ forall c r, is_qf c = true -> flat_main E (Some b) en (rp ++ c :: r) = flat_tail E en v (c :: r)).
  { destruct rp as [|c0 rp].
    - exists l, (set_fragment None b). split; [exact T1|]. split; [rewrite <- L; destruct b; reflexivity|]. split; [congruence|]. intros c r Hc. cbn [app]. unfold flat_main. cbn [scheme_split].
      assert (A : mem c ASCII_ALPHA = false) by (rewrite qf_eq in Hc; apply orb_true_iff in Hc as [X|X]; apply N.eqb_eq in X; subst c; reflexivity). rewrite A.
      apply (qf_ref (hostval E)); [exact WF|exact (parsed_list_opaque b l L)|exact Hc].
    - destruct (file_ref_path E en b l (hostval E) WF L F UD (c0 :: rp) (option_map (std_percent_encode (std_query_set $"file") false) q) Prp NQ BS' (no_scheme_split _ NS)) as (u & U & l' & -> & TX).
      { intros x Q. exact (DS x Q). } { discriminate. } { intros a c x y D. exact (ND a c x y D). }
      rewrite HA, T1 in TX. exists l', (set_query None (set_path (PList l') (bare_of b))). split; [exact TX|]. split; [reflexivity|]. split; [intros _; exact U|]. intros c r Hc.
      rewrite (main_tail E en (c :: r) Hc (Some b) (c0 :: rp) NQ); [rewrite U; reflexivity|]. split; [discriminate|]. intros [X|X]; [discriminate X|]. exfalso. apply NS. apply has_scheme_file. exact X. }
  destruct V as (l' & v & TX & VE & V1 & MT). exists l'. split; [exact TX|].
  destruct q as [q|].
  - cbn [app] in *. pose proof (Forall_inv_tail Pq) as Pq'. rewrite MT by reflexivity. specialize (HQ q eq_refl).
    destruct UQ as [UQ|UQ]; [discriminate UQ|]. destruct (enc_query_ok E en v q He Pq') as (x & X & _).
    assert (X' : x = std_percent_encode (std_query_set $"file") false q).
    { assert (SV : scheme v = $"file") by (rewrite VE; exact F). rewrite <- SV. apply (enc_query_std E enc v q x Pq' X). now left. }
    assert (TQ : tq = Some x) by (rewrite <- T2, X'; destruct rp; reflexivity). rewrite TQ. clear T2.
    destruct f as [f|].
    + rewrite query_frag by exact HQ. rewrite query_tail by exact HQ. rewrite X. cbn [on_ok]. unfold frag. rewrite FS by exact (Forall_inv_tail Pf). rewrite VE. reflexivity.
    + rewrite app_nil_r. rewrite query_tail by exact HQ. rewrite X. rewrite VE. reflexivity.
  - cbn [app option_map] in *. assert (TQ : tq = match rp with [] => query b | _ => None end) by (rewrite <- T2; destruct rp; reflexivity). rewrite TQ.
    destruct f as [f|].
    + rewrite MT by reflexivity. cbn [flat_tail]. change (35 =? 63) with false. cbv iota. unfold flat_frag. rewrite FS by exact (Forall_inv_tail Pf). rewrite VE. reflexivity.
    + rewrite app_nil_r in *. rewrite V1, VE by (intros ->; now apply NE). reflexivity.
Qed.
