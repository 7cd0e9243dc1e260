(** URLValidator.is_valid with a base URL and the grammar of SpecWriting.v. *)
From Coq Require Import Ascii String.
From Coq Require Import NArith ZArith Bool Arith Lia ZifyBool ZifyN ZifyNat List.
From Verif Require Import PyStr PyInt Codec Env Schemes HostModel UrlRecord Parser Validators FlatParser Lemmas IPv4Proofs HostProofs WfProofs FlatProofs StandardProofs SpecPyInt IntGrammar
  SpecIPv6 IPv6Grammar HostStandard UrlProps ParserProofs ValidityProofs WritingProofs WritingStandard WritingValid SpecText SpecHost SpecUrl SpecParser SpecReports SpecHostReports SpecWriting SpecNamedScheme.
Import ListNotations.
Open Scope N_scope.

Lemma no_scheme_scheme E enc b t : has_scheme (scheme b) (flat_no_scheme E (Some b) enc t).
Proof.
  unfold flat_no_scheme. destruct (has_opaque_path b).
  - destruct t as [|c t]; [exact I|]. destruct (c =? 35); [|exact I]. cbn [has_scheme]. now rewrite frag_scheme.
  - destruct (str_eqb (scheme b) $"file") eqn:F; [apply str_eqb_eq in F; rewrite F; apply file_scheme|apply relative_scheme].
Qed.
Lemma good_of_parsed E b : parsed E b -> std_good_base (Some b).
Proof.
  intros H. pose proof (parsed_base_ok E b H) as W. intros S. apply special_spec in S. specialize (W S). rewrite (path_list b W). eauto.
Qed.
Lemma parse_url_rec' E s b enc : parse_url E s (BRec b) enc = parse_new E s (Some b) enc.
Proof. unfold parse_url, wbind, wret. destruct (parse_new E s (Some b) enc). reflexivity. Qed.

Section Valid.
Context (E : env) (enc : str).
Definition some_scheme (base : option urlrec) (s : list N) : Prop := exists sch, names_scheme base s sch /\ In sch REGISTERED_SCHEMES.
Definition written (base : option urlrec) (s : list N) : Prop := url_string false (code_dom E) code_v6 base s.

Lemma scheme_named b s u : normalize_encoding E enc = $"utf-8" -> parsed E b -> written (Some b) s -> snd (parse_new E s (Some b) enc) = Ok u -> names_scheme (Some b) s (scheme u).
Proof.
  intros HE HB W P. assert (EO : enc_ok E (normalize_encoding E enc)) by (rewrite HE; now left).
  destruct (scheme_split s) as [[sch t]|] eqn:Q.
  - left. apply scheme_split_iff in Q as [-> Q]. exists sch, t. split; [reflexivity|]. split; [exact Q|].
    rewrite <- parse_url_rec in P. exact (scheme_stored E sch t (BRec b) enc u EO HB Q P).
  - right. split; [now apply scheme_split_none|]. exists b. split; [reflexivity|].
    pose proof (seen_url false (code_dom E) code_v6 (dom_seen E) v6_seen (Some b) s W) as V. destruct (seen_kept s V) as [A B].
    rewrite parse_new_flat in P by exact (parsed_base_ok E b HB). unfold flat_parse in P. rewrite (kept_clean s A B) in P. unfold flat_main in P. rewrite Q in P.
    pose proof (no_scheme_scheme E (normalize_encoding E enc) b s) as H. rewrite P in H. exact H.
Qed.
Lemma names_one b s x y : names_scheme (Some b) s x -> names_scheme (Some b) s y -> x = y.
Proof.
  intros [(a & t & -> & A & ->)|(L & c & F & ->)] [(a' & t' & Q & A' & ->)|(L' & c' & F' & ->)].
  - assert (X : scheme_split (a ++ 58 :: t) = Some (a, t)) by now apply scheme_split_iff.
    assert (Y : scheme_split (a ++ 58 :: t) = Some (a', t')) by now apply scheme_split_iff. rewrite X in Y. now injection Y as -> ->.
  - rewrite (L' a t eq_refl) in A. discriminate.
  - rewrite (L a' t' Q) in A'. discriminate.
  - congruence.
Qed.
Lemma silent_scheme b s : limit_ok E -> normalize_encoding E enc = $"utf-8" -> keeps_forbidden (code_to_ascii E) -> scalar_string s -> parsed E b ->
  ((exists u, parse_new E s (Some b) enc = ([], Ok u) /\ In (scheme u) REGISTERED_SCHEMES) <->
   written (Some b) s /\ some_scheme (Some b) s /\ snd (parse_new E s (Some b) enc) <> Err EValue).
Proof.
  intros HL HE HK HS HB. pose proof (silent_iff E s (Some b) enc HL HE (good_of_parsed E b HB) HK HS) as SI. split.
  - intros (u & P & R). assert (X : exists u, parse_new E s (Some b) enc = ([], Ok u)) by eauto. apply SI in X as [G NE].
    split; [exact G|]. split; [|exact NE]. exists (scheme u). split; [|exact R]. apply scheme_named; auto. now rewrite P.
  - intros (G & (sch & N & R) & NE). destruct (proj2 SI (conj G NE)) as [u P]. exists u. split; [exact P|].
    assert (N2 : names_scheme (Some b) s (scheme u)) by (apply scheme_named; auto; now rewrite P). now rewrite (names_one b s _ _ N2 N).
Qed.
End Valid.

Theorem is_valid_record E s b enc v : limit_ok E -> normalize_encoding E enc = $"utf-8" -> keeps_forbidden (code_to_ascii E) -> scalar_string s ->
  let E1 := with_validity E true in parsed E1 b ->
  (fst (url_is_valid E s (BRec b) enc v) = Ok true <->
   url_string false (fun h => domain_chars true h /\ fst (host_parse E1 h false) = []) (fun a => exists x, code_v6_text a x) (Some b) s /\
   (exists sch, names_scheme (Some b) s sch /\ In sch REGISTERED_SCHEMES) /\
   snd (parse_new E1 s (Some b) enc) <> Err EValue).
Proof.
  intros HL HE HK HS E1 HB. assert (EO : enc_ok E (normalize_encoding E enc)) by (rewrite HE; now left).
  rewrite (url_valid_spec E s (BRec b) enc v EO (proj1 HS) HB). fold E1. rewrite parse_url_rec'. exact (silent_scheme E1 enc b s HL HE HK HS HB).
Qed.

Lemma parse_url_str' E s t enc u : parse_url E s (BStr t) enc = ([], Ok u) <-> exists b, parse_new E t None enc = ([], Ok b) /\ parse_new E s (Some b) enc = ([], Ok u).
Proof.
  unfold parse_url, wbind, wret. destruct (parse_new E t None enc) as [l [b|e]].
  - destruct (parse_new E s (Some b) enc) as [m r] eqn:Q. cbn [fst snd]. rewrite app_nil_r. split.
    + intros H. injection H as H1 ->. apply app_eq_nil in H1 as [-> ->]. exists b. now rewrite Q.
    + intros (b' & H1 & H2). injection H1 as -> <-. rewrite Q in H2. injection H2 as -> ->. reflexivity.
  - split; [intros H; discriminate H|]. intros (b & H & _). discriminate H.
Qed.
Theorem is_valid_string E s t enc v : limit_ok E -> normalize_encoding E enc = $"utf-8" -> keeps_forbidden (code_to_ascii E) -> scalar_string s -> scalar_string t ->
  let E1 := with_validity E true in
  let fits := url_string false (fun h => domain_chars true h /\ fst (host_parse E1 h false) = []) (fun a => exists x, code_v6_text a x) in
  (fst (url_is_valid E s (BStr t) enc v) = Ok true <->
   exists b, snd (parse_new E1 t None enc) = Ok b /\ fits None t /\ fits (Some b) s /\
     (exists sch, names_scheme (Some b) s sch /\ In sch REGISTERED_SCHEMES) /\
     snd (parse_new E1 s (Some b) enc) <> Err EValue).
Proof.
  intros HL HE HK HS HT E1 fits. assert (EO : enc_ok E (normalize_encoding E enc)) by (rewrite HE; now left).
  rewrite (url_valid_spec E s (BStr t) enc v EO (proj1 HS) (proj1 HT)). fold E1.
  pose proof (silent_iff E1 t None enc HL HE I HK HT) as ST.
  assert (PB : forall b, snd (parse_new E1 t None enc) = Ok b -> parsed E1 b).
  { intros b H. rewrite <- parse_url_none in H. exact (parsed_none E1 t enc b (proj1 HT) EO H). }
  split.
  - intros (u & H & R). apply parse_url_str' in H as (b & H1 & H2). exists b. assert (Hb : snd (parse_new E1 t None enc) = Ok b) by now rewrite H1.
    split; [exact Hb|]. split; [exact (proj1 (proj1 ST (ex_intro _ b H1)))|]. apply (silent_scheme E1 enc b s HL HE HK HS (PB b Hb)). eauto.
  - intros (b & Hb & F & H). apply (silent_scheme E1 enc b s HL HE HK HS (PB b Hb)) in H as (u & H & R). exists u. split; [|exact R]. apply parse_url_str'. exists b. split; [|exact H].
    destruct (proj2 ST) as [b' H1]; [split; [exact F|rewrite Hb; discriminate]|]. rewrite H1 in Hb. cbn [snd] in Hb. injection Hb as ->. exact H1.
Qed.
