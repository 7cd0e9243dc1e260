(** C95, C98 and C99 with any codec: from the theorems for UTF-8 and C132. *)
From Coq Require Import Ascii String.
From Coq Require Import NArith ZArith Bool Arith Lia List.
From Verif Require Import PyStr PyInt Codec Env HostModel UrlRecord Parser Validators AnyCodec AnyCodecProofs AnyCodecLog.
From Verif Require Import Lemmas IPv4Proofs HostProofs UrlProps StandardProofs SpecPyInt IntGrammar SpecIPv6 IPv6Grammar HostStandard.
From Verif Require Import ReportStandard WritingProofs WritingStandard SpecText SpecHost SpecUrl SpecParser SpecReports SpecHostReports SpecWriting SpecCodec.
Import ListNotations.
Open Scope N_scope.

Section Any.
Context {X : Type} (cd : list N -> anycodec X) (E : env) (s : list N) (base : option urlrec) (enc : list N).

Lemma utf8_name : normalize_encoding E UTF8 = $"utf-8".
Proof. vm_compute. reflexivity. Qed.
Lemma any_reports :
  (forall b, std_port_read (code_host E) base s b -> short_for (int_limit E) b) -> std_good_base base -> file_pipe_host base s = false ->
  exists t, (forall l, std_parse_reports (code_host_log E) base s l <-> l = fst (any_new cd E s base enc) ++ t) /\
  ((forall x, snd (any_new cd E s base enc) <> Ok (inl x)) -> t = []).
Proof.
  intros HP HB HF. destruct (any_log cd E s base enc) as (t & H1 & H2). exists t. split; [|exact H2]. rewrite <- H1.
  exact (reports_equal E s base UTF8 utf8_name HP HB HF).
Qed.
Lemma any_silent : limit_ok E -> std_good_base base -> idna_ok E -> scalar_string s ->
  url_string true (fun h => domain_string (code_to_ascii E) h /\ regular_host E h false) (fun a => address_string a /\ ~ odd_v6 a) base s ->
  fst (any_new cd E s base enc) = [].
Proof.
  intros HL HB HI HS HU. destruct (valid_silent E s base UTF8 HL utf8_name HB HI HS HU) as [H _].
  destruct (any_log cd E s base enc) as (t & H1 & _). rewrite H in H1. symmetry in H1. now apply app_eq_nil in H1.
Qed.
Lemma any_valid : bytes_codec (cd (normalize_encoding E enc)) -> limit_ok E -> std_good_base base -> keeps_forbidden (code_to_ascii E) -> scalar_string s ->
  let good := url_string false (fun h => domain_chars true h /\ fst (host_parse E h false) = []) (fun a => exists x, code_v6_text a x) base s in
  ((exists u, any_new cd E s base enc = ([], Ok (inr u))) -> good) /\
  (good -> snd (any_new cd E s base enc) <> Err EValue -> exists r, any_new cd E s base enc = ([], Ok r)).
Proof.
  intros HC HL HB HK HS good. pose proof (silent_iff E s base UTF8 HL utf8_name HB HK HS) as SI. fold good in SI.
  assert (PS : is_pystr s) by exact (proj1 HS).
  pose proof (any_codec cd E s base enc PS HC) as AC. destruct (any_log cd E s base enc) as (t & H1 & H2). split.
  - intros [u H]. rewrite H in H1, H2, AC. cbn [fst snd] in H1, H2, AC. rewrite H2 in H1 by (intros x Q; discriminate Q).
    apply SI. destruct (parse_new E s base UTF8) as [l [v|e]]; cbn [fst snd] in *; [|discriminate AC]. exists v. now rewrite H1.
  - intros G NE. assert (NE' : snd (parse_new E s base UTF8) <> Err EValue) by (intros Q; rewrite Q in AC; contradiction).
    destruct (proj2 SI (conj G NE')) as [u U]. rewrite U in AC, H1. cbn [fst snd] in AC, H1. symmetry in H1. apply app_eq_nil in H1 as [H1 _].
    assert (R : exists r, snd (any_new cd E s base enc) = Ok r).
    { destruct AC as [A1 A2]. destruct (list_eq_dec N.eq_dec (normalize_encoding E enc) $"utf-8") as [Q|Q]; [eexists; apply A1; now left|].
      assert (L : legacy_scheme (scheme u) \/ ~ legacy_scheme (scheme u)) by
        (unfold legacy_scheme; destruct (special_scheme (scheme u)) eqn:SS;
         [apply special_spec in SS|right; intros [Y _]; apply special_spec in Y; congruence];
         destruct (list_eq_dec N.eq_dec (scheme u) $"ws"); [right; tauto|]; destruct (list_eq_dec N.eq_dec (scheme u) $"wss"); [right|left]; tauto).
      destruct L as [L|L]; [|eexists; apply A1; tauto].
      destruct (std_query_text s) as [[|c q]|] eqn:T; [eexists; apply A1; tauto| |eexists; apply A1; tauto].
      rewrite (A2 (c :: q) Q L eq_refl ltac:(discriminate)). cbv zeta. destruct (strict _ _); [eauto| |eauto]. destruct (chunks _ _); eauto. }
    destruct R as [r R]. exists r. destruct (any_new cd E s base enc). cbn [fst snd] in *. now subst.
Qed.
End Any.

(** URLValidator.is_valid *)
Lemma plain_scheme E s base enc u : snd (parse_new E s base enc) = Ok u ->
  exists u', snd (parse_new E s base UTF8) = Ok u' /\ scheme u = scheme u'.
Proof.
  intros H. rewrite <- new_char in H. pose proof (any_new_ok (fun e => char_codec (codec E e)) E s base enc) as A.
  destruct (any_new _ E s base enc) as [l [[x|w]|e]]; cbn [plain_result snd] in H, A; try discriminate. injection H as ->.
  destruct (snd (parse_new E s base UTF8)) as [u'|e]; [|discriminate]. exists u'. split; [reflexivity|]. unfold recode in A.
  repeat match type of A with context[match ?x with _ => _ end] => destruct x; try discriminate end; injection A as ->; destruct u'; reflexivity.
Qed.
Lemma plain_error E s base enc e : snd (parse_new E s base enc) = Err e -> e <> EUnicode -> snd (parse_new E s base UTF8) = Err e.
Proof.
  intros H N. rewrite <- new_char in H. pose proof (any_new_ok (fun e => char_codec (codec E e)) E s base enc) as A.
  destruct (any_new _ E s base enc) as [l [[x|w]|e']]; cbn [plain_result snd] in H, A; try discriminate; [congruence|]. injection H as ->.
  destruct (snd (parse_new E s base UTF8)) as [u'|e']; [|now injection A as ->]. exfalso. unfold recode in A.
  repeat match type of A with context[match ?x with _ => _ end] => destruct x; try discriminate end.
Qed.
Lemma valid_encoding E s base enc v : (forall t, base <> BStr t) ->
  if match snd (parse_url (with_validity E true) s base enc) with Err EUnicode => true | _ => false end
  then fst (url_is_valid E s base enc v) = Err EUnicode
  else url_is_valid E s base enc v = url_is_valid E s base UTF8 v.
Proof.
  intros NB. set (E1 := with_validity E true). set (b := match base with BRec u => Some u | _ => None end).
  assert (P : forall e, parse_url E1 s base e = parse_new E1 s b e).
  { intros e. destruct base as [|t|u]; [| now destruct (NB t)|]; unfold parse_url, wbind, wret, b; destruct (parse_new _ _ _ _); reflexivity. }
  unfold url_is_valid. cbv zeta. fold E1. rewrite !P. pose proof (plain_log E1 s b enc) as L. pose proof (plain_scheme E1 s b enc) as S1.
  pose proof (plain_error E1 s b enc) as S2.
  destruct (parse_new E1 s b enc) as [l [u|e]]; cbn [fst snd] in *.
  - destruct (S1 u eq_refl) as (u' & U & Q). specialize (L ltac:(discriminate)). destruct (parse_new E1 s b UTF8) as [l' r']. cbn [fst snd] in *. subst. now rewrite Q.
  - destruct (match e with EUnicode => true | _ => false end) eqn:K; [destruct e; try discriminate K; reflexivity|].
    assert (NE : e <> EUnicode) by (intros ->; discriminate K). specialize (S2 e eq_refl NE). specialize (L ltac:(congruence)).
    destruct (parse_new E1 s b UTF8) as [l' r']. cbn [fst snd] in *. now subst.
Qed.
