(** Valid URL strings (SpecWriting.v) are those on which the parser reports nothing: the
    whole parser. *)
From Coq Require Import Ascii String.
From Coq Require Import NArith ZArith Bool Arith Lia ZifyBool ZifyN ZifyNat List.
From Verif Require Import PyStr PyInt Codec Env HostModel UrlRecord Parser FlatParser Lemmas CodecProofs QuoteProofs
  SpecParams PyIntProofs IPv4Proofs IPv6Proofs HostProofs WfProofs ValidatorProofs ParserProofs ParamProofs LoopProofs FlatProofs StandardProofs SetterProofs SpecPyInt IntGrammar SpecIPv6 IPv6Grammar
  HostStandard ReportProofs ReportStandard HostReportProofs WritingProofs
  SpecText SpecHost SpecUrl SpecParser SpecReports SpecHostReports SpecWriting.
Import ListNotations.
Open Scope N_scope.

(* ---------- visible characters ---------- *)
Definition seen (s : str) : Prop := forall c, In c s -> 32 < c.
Lemma seen_nil : seen []. Proof. intros c []. Qed.
Lemma seen_app a b : seen a -> seen b -> seen (a ++ b).
Proof. intros H1 H2 c H. apply in_app_or in H as [H|H]; auto. Qed.
Lemma seen_cons x a : 32 < x -> seen a -> seen (x :: a).
Proof. intros H1 H2 c [<-|H]; auto. Qed.
Lemma seen_unit s : unit_string s -> seen s.
Proof. intros H c Hc. now apply (unit_in s). Qed.
Lemma seen_path s : path_string s -> seen s.
Proof. intros H. apply path_units in H as [H _]. now apply seen_unit. Qed.
Lemma seen_optional x (P : str -> Prop) s : 32 < x -> (forall t, P t -> seen t) -> optional x P s -> seen s.
Proof. intros X H [-> |(t & -> & Q)]; [apply seen_nil|]. apply seen_cons; auto. Qed.
Lemma seen_digits s : forallb std_digit s = true -> seen s.
Proof. intros H c Hc. rewrite forallb_forall in H. specialize (H c Hc). unfold std_digit in H. lia. Qed.
Lemma seen_port s : optional 58 port_string s -> seen s.
Proof. apply seen_optional; [lia|]. intros t [H _]. now apply seen_digits. Qed.
Lemma seen_relative s : path_relative s -> seen s. Proof. intros [H _]. now apply seen_path. Qed.
Lemma seen_absolute s : path_absolute s -> seen s.
Proof. intros (p & -> & H). apply seen_cons; [lia|now apply seen_relative]. Qed.
Lemma seen_after b s : path_after_host b s -> seen s.
Proof. intros (p & -> & H & _). apply seen_cons; [lia|now apply seen_path]. Qed.
Lemma seen_scheme s : std_scheme s = true -> seen s.
Proof.
  destruct s as [|c t]; [discriminate|]. cbn [std_scheme]. intros H. apply andb_true_iff in H as [A H]. apply seen_cons; [unfold std_alpha in A; lia|].
  intros x Hx. rewrite forallb_forall in H. specialize (H x Hx). unfold std_scheme_char, std_alpha, std_digit in H. cbn [one_of existsb] in H. lia.
Qed.
Section Seen.
Context (strict : bool) (dom v6 : str -> Prop).
Hypothesis (Hd : forall h, dom h -> seen h) (Hv : forall a, v6 a -> seen a).
Lemma seen_v6 h : (exists a, h = 91 :: a ++ [93] /\ v6 a) -> seen h.
Proof. intros (a & -> & H). apply seen_cons; [lia|]. apply seen_app; [auto|]. apply seen_cons; [lia|apply seen_nil]. Qed.
Lemma seen_host h : host_string dom v6 h -> seen h.
Proof. intros [H|H]; [auto|now apply seen_v6]. Qed.
Lemma seen_opaque_host h : opaque_host_string v6 h -> seen h.
Proof. intros [[_ H]|H]; [|now apply seen_v6]. apply seen_unit. revert H. apply units_impl. now intros c [H _]. Qed.
Lemma seen_end a : a = [] \/ path_after_host strict a -> seen a.
Proof. intros [-> |H]; [apply seen_nil|now apply seen_after in H]. Qed.
Lemma seen_two s : seen s -> seen ([47; 47] ++ s).
Proof. intros H. apply seen_app; [|exact H]. intros c [<-|[<-|[]]]; lia. Qed.
Lemma seen_special s : scheme_relative_special strict dom v6 s -> seen s.
Proof. intros (h & p & a & -> & H & P & A). apply seen_two, seen_app; [now apply seen_host|]. apply seen_app; [now apply seen_port|now apply seen_end]. Qed.
Lemma seen_file s : scheme_relative_file strict dom v6 s -> seen s.
Proof.
  intros (h & a & -> & H). apply seen_two, seen_app.
  - destruct H as [(H & _)|(-> & _)]; [now apply seen_host|apply seen_nil].
  - destruct H as [(_ & H & _)|(_ & [[_ ->]|H])]; [now apply seen_end|apply seen_nil|now apply seen_after in H].
Qed.
Lemma seen_other s : scheme_relative strict v6 s -> seen s.
Proof.
  intros (hp & a & -> & H & A). apply seen_two, seen_app; [|now apply seen_end].
  destruct H as [-> |(h & p & -> & H & P)]; [apply seen_nil|]. apply seen_app; [now apply seen_opaque_host|now apply seen_port].
Qed.
Lemma seen_url base s : url_string strict dom v6 base s -> seen s.
Proof.
  assert (Q : forall q, optional 63 unit_string q -> seen q) by (intros q; apply seen_optional; [lia|apply seen_unit]).
  intros (r & f & -> & F & H). apply seen_app; [|revert F; apply seen_optional; [lia|apply seen_unit]]. clear F. destruct H as [H|(b & _ & H & _)].
  - destruct H as (sch & x & q & -> & S & Hq & H). apply seen_app; [now apply seen_scheme|]. apply seen_app; [intros c [<-|[]]; lia|]. apply seen_app; [|auto].
    destruct H as [(_ & H)|[(_ & _ & H)|(_ & [H|[H|[H _]]])]].
    + now apply seen_file.
    + now apply seen_special.
    + now apply seen_other.
    + now apply seen_absolute.
    + now apply seen_relative.
  - destruct H as (x & q & -> & Hq & H). apply seen_app; [|auto].
    destruct H as [[H _]|[(_ & [H|[H _]])|[(_ & _ & [H|H])|(_ & [H|H])]]].
    + now apply seen_relative.
    + now apply seen_file.
    + now apply seen_absolute.
    + now apply seen_special.
    + now apply seen_absolute.
    + now apply seen_other.
    + now apply seen_absolute.
Qed.
End Seen.

(* ---------- hosts of the standard's grammar ---------- *)
Lemma octet_digits s v : octet_text s v -> forallb std_digit s = true.
Proof.
  intros H. apply forallb_forall. intros c Hc. destruct (std_digit c) eqn:D; [reflexivity|]. exfalso. unfold std_digit in D.
  assert (Q : mem c s = false) by (apply (octet_no c s v H); lia). apply mem_not_In in Q. contradiction.
Qed.
Lemma value_decimal s : PyIntProofs.value 10 (map (fun c => c - 48) s) = std_decimal s.
Proof.
  unfold PyIntProofs.value, std_decimal. generalize 0 as a. induction s as [|c t IH]; intros a; [reflexivity|]. cbn [map fold_left]. apply IH.
Qed.
Lemma octet_dec s v : octet_text s v -> s = dec_str v.
Proof.
  intros H. pose proof (octet_digits s v H) as D. destruct H as (N0 & R & _ & Z0). apply shortest_dec_str.
  exists (map (fun c => c - 48) s). rewrite (decimal_eq s D) in R. injection R as R.
  assert (F : Forall (fun c => 48 <= c <= 57) s).
  { apply Forall_forall. intros c Hc. rewrite forallb_forall in D. specialize (D c Hc). unfold std_digit in D. lia. }
  split; [|split; [|split]].
  - rewrite map_map. rewrite <- (map_id s) at 1. apply map_ext_in. intros c Hc. rewrite Forall_forall in F. specialize (F c Hc). unfold PyIntProofs.std_digit.
    replace (c - 48 <? 10) with true by lia. lia.
  - apply Forall_map. revert F. apply Forall_impl. intros c Hc. lia.
  - split; [destruct s; [congruence|discriminate]|]. intros t Q. destruct s as [|c s]; [congruence|]. cbn [map] in Q. injection Q as Q1 Q2.
    inversion F as [|? ? Fc _]; subst. assert (c = 48) by lia. subst c. rewrite (Z0 s eq_refl). reflexivity.
  - rewrite value_decimal. exact R.
Qed.
Ltac Zify.zify_post_hook ::= Z.div_mod_to_equations.
Lemma octs_four a b c d : a < 256 -> b < 256 -> c < 256 -> d < 256 -> octs (a * 16777216 + b * 65536 + c * 256 + d) = [a; b; c; d].
Proof. intros A B C D. unfold octs. repeat f_equal; lia. Qed.
Ltac Zify.zify_post_hook ::= idtac.
Lemma quad_serialize sa sb sc sd a b c d : octet_text sa a -> octet_text sb b -> octet_text sc c -> octet_text sd d ->
  exists n, n < 4294967296 /\ sa ++ [46] ++ sb ++ [46] ++ sc ++ [46] ++ sd = ipv4_serialize n.
Proof.
  intros A B C D. assert (L : forall s v, octet_text s v -> v < 256) by (intros s v (_ & _ & H & _); lia).
  exists (a * 16777216 + b * 65536 + c * 256 + d). pose proof (L _ _ A). pose proof (L _ _ B). pose proof (L _ _ C). pose proof (L _ _ D). split; [lia|].
  rewrite ipv4_serialize_eq, octs_four by assumption. cbn [map join]. rewrite (octet_dec _ _ A), (octet_dec _ _ B), (octet_dec _ _ C), (octet_dec _ _ D). reflexivity.
Qed.
Lemma ipv4_quiet E n : limit_ok E -> n < 4294967296 -> fst (ipv4_parse E (ipv4_serialize n)) = [].
Proof.
  intros HE Hn. pose proof (std_ipv4_round_trip n Hn) as R. pose proof (std_ipv4_numbers_agree E _ n HE R) as F. rewrite parts_eq in F. destruct (numbers_log E _ F) as [A B].
  unfold ipv4_parse. cbv zeta. rewrite fst_wbind, drop_last_serialize in *. rewrite split_serialize. destruct (last_dec_str n) as (c & t & Q). rewrite Q. cbn [wret fst snd app].
  rewrite map_length. change (4 <? length (octs n))%nat with false. cbv iota. rewrite fst_wbind, A. pose proof (octs_lt n) as L.
  assert (N : std_ipv4_numbers (map dec_str (octs n)) = Some (octs n) /\ std_ipv4_part_reports (map dec_str (octs n)) = []).
  { clear - L. induction L as [|x l Hx L [I1 I2]]; [split; reflexivity|]. cbn [map std_ipv4_numbers std_ipv4_part_reports]. rewrite (std_number_octet x Hx), I1, I2. split; reflexivity. }
  destruct N as [N1 N2]. rewrite N1 in B. rewrite B, N2. cbn [app].
  assert (X : forall l, Forall (fun o => o < 256) l -> existsb (fun x => 255 <? x) l = false).
  { clear. intros l H. induction H as [|x l Hx L IH]; [reflexivity|]. cbn [existsb]. rewrite IH. lia. }
  rewrite (X _ L). rewrite fst_wbind. cbn [wret fst snd app].
  assert (X' : existsb (fun x => 255 <? x) (removelast (octs n)) = false).
  { apply X. unfold octs in *. cbn [removelast]. inversion L; subst. inversion H2; subst. inversion H4; subst. repeat constructor; assumption. }
  rewrite X'. cbn [andb]. change (256 ^ (5 - N.of_nat (length (octs n)))) with 256.
  replace (256 <=? last (octs n) 0) with false; [reflexivity|]. unfold octs. cbn [last]. pose proof (N.mod_lt n 256). lia.
Qed.
Lemma plain_no_escape h : ~ In 37 h -> has_escape h = false.
Proof.
  induction h as [|c t IH]; [reflexivity|]. intros H. cbn [has_escape]. destruct t as [|x [|y r]]; try reflexivity.
  rewrite IH by (intros I; apply H; now right). replace (c =? 37) with false; [reflexivity|]. symmetry. apply N.eqb_neq. intros ->. apply H. now left.
Qed.
Lemma plain_decode h : scalar_string h -> ~ In 37 h -> std_utf8_decode (std_percent_decode (std_utf8_encode h)) = h.
Proof.
  intros [P S] N. rewrite <- (svs_free h S) at 2. rewrite <- (no_escape_unescape h); [|exact P|now apply plain_no_escape]. unfold std_unescape. now rewrite svs_free.
Qed.
Lemma chars_weaken h : domain_chars false h -> domain_chars true h.
Proof. intros [H0 H]. split; [exact H0|]. intros c Hc F. destruct (H c Hc F). discriminate. Qed.
Lemma no_bracket b h : domain_chars b h -> forall t, h <> 91 :: t.
Proof. intros [_ H] t ->. destruct (H 91 (or_introl eq_refl) eq_refl) as [_ X]. discriminate X. Qed.
Lemma domain_quiet E h : limit_ok E -> idna_ok E -> scalar_string h -> domain_string (code_to_ascii E) h -> regular_host E h false -> code_dom E h.
Proof.
  intros HE HI Hs [C H] R. split; [now apply chars_weaken|].
  assert (N37 : ~ In 37 h) by (intros I; destruct C as [_ C]; destruct (C 37 I eq_refl); discriminate).
  pose proof (plain_decode h Hs N37) as P. pose proof (no_bracket _ _ C) as B. destruct h as [|c t]; [reflexivity|]. rewrite (bare_log E c t); [|intros ->; now apply (B t)|exact Hs].
  rewrite P. destruct H as [(d & T & F & S)|H].
  - rewrite T, F. destruct (is_ends_in_a_number E d) eqn:Q; [|reflexivity]. apply ends_exact' in Q as [Q|Q]; [congruence|]. exfalso. apply R. unfold odd_host.
    assert (O : false = false /\ exists d, code_to_ascii E (std_utf8_decode (std_percent_decode (std_utf8_encode (c :: t)))) = Some d /\ odd_domain E d).
    { split; [reflexivity|]. exists d. rewrite P. split; [exact T|]. split; [exact F|]. left. auto. }
    clear - O B. destruct c as [|p]; [exact O|]. repeat (destruct p as [p|p|]; try exact O). exfalso. now apply (B t).
  - destruct H as (sa & sb & sc & sd & a & b & c0 & d & A & Bb & Cc & D & Q). destruct (quad_serialize _ _ _ _ _ _ _ _ A Bb Cc D) as (n & Ln & Z). rewrite Q, Z.
    unfold code_to_ascii. rewrite (idna_ipv4 E HI). assert (F : existsb std_forbidden_domain (ipv4_serialize n) = false).
    { destruct (existsb std_forbidden_domain (ipv4_serialize n)) eqn:X; [|reflexivity]. apply existsb_exists in X as (x & Hx & X). apply ipv4_chars in Hx.
      unfold std_forbidden_domain, std_forbidden_host in X. cbn [one_of existsb] in X. lia. }
    rewrite F, ends_serialize. now apply ipv4_quiet.
Qed.
Lemma address_quiet E a : limit_ok E -> address_string a -> ~ odd_v6 a -> code_v6 a.
Proof.
  intros HE [x H] O. destruct (std_code E a x HE H) as [A|(l & vl & e & Q & L & V & _)]; [exists x; now apply (code_v6_exact E)|].
  exfalso. apply O. right. eauto.
Qed.
(** the grammar is monotone *)
Section Weaken.
Context (dom dom' v6 v6' : str -> Prop) (ok : str -> Prop).
Hypothesis (Hok : forall a b, ok (a ++ b) -> ok a /\ ok b).
Hypothesis (Hd : forall h, ok h -> dom h -> dom' h) (Hv : forall a, v6 a -> v6' a).
Lemma ok_cons c s : ok (c :: s) -> ok s. Proof. intros H. now apply (Hok [c] s) in H. Qed.
Lemma host_weaken h : ok h -> host_string dom v6 h -> host_string dom' v6' h.
Proof. intros O [H|(a & -> & H)]; [left; auto|right; eauto]. Qed.
Lemma opaque_weaken h : opaque_host_string v6 h -> opaque_host_string v6' h.
Proof. intros [H|(a & -> & H)]; [left; auto|right; eauto]. Qed.
Lemma after_weaken s : path_after_host true s -> path_after_host false s.
Proof. intros (p & -> & H & _). exists p. split; [reflexivity|]. split; [exact H|discriminate]. Qed.
Lemma end_weaken s : s = [] \/ path_after_host true s -> s = [] \/ path_after_host false s.
Proof. intros [H|H]; [auto|right; now apply after_weaken]. Qed.
Lemma nw_any s : non_windows false s. Proof. intros Q. discriminate. Qed.
Lemma special_weaken s : ok s -> scheme_relative_special true dom v6 s -> scheme_relative_special false dom' v6' s.
Proof.
  intros O (h & p & a & -> & H & P & A). apply Hok in O as [_ O]. apply Hok in O as [O _]. exists h, p, a. split; [reflexivity|].
  split; [now apply host_weaken|]. split; [exact P|now apply end_weaken].
Qed.
Lemma file_weaken s : ok s -> scheme_relative_file true dom v6 s -> scheme_relative_file false dom' v6' s.
Proof.
  intros O (h & a & -> & H). apply Hok in O as [_ O]. apply Hok in O as [O _]. exists h, a. split; [reflexivity|]. destruct H as [(H & A & _)|(-> & [[X _]|A])]; [|discriminate|].
  - left. split; [now apply host_weaken|]. split; [now apply end_weaken|apply nw_any].
  - right. split; [reflexivity|]. right. now apply after_weaken.
Qed.
Lemma other_weaken s : scheme_relative true v6 s -> scheme_relative false v6' s.
Proof.
  intros (hp & a & -> & H & A). exists hp, a. split; [reflexivity|]. split; [|now apply end_weaken].
  destruct H as [-> |(h & p & -> & H & P)]; [now left|]. right. exists h, p. split; [reflexivity|]. split; [now apply opaque_weaken|exact P].
Qed.
Lemma url_weaken base s : ok s -> url_string true dom v6 base s -> url_string false dom' v6' base s.
Proof.
  intros O (r & f & -> & F & H). exists r, f. split; [reflexivity|]. split; [exact F|]. apply Hok in O as [O _]. destruct H as [H|(b & -> & H & G)]; [left|right].
  - destruct H as (sch & x & q & -> & S & Q & H). exists sch, x, q. split; [reflexivity|]. split; [exact S|]. split; [exact Q|].
    apply Hok in O as [_ O]. apply Hok in O as [_ O]. apply Hok in O as [O _].
    destruct H as [(X & H)|[(X & Y & H)|(X & H)]].
    + left. split; [exact X|now apply file_weaken].
    + right; left. split; [exact X|]. split; [exact Y|now apply special_weaken].
    + right; right. split; [exact X|]. destruct H as [H|[H|[H _]]]; [left; now apply other_weaken|right; now left|right; right]. split; [exact H|discriminate].
  - exists b. split; [reflexivity|]. split; [|exact G]. destruct H as (x & q & -> & Q & H). exists x, q. split; [reflexivity|]. split; [exact Q|]. apply Hok in O as [O _].
    destruct H as [H|[(X & H)|[(X & Y & H)|(X & H)]]].
    + now left.
    + right; left. split; [exact X|]. destruct H as [H|[H _]]; [left; now apply file_weaken|right]. split; [exact H|intros _; apply nw_any].
    + right; right; left. split; [exact X|]. split; [exact Y|]. destruct H as [H|H]; [left; now apply special_weaken|now right].
    + right; right; right. split; [exact X|]. destruct H as [H|H]; [left; now apply other_weaken|now right].
Qed.
End Weaken.

(* ---------- what is forbidden in a domain cannot be hidden ---------- *)
Lemma encode_keeps c h : In c h -> c < 128 -> In c (std_utf8_encode h).
Proof.
  intros H L. unfold std_utf8_encode. apply in_flat_map. exists c. split; [exact H|]. unfold std_utf8_encode1. replace (c <=? 127) with true by lia. now left.
Qed.
Lemma percent_keeps c b : In c b -> c <> 37 -> std_hex c = None -> In c (std_percent_decode b).
Proof.
  intros H N X. remember (length b) as n eqn:L. assert (Ln : (length b <= n)%nat) by lia. clear L. revert b Ln H. induction n as [|n IH]; intros b Ln H; [destruct b; [destruct H|cbn in Ln; lia]|].
  destruct b as [|d t]; [destruct H|]. cbn [length] in Ln. cbn [std_percent_decode]. destruct (N.eqb_spec d 37) as [-> |D].
  - destruct H as [H|H]; [congruence|]. destruct t as [|x [|y t]]; [destruct H|right; apply IH; [lia|exact H]|].
    destruct (std_hex x) eqn:Hx; [|right; apply IH; [lia|exact H]]. destruct (std_hex y) eqn:Hy; [|right; apply IH; [lia|exact H]].
    right. apply IH; [cbn [length] in Ln; lia|]. destruct H as [<-|[<-|H]]; [congruence|congruence|exact H].
  - destruct H as [<-|H]; [now left|right; apply IH; [lia|exact H]].
Qed.
Lemma run_keeps c b : In c b -> c < 128 -> forall st, d_needed st = 0 \/ 128 <= d_lower st -> In c (std_run st b).
Proof.
  intros H L. induction b as [|x t IH]; [destruct H|]. intros st I. cbn [std_run].
  assert (LD : forall y, let (o, st') := std_lead y in (d_needed st' = 0 \/ 128 <= d_lower st') /\ (y < 128 -> o = [y])).
  { intros y. unfold std_lead. destruct (y <=? 127) eqn:A; [split; [now left|intros _; reflexivity]|].
    destruct (_ && _); [split; [right; cbn; lia|lia]|]. destruct (_ && _); [split; [right; cbn [d_lower]; destruct (y =? 224); lia|lia]|].
    destruct (_ && _); [split; [right; cbn [d_lower]; destruct (y =? 240); lia|lia]|]. split; [now left|lia]. }
  assert (ST : let (o, st') := std_step st x in (d_needed st' = 0 \/ 128 <= d_lower st') /\ (x < 128 -> In x o)).
  { unfold std_step. specialize (LD x). destruct (N.eqb_spec (d_needed st) 0) as [Z|Z].
    - destruct (std_lead x) as [o st']. destruct LD as [A B]. split; [exact A|]. intros C. rewrite (B C). now left.
    - destruct (negb _) eqn:G.
      + destruct (std_lead x) as [o st']. destruct LD as [A B]. split; [exact A|]. intros C. rewrite (B C). right. now left.
      + cbv zeta. assert (x < 128 -> False) by lia. destruct (_ =? _); (split; [|lia]); [now left|right; cbn; lia]. }
  destruct (std_step st x) as [o st']. destruct ST as [A B]. apply in_or_app. destruct H as [<-|H]; [left; auto|right; auto].
Qed.
Lemma forbidden_shown E : keeps_forbidden (code_to_ascii E) -> shows_forbidden E.
Proof.
  intros K h Hs H0 B Q. split; [exact H0|]. intros c Hc F. split; [reflexivity|]. destruct (N.eq_dec c 37) as [C|C]; [exact C|]. exfalso.
  assert (L : c < 128 /\ std_hex c = None).
  { unfold std_forbidden_domain, std_forbidden_host in F. cbn [one_of existsb] in F. unfold std_hex.
    split; [lia|]. replace ((48 <=? c) && (c <=? 57)) with false by lia. replace ((65 <=? c) && (c <=? 70)) with false by lia. replace ((97 <=? c) && (c <=? 102)) with false by lia. reflexivity. }
  destruct L as [L X]. assert (I : In c (std_utf8_decode (std_percent_decode (std_utf8_encode h)))).
  { unfold std_utf8_decode. apply run_keeps; [|exact L|now left]. apply percent_keeps; [|exact C|exact X]. now apply encode_keeps. }
  destruct h as [|d t]; [congruence|]. rewrite (bare_log E d t) in Q; [|intros ->; now apply (B t)|exact Hs].
  destruct (code_to_ascii E _) as [o|] eqn:T; [|discriminate]. rewrite (K _ _ c T I F) in Q. discriminate.
Qed.

(* ---------- the whole parser ---------- *)
Lemma dom_seen E h : code_dom E h -> seen h.
Proof.
  intros [[_ H] _] c Hc. destruct (std_forbidden_domain c) eqn:F; [destruct (H c Hc F) as [_ ->]; lia|]. unfold std_forbidden_domain, std_forbidden_host in F. cbn [one_of existsb] in F. lia.
Qed.
Lemma v6_seen a : code_v6 a -> seen a.
Proof. intros [x H] c Hc. pose proof (v6_char_range c (v6_chars a x H c Hc)). lia. Qed.
Lemma kept s : needs_strip s = false -> strip_c0 s = s.
Proof.
  intros H. unfold strip_c0. assert (L : drop_while is_c0_space s = s).
  { destruct s as [|c t]; [reflexivity|]. cbn [needs_strip] in H. apply orb_false_iff in H as [H _]. cbn [drop_while]. now rewrite H. }
  rewrite L. destruct s as [|c t]; [reflexivity|]. cbn [needs_strip] in H. apply orb_false_iff in H as [_ H]. set (s := c :: t) in *.
  assert (N : s <> []) by discriminate. clearbody s. clear c t L. destruct s as [|x s _] using rev_ind; [congruence|]. rewrite last_last in H. unfold rstrip_by. rewrite rev_app_distr. cbn [rev app drop_while]. rewrite H.
  cbn [rev]. now rewrite rev_involutive.
Qed.
Lemma kept_clean s : needs_strip s = false -> existsb is_tab_newline (strip_c0 s) = false -> clean s = s.
Proof.
  intros H. unfold clean. rewrite (kept s H). clear H. induction s as [|c t IH]; [reflexivity|]. cbn [existsb]. intros H. apply orb_false_iff in H as [A B].
  unfold remove_tabs in *. cbn [filter]. rewrite A. cbn [negb]. now rewrite IH.
Qed.
Lemma seen_kept s : seen s -> needs_strip s = false /\ existsb is_tab_newline (strip_c0 s) = false.
Proof.
  intros H. assert (C : forall c, In c s -> is_c0_space c = false) by (intros c Hc; apply H in Hc; unfold is_c0_space; lia).
  assert (A : needs_strip s = false).
  { destruct s as [|c t]; [reflexivity|]. unfold needs_strip. rewrite (C c (or_introl eq_refl)). cbn [orb]. apply C.
    assert (X : c :: t <> []) by discriminate. destruct (exists_last X) as (l & a & Q). rewrite Q, last_last. apply in_or_app. right. now left. }
  split; [exact A|]. rewrite (kept s A). destruct (existsb is_tab_newline s) eqn:X; [|reflexivity]. apply existsb_exists in X as (c & Hc & X). apply H in Hc. unfold is_tab_newline in X. lia.
Qed.
Section Whole.
Context (E : env) (s : str) (base : option urlrec) (enc : str).
Hypothesis (HE : limit_ok E) (U : normalize_encoding E enc = $"utf-8") (HB : std_good_base base).
Lemma enc_always u q : enc_query E (normalize_encoding E enc) u q <> None.
Proof. rewrite U, enc_query_utf8. discriminate. Qed.
Lemma liberal_silent : url_string false (code_dom E) code_v6 base s -> fst (parse_new E s base enc) = [].
Proof.
  intros H. pose proof (seen_url false (code_dom E) code_v6 (dom_seen E) v6_seen base s H) as V. destruct (seen_kept s V) as [A B].
  rewrite (parse_new_log E s base enc (base_good base HB) enc_always), A, B, (kept_clean s A B). cbn [rep app]. now apply main_on.
Qed.
Lemma silent_liberal : keeps_forbidden (code_to_ascii E) -> scalar_string s -> snd (parse_new E s base enc) <> Err EValue -> fst (parse_new E s base enc) = [] -> url_string false (code_dom E) code_v6 base s.
Proof.
  intros K Hs L H. rewrite parse_new_flat in L by now apply base_good. unfold flat_parse in L. rewrite (parse_new_log E s base enc (base_good base HB) enc_always) in H. apply app_nil_iff in H as [A H]. apply app_nil_iff in H as [B H].
  destruct (needs_strip s) eqn:A'; [discriminate|]. destruct (existsb is_tab_newline (strip_c0 s)) eqn:B'; [discriminate|]. rewrite (kept_clean s A' B') in H.
  rewrite (kept_clean s A' B') in L. apply (main_inv E HE (normalize_encoding E enc)); auto. now apply forbidden_shown.
Qed.
Lemma silent_ok : snd (parse_new E s base enc) <> Err EValue -> fst (parse_new E s base enc) = [] -> exists u, parse_new E s base enc = ([], Ok u).
Proof.
  intros L H. assert (Q : exists u, snd (parse_new E s base enc) = Ok u).
  { rewrite parse_new_flat in L |- * by now apply base_good. rewrite (parse_new_log E s base enc (base_good base HB) enc_always) in H. apply app_nil_iff in H as [_ H]. apply app_nil_iff in H as [_ H].
    unfold flat_parse in *. now apply (quiet_main E _ enc_always base (clean s)). }
  destruct Q as [u Q]. exists u. rewrite (surjective_pairing (parse_new E s base enc)). now rewrite H, Q.
Qed.
Theorem silent_iff : keeps_forbidden (code_to_ascii E) -> scalar_string s ->
  (exists u, parse_new E s base enc = ([], Ok u)) <-> url_string false (code_dom E) code_v6 base s /\ snd (parse_new E s base enc) <> Err EValue.
Proof.
  intros K Hs. split.
  - intros [u H]. assert (L : snd (parse_new E s base enc) <> Err EValue) by (rewrite H; discriminate). split; [|exact L]. apply silent_liberal; auto. now rewrite H.
  - intros [H L]. now apply silent_ok, liberal_silent.
Qed.
Lemma liberal_ok : url_string false (code_dom E) code_v6 base s -> fits E s -> exists u, parse_new E s base enc = ([], Ok u).
Proof.
  intros H F. apply silent_ok; [|now apply liberal_silent]. pose proof (seen_url false (code_dom E) code_v6 (dom_seen E) v6_seen base s H) as V. destruct (seen_kept s V) as [A B].
  rewrite parse_new_flat by now apply base_good. unfold flat_parse. rewrite (kept_clean s A B). destruct (main_fit E (normalize_encoding E enc) HE enc_always base s H F) as [x ->]. discriminate.
Qed.
Theorem valid_silent : idna_ok E -> scalar_string s ->
  url_string true (fun h => domain_string (code_to_ascii E) h /\ regular_host E h false) (fun a => address_string a /\ ~ odd_v6 a) base s ->
  fst (parse_new E s base enc) = [] /\ (fits E s -> exists u, parse_new E s base enc = ([], Ok u)).
Proof.
  intros HI Hs H. assert (Q : url_string false (code_dom E) code_v6 base s).
  { revert H. apply (url_weaken _ _ _ _ scalar_string); [apply scalar_app| | |exact Hs].
    - intros h Ho [A B]. now apply domain_quiet.
    - intros a [A B]. now apply (address_quiet E). }
  split; [now apply liberal_silent|]. now apply liberal_ok.
Qed.
End Whole.

(* ---------- accepted silently, though not valid ---------- *)
Section Strict.
Context (dom v6 : str -> Prop).
Hypothesis (Hd : forall h, dom h -> h <> [] /\ ~ In 47 h) (Hv : forall a, v6 a -> ~ In 47 a).
Lemma no_optional x P q w : optional x P q -> ~ In x (w ++ q) -> q = [].
Proof. intros [H|(t & -> & _)] N; [exact H|]. exfalso. apply N, in_or_app. right. now left. Qed.
Lemma strict_absolute sch x : std_scheme sch = true -> ~ In 35 x -> ~ In 63 x -> ~ In 35 sch -> url_string true dom v6 None (sch ++ 58 :: x) ->
  (std_lower sch = $"file" /\ scheme_relative_file true dom v6 x) \/
  (std_special (std_lower sch) /\ std_lower sch <> $"file" /\ scheme_relative_special true dom v6 x) \/
  (~ std_special (std_lower sch) /\ (scheme_relative true v6 x \/ path_absolute x \/ (path_relative x /\ scheme_less x))).
Proof.
  intros S N35 N63 N3 (r & f & Q & F & [H|(b & Hb & _)]); [|discriminate].
  assert (f = []). { apply (no_optional _ _ _ r F). rewrite <- Q. intros I. apply in_app_or in I as [I|[I|I]]; [auto|discriminate|auto]. } subst f. rewrite app_nil_r in Q. subst r.
  destruct H as (sch' & x' & q & Q & S' & Hq & H). cbn [app] in Q.
  pose proof (proj2 (scheme_split_iff (sch ++ 58 :: x) sch x) (conj eq_refl S)) as A1.
  pose proof (proj2 (scheme_split_iff (sch ++ 58 :: x) sch' (x' ++ q)) (conj Q S')) as A2. rewrite A1 in A2. injection A2 as <- ->.
  assert (q = []) by (now apply (no_optional _ _ _ x' Hq)). subst q. rewrite app_nil_r in *.
  destruct H as [H|[H|(P & [H|[H|[H K]]])]]; auto 7. right; right. split; [exact P|]. right; right. split; [exact H|]. now apply K.
Qed.
Lemma host_no_slash h : host_string dom v6 h -> h <> [] /\ ~ In 47 h.
Proof.
  intros [H|(a & -> & H)]; [now apply Hd|]. split; [discriminate|]. intros [I|I]; [discriminate|]. apply in_app_or in I as [I|[I|[]]]; [now apply (Hv a)|discriminate].
Qed.
Lemma first_slash h a : forall h' t, ~ In 47 h -> ~ In 47 h' -> (a = [] \/ exists p, a = 47 :: p) -> h ++ a = h' ++ 47 :: t -> h = h' /\ a = 47 :: t.
Proof.
  induction h as [|c h IH]; intros h' t N N' A Q.
  - cbn [app] in Q. destruct h' as [|d h']; [auto|]. destruct A as [-> |(p & ->)]; [discriminate|]. injection Q as <- _. exfalso. apply N'. now left.
  - destruct h' as [|d h']; cbn [app] in Q; injection Q as -> Q; [exfalso; apply N; now left|].
    destruct (IH h' t) as [-> ->]; auto; intros I; [apply N|apply N']; now right.
Qed.
Lemma after_start b a : a = [] \/ path_after_host b a -> a = [] \/ exists p, a = 47 :: p.
Proof. intros [H|(p & -> & _)]; [now left|right; eauto]. Qed.
Lemma double_slash_invalid h t : ~ In 47 h -> ~ In 35 (h ++ t) -> ~ In 63 (h ++ t) -> ~ url_string true dom v6 None ($"http://" ++ h ++ [47; 47] ++ t).
Proof.
  intros N N35 N63 H. change ($"http://" ++ h ++ [47; 47] ++ t) with ($"http" ++ 58 :: ([47; 47] ++ h ++ [47; 47] ++ t)) in H.
  assert (M : forall x, x <> 47 -> ~ In x (h ++ t) -> ~ In x ([47; 47] ++ h ++ [47; 47] ++ t)).
  { intros x X Y I. rewrite !in_app_iff in I. rewrite in_app_iff in Y. cbn [In] in I. intuition congruence. }
  apply strict_absolute in H; [|reflexivity|apply M; [discriminate|exact N35]|apply M; [discriminate|exact N63]|intros I; cbn in I; intuition discriminate].
  destruct H as [(F & _)|[(_ & _ & h' & p & a & Q & Hh & P & A)|(X & _)]]; [discriminate F| |exfalso; apply X, UrlProps.special_spec; reflexivity].
  cbn [app] in Q. injection Q as Q. destruct (host_no_slash h' Hh) as [_ Nh].
  assert (Np : ~ In 47 p).
  { destruct P as [-> |(ps & -> & D & _)]; [intros []|]. intros [I|I]; [discriminate|]. rewrite forallb_forall in D. specialize (D 47 I). discriminate D. }
  rewrite app_assoc in Q. symmetry in Q. apply first_slash in Q as [_ Q]; [| |exact N|now apply (after_start true)].
  - destruct A as [-> |(y & -> & _ & K)]; [discriminate|]. injection Q as ->. now apply (K eq_refl t).
  - rewrite in_app_iff. tauto.
Qed.
Lemma scheme_like_invalid sch a t : std_scheme sch = true -> ~ std_special (std_lower sch) -> std_scheme a = true -> ~ In 35 (sch ++ a ++ t) -> ~ In 63 (a ++ t) ->
  ~ url_string true dom v6 None (sch ++ [58] ++ a ++ [58] ++ t).
Proof.
  intros S P A N35 N63 H. cbn [app] in H. rewrite !in_app_iff in N35. rewrite in_app_iff in N63.
  assert (a <> [] /\ forall y, a <> 47 :: y) as [A0 A47] by (split; [intros ->; discriminate A|intros y ->; discriminate A]).
  apply strict_absolute in H; [|exact S|rewrite in_app_iff; intros [I|[I|I]]; [tauto|discriminate|tauto]|rewrite in_app_iff; intros [I|[I|I]]; [tauto|discriminate|tauto]|tauto].
  destruct H as [(F & _)|[(Q & _)|(_ & [(h & y & Q & _)|[(y & Q & _)|(_ & K)]])]].
  - apply P. rewrite F. apply UrlProps.special_spec. reflexivity.
  - contradiction.
  - destruct a as [|c a]; [congruence|]. injection Q as -> _. now apply (A47 a).
  - destruct a as [|c a]; [congruence|]. injection Q as -> _. now apply (A47 a).
  - specialize (K a t eq_refl). congruence.
Qed.
Lemma file_invalid x : ~ In 35 x -> ~ In 63 x -> url_string true dom v6 None ($"file:" ++ x) -> scheme_relative_file true dom v6 x.
Proof.
  intros N35 N63 H. change ($"file:" ++ x) with ($"file" ++ 58 :: x) in H. apply strict_absolute in H; auto; [|intros I; cbn in I; intuition discriminate].
  destruct H as [(_ & H)|[(_ & F & _)|(P & _)]]; [exact H|exfalso; apply F; reflexivity|]. exfalso. apply P, UrlProps.special_spec. reflexivity.
Qed.
Lemma file_empty_invalid : ~ url_string true dom v6 None $"file://".
Proof.
  intros H. apply (file_invalid $"//") in H; [|intros I; cbn in I; intuition discriminate..]. destruct H as (h & a & Q & H). cbn [app] in Q. injection Q as Q. symmetry in Q. apply app_eq_nil in Q as [-> ->].
  destruct H as [(H & _)|(_ & [[X _]|(p & X & _)])]; [|discriminate..]. now destruct (host_no_slash [] H).
Qed.
Lemma file_drive_invalid h d t : h <> [] -> ~ In 47 h -> std_any_drive_letter d = true -> ~ In 35 (h ++ d ++ t) -> ~ In 63 (h ++ d ++ t) ->
  ~ url_string true dom v6 None ($"file://" ++ h ++ [47] ++ d ++ [47] ++ t).
Proof.
  intros H0 N D N35 N63 H. assert (M : forall x, x <> 47 -> ~ In x (h ++ d ++ t) -> ~ In x ([47; 47] ++ h ++ [47] ++ d ++ [47] ++ t)).
  { intros x X Y I. rewrite !in_app_iff in I. rewrite !in_app_iff in Y. cbn [In] in I. intuition congruence. }
  change ($"file://" ++ h ++ [47] ++ d ++ [47] ++ t) with ($"file:" ++ ([47; 47] ++ h ++ [47] ++ d ++ [47] ++ t)) in H.
  apply file_invalid in H; [|apply M; [discriminate|exact N35]|apply M; [discriminate|exact N63]].
  destruct H as (h' & a & Q & H). cbn [app] in Q. injection Q as Q. symmetry in Q. apply first_slash in Q as [-> ->]; [| |exact N|].
  - destruct H as [(_ & _ & W)|(-> & _)]; [|congruence]. rewrite (W eq_refl d t eq_refl) in D. discriminate.
  - destruct H as [(H & _)|(-> & _)]; [now apply host_no_slash in H|intros []].
  - destruct H as [(_ & H & _)|(_ & [[X _]|H])]; [now apply (after_start true)|discriminate|apply (after_start true); now right].
Qed.
End Strict.
Lemma address_no_slash a : address_string a -> ~ In 47 a.
Proof.
  assert (HH : forall s vs, v6_hexes s vs -> v6_seq s vs).
  { induction 1 as [s v H|s v t ws H H2 IH]; [apply seq_one, item_hex, H|]. apply (seq_more s [v]); [now apply item_hex|exact IH]. }
  assert (C : forall s vs, v6_seq s vs -> ~ In 47 s).
  { intros s vs H I. pose proof (v6_char_range 47 (seq_chars _ _ H 47 I)). lia. }
  intros [x [s y H _|l r vl vr L R _]] I.
  - apply (C s y); [now apply std_seq_seq|exact I].
  - rewrite !in_app_iff in I. destruct I as [I|[[I|[I|[]]]|I]]; try discriminate I.
    + destruct L as [[-> _]|L]; [destruct I|]. exact (C l vl (HH l vl L) I).
    + destruct R as [[-> _]|R]; [destruct I|]. exact (C r vr (std_seq_seq r vr R) I).
Qed.
