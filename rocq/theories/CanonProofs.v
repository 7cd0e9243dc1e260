(** The records that the parser makes are the canonical ones. *)
From Coq Require Import Ascii String.
From Coq Require Import NArith ZArith Bool Arith Lia ZifyBool ZifyN ZifyNat List.
From Verif Require Import PyStr PyInt Codec Env HostModel UrlRecord Parser SpecText SpecHost FlatParser.
From Verif Require Import Lemmas CodecProofs QuoteProofs PyIntProofs LegacyProofs IPv4Proofs IPv6Proofs HostProofs LoopProofs FlatProofs WfProofs RoundTrip PathProofs IntGrammar HostStandard UrlProps.
From Verif Require Import SpecPyInt SpecUrl SpecCanon.
Import ListNotations.
Open Scope N_scope.

Definition code_canonical (E : env) (u : urlrec) : Prop := canonical (code_to_ascii E) (odd_number E) u.

Lemma encoded_qs safe set s : set_agrees safe set -> qs safe s <-> encoded set s.
Proof.
  intros [A B]. unfold qs, encoded. rewrite forallb_forall. split; intros H c Hc; specialize (H c Hc).
  - pose proof (quote_safe_ascii _ _ H) as L. rewrite A in H by exact L. now apply negb_true_iff in H.
  - destruct (c <? 128) eqn:Q; [|rewrite B in H by lia; discriminate]. rewrite A by lia. now rewrite H.
Qed.
Lemma scheme_std_ok s : std_scheme s = true -> std_lower s = s -> scheme_ok s.
Proof.
  intros H L. destruct s as [|c t]; [discriminate|]. unfold std_scheme in H. apply andb_true_iff in H as [H1 H2]. unfold std_lower in L. cbn [map] in L. injection L as L1 L2.
  split; [unfold std_lower1, std_alpha in *; destruct ((65 <=? c) && (c <=? 90)) eqn:Q; lia|]. apply forallb_forall. intros x Hx. rewrite forallb_forall in H2. specialize (H2 x Hx).
  assert (X : std_lower1 x = x) by (clear - L2 Hx; induction t as [|y t IH]; [destruct Hx|]; cbn [map] in L2; injection L2 as E1 E2; destruct Hx as [<-|Hx]; auto).
  unfold scheme_tail_char. unfold std_lower1, std_scheme_char, std_alpha, std_digit in *. destruct ((65 <=? x) && (x <=? 90)) eqn:Q; lia.
Qed.
Lemma not_special_spec s : special_scheme s = false <-> ~ std_special s.
Proof. rewrite <- special_spec. destruct (special_scheme s); split; intros; congruence. Qed.
Lemma default_port_std s p : default_port s = Some p -> std_default_port s p.
Proof.
  unfold default_port. destruct (find (fun p => str_eqb s (fst p)) SPECIAL_SCHEMES) as [[k v]|] eqn:F; [|discriminate]. cbn [snd]. intros ->.
  apply find_some in F as [I Q]. cbn [fst] in Q. apply str_eqb_eq in Q. subst k. exact I.
Qed.

(* ---------- hosts ---------- *)
Lemma code_ascii E d o : code_to_ascii E d = Some o <-> snd (domain_to_ascii E false d) = Ok o.
Proof. unfold code_to_ascii. destruct (snd (domain_to_ascii E false d)); split; intros H; congruence. Qed.
Lemma not_ends E s : is_ends_in_a_number E s = false <-> std_ends_in_number s = false /\ ~ odd_number E (last (address_parts s) []).
Proof.
  pose proof (ends_exact' E s) as H. destruct (is_ends_in_a_number E s); split; intros K.
  - discriminate.
  - destruct K as [K1 K2]. destruct (proj1 H eq_refl) as [Q|Q]; [congruence|contradiction].
  - split; [destruct (std_ends_in_number s); [|reflexivity]; symmetry; apply H; now left|]. intros Q. assert (X : false = true) by (apply H; now right). discriminate.
  - reflexivity.
Qed.
Lemma canon_hostval E sch h : limit_ok E -> idna_ok E -> h <> HStr [] ->
  canonical_host (code_to_ascii E) (odd_number E) sch h <-> hostval E sch h /\ v4_ok h.
Proof.
  intros HL HI HN. unfold canonical_host, hostval, v4_ok. destruct h as [d|n|a].
  - split.
    + intros (H0 & HF & HS & HO). split; [|discriminate]. split; [|intros Q K; injection K as K; now apply HF in Q].
      destruct (special_scheme sch) eqn:Q; cbn [negb].
      * apply special_spec in Q. destruct (HS Q) as (H1 & H2 & H3 & H4). apply code_ascii in H1. destruct (idna_stable E HI _ _ H1) as [A _].
        exists d. split; [now apply ascii_pystr|]. split; [exact H0|]. apply reparse_domain; auto. apply not_ends. auto.
      * apply not_special_spec in Q. destruct (HO Q) as (H1 & H2). unfold encoded, c0_control_set in H1. exists d. split.
        { apply Forall_forall. intros c Hc. specialize (H1 c Hc). lia. }
        split; [exact H0|]. apply reparse_opaque; auto. intros c Hc. specialize (H1 c Hc). specialize (H2 c Hc). split; [exact H2|lia].
    + intros (((h0 & Hp & Hn & H) & HF) & _). assert (H0 : d <> []) by congruence. split; [exact H0|]. split; [intros Q ->; now apply HF|].
      pose proof (host_str_chars E h0 _ d HI Hp H) as CH.
      split; intros S.
      * apply special_spec in S. rewrite S in H. cbn [negb] in H. rewrite host_parse_eq in H by exact Hn. destruct (starts_with [91] h0).
        { destruct (ends_with_char h0 93); [|discriminate]. destruct (snd (ipv6_parse E _)); discriminate. }
        destruct (snd (domain_to_ascii E false _)) as [x|] eqn:D; [|discriminate]. destruct (existsb std_forbidden_domain x) eqn:X; [discriminate|].
        destruct (is_ends_in_a_number E x) eqn:N; [destruct (snd (ipv4_parse E x)); discriminate|]. injection H as ->.
        destruct (idna_stable E HI _ _ D) as [_ A]. split; [now apply code_ascii|]. rewrite existsb_false in X. split; [exact X|]. now apply not_ends.
      * split; intros c Hc; destruct (CH c Hc) as [C1 C2]; [unfold c0_control_set; lia|exact C1].
  - split.
    + intros [S L]. apply special_spec in S. split; [|intros m K; injection K as ->; exact L]. split; [|discriminate]. rewrite S. cbn [negb].
      exists (host_serialize (HIPv4 n)). cbn [host_serialize]. split; [apply ascii_pystr, ipv4_ascii|]. split; [apply ipv4_nonempty|]. now apply (reparse_ipv4 E n).
    + intros [((h0 & Hp & Hn & H) & _) V]. split; [|now apply V]. apply special_spec. destruct (special_scheme sch); [reflexivity|]. cbn [negb] in H.
      rewrite host_parse_eq in H by exact Hn. destruct (starts_with [91] h0).
      { destruct (ends_with_char h0 93); [|discriminate]. destruct (snd (ipv6_parse E _)); discriminate. }
      destruct (snd (parse_opaque_host h0)); discriminate.
  - split.
    + intros [L F]. split; [|discriminate]. split; [|discriminate]. exists (host_serialize (HIPv6 a)). split; [|split; [discriminate|now apply reparse_ipv6]].
      cbn [host_serialize]. change ($"[") with [91]. change ($"]") with [93]. apply Forall_forall. intros c Hc.
      apply in_app_iff in Hc as [[<-|[]]|Hc]; [discriminate|]. apply in_app_iff in Hc as [Hc|[<-|[]]]; [|discriminate]. apply (ipv6_chars a c L) in Hc. lia.
    + intros [((h0 & Hp & Hn & H) & _) _]. rewrite host_parse_eq in H by exact Hn. destruct (starts_with [91] h0).
      * destruct (ends_with_char h0 93); [|discriminate]. pose proof (ipv6_parse_total E (removelast (tl h0))) as T.
        destruct (snd (ipv6_parse E _)) as [x|]; [|discriminate]. injection H as <-. exact T.
      * destruct (negb (special_scheme sch)).
        { destruct (snd (parse_opaque_host h0)); discriminate. }
        destruct (snd (domain_to_ascii E false _)); [|discriminate]. destruct (existsb std_forbidden_domain _); [discriminate|].
        destruct (is_ends_in_a_number E _); [destruct (snd (ipv4_parse E _)); discriminate|discriminate].
Qed.

(* ---------- records ---------- *)
Lemma drive_first l : (match l with s :: _ => is_windows_drive_letter s = true -> is_normalized_windows_drive_letter s = true | [] => True end) <->
  (forall a l', std_alpha a = true -> l <> [a; 124] :: l').
Proof.
  destruct l as [|s l]; [split; [discriminate|trivial]|]. split.
  - intros H a l' A Q. injection Q as -> ->. unfold is_normalized_windows_drive_letter in H. assert (W : is_windows_drive_letter [a; 124] = true).
    { unfold is_windows_drive_letter. now rewrite alpha_class_inv. }
    specialize (H W). rewrite W in H. discriminate.
  - intros H W. unfold is_normalized_windows_drive_letter. rewrite W. unfold is_windows_drive_letter in W. destruct s as [|a [|b [|x s]]]; try discriminate.
    apply andb_true_iff in W as [A B]. change ($":|") with [58; 124] in B. cbn [mem existsb] in B.
    destruct (b =? 124) eqn:Q; [|cbn; lia]. exfalso. apply N.eqb_eq in Q. subst b. apply (H a l); [|reflexivity].
    apply mem_In in A. assert (F : forallb std_alpha ASCII_ALPHA = true) by reflexivity. rewrite forallb_forall in F. now apply F.
Qed.
Lemma wf_canonical E u : limit_ok E -> idna_ok E -> wf (hostval E) u /\ url_v4_ok u <-> code_canonical E u.
Proof.
  intros HL HI. split.
  - intros [((A1 & A2 & A3 & A4 & A5 & A6) & B & C1 & C2) V]. pose proof (conj (conj A1 (conj A2 (conj A3 (conj A4 (conj A5 A6))))) (conj B (conj C1 C2))) as W.
    pose proof (wf_invariant (hostval E) u W) as INV. constructor.
    + now apply scheme_ok_std.
    + rewrite <- !(encoded_qs _ _ _ agree_userinfo). auto.
    + unfold wf_host in A4. destruct (uhost u) as [h|] eqn:U; [|unfold is_special in A4; now apply not_special_spec].
      destruct A4 as [[-> A4]|[A4 A4']].
      * intros S. apply A4. now apply special_spec.
      * assert (K : canonical_host (code_to_ascii E) (odd_number E) (scheme u) h).
        { apply canon_hostval; auto. split; [exact A4'|]. intros n ->. now apply V. }
        destruct h as [[|c t]|n|a]; [congruence|exact K..].
    + exact (inv_creds u INV).
    + intros p Hp. split; [now apply A6|]. eapply wf_default_port; eauto.
    + unfold canonical_path. pose proof B as B0. unfold wf_path in B. destruct (path u) as [s|l] eqn:P.
      * destruct B as (B1 & B2 & B3 & B4 & B5 & B6). split; [exact B1|]. split; [now apply (encoded_qs _ _ _ agree_c0)|].
        assert (NQ : forall c, is_qf c = true -> ~ In c s) by (intros c Q K; rewrite forallb_forall in B4; specialize (B4 c K); rewrite Q in B4; discriminate).
        split; [apply NQ; reflexivity|]. split; [apply NQ; reflexivity|]. split.
        { intros t ->. discriminate. }
        intros Q F t ->. specialize (B6 Q F t 32 eq_refl). lia.
      * destruct B as (B1 & B2 & B3). split; [|split].
        { apply Forall_forall. intros s Hs. split; [|eapply wf_segments; eauto]. rewrite Forall_forall in B1. apply (encoded_qs _ _ _ agree_path). now apply B1. }
        { intros K. destruct (B2 K) as [B2' B2'']. split; [now apply not_special_spec|exact B2'']. }
        intros F. apply drive_first. now apply B3.
    + intros q Hq. specialize (C1 q Hq). unfold WfProofs.query_set in C1. unfold is_special in C1. destruct (special_scheme (scheme u)) eqn:S.
      * apply (encoded_qs _ _ _ agree_special_query) in C1. split; [auto|]. intros c Hc. specialize (C1 c Hc). unfold special_query_set in C1. now apply orb_false_iff in C1.
      * split; [intros K; apply special_spec in K; congruence|]. now apply (encoded_qs _ _ _ agree_query).
    + intros f Hf. apply (encoded_qs _ _ _ agree_fragment). now apply C2.
  - intros [K1 [K2 K2'] K3 K4 K5 K6 K7 K8]. split.
    2:{ intros n U. rewrite U in K3. apply K3. }
    assert (SP : is_special u = true <-> std_special (scheme u)) by apply special_spec.
    assert (NS : is_special u = false <-> ~ std_special (scheme u)) by apply not_special_spec.
    split; [|split].
    + split; [apply scheme_std_ok; apply K1|]. split; [now apply (encoded_qs _ _ _ agree_userinfo)|]. split; [now apply (encoded_qs _ _ _ agree_userinfo)|]. split; [|split].
      * unfold wf_host. destruct (uhost u) as [h|]; [|now apply NS].
        assert (D : h = HStr [] \/ h <> HStr []) by (destruct h as [[|c t]|n|a]; [now left|right; discriminate..]). destruct D as [->|D].
        { left. split; [reflexivity|]. intros S. apply K3. now apply SP. }
        right. split; [exact D|]. apply (canon_hostval E (scheme u) h HL HI D). destruct h as [[|c t]|n|a]; [congruence|exact K3..].
      * intros H. assert (H' : username u <> [] \/ password u <> [] \/ port u <> None).
        { destruct H as [H|H]; [|auto]. unfold includes_credentials in H. destruct (username u); [|left; discriminate]. destruct (password u); [discriminate|right; left; discriminate]. }
        destruct (K4 H') as (H1 & H2 & H3). destruct (uhost u) as [h|]; [|congruence]. exists h. repeat split; auto. congruence.
      * intros p Hp. destruct (K5 p Hp) as [P1 P2]. split; [exact P1|]. intros Q. now apply default_port_std in Q.
    + unfold wf_path. unfold canonical_path in K6. destruct (path u) as [s|l].
      * destruct K6 as (H1 & H2 & H3 & H4 & H5 & H6). split; [exact H1|]. split; [apply NS; rewrite H1 in K3; exact K3|]. split; [now apply (encoded_qs _ _ _ agree_c0)|]. split; [|split].
        { apply forallb_forall. intros c Hc. apply negb_true_iff. destruct (is_qf c) eqn:Q; [|reflexivity]. exfalso. unfold is_qf in Q. change ($"?#") with [63; 35] in Q. cbn [mem existsb] in Q.
          assert (D : c = 63 \/ c = 35) by lia. destruct D; subst; contradiction. }
        { destruct s as [|c t]; [reflexivity|]. change ($"/") with [47]. cbn [starts_with]. rewrite andb_true_r. destruct (47 =? c) eqn:Q; [|reflexivity]. apply N.eqb_eq in Q. subst c. now destruct (H5 t). }
        intros Q F a c ->. specialize (H2 c ltac:(apply in_app_iff; right; now left)). unfold c0_control_set in H2.
        assert (c <> 32) by (intros ->; now apply (H6 Q F a)). lia.
      * destruct K6 as (H1 & H2 & H3). split; [|split].
        { apply Forall_forall. intros s Hs. rewrite Forall_forall in H1. destruct (H1 s Hs) as (E1 & D1 & D2 & D3 & D4 & D5 & D6). split; [now apply (encoded_qs _ _ _ agree_path)|].
          split; [now apply mem_not_In|]. split; [intros S; apply mem_not_In; apply D6; now apply SP|]. unfold is_dot. rewrite dd_spec, sd_spec. now rewrite D1, D2. }
        { intros K. destruct (H2 K) as [H2' H2'']. split; [now apply NS|exact H2'']. }
        intros F. apply drive_first. now apply H3.
    + split.
      * intros q Hq. unfold WfProofs.query_set. destruct (K7 q Hq) as [Q1 Q2]. destruct (is_special u) eqn:S.
        { apply (encoded_qs _ _ _ agree_special_query). apply Q1. now apply SP. }
        now apply (encoded_qs _ _ _ agree_query).
      * intros f Hf. apply (encoded_qs _ _ _ agree_fragment). now apply K8.
Qed.
Lemma canonical_parsed E u : limit_ok E -> idna_ok E -> (parsed E u /\ url_v4_ok u <-> code_canonical E u).
Proof.
  intros HL HI. rewrite <- wf_canonical by auto. split; intros [P V].
  - split; [now apply parsed_wf|exact V].
  - split; [|exact V]. pose proof (wf_val_rt E u HL HI V P) as W. apply (parsed_none E (href u) UTF8); [now apply (href_pystr E)|apply enc_utf8|].
    rewrite parse_url_none. apply reparse_record; auto; [apply enc_utf8|exact I].
Qed.
Lemma canonical_strings E s enc : limit_ok E -> idna_ok E -> enc_ok E (normalize_encoding E enc) -> is_pystr s ->
  (exists u, snd (parse_url E s BNone enc) = Ok u /\ href u = s) <-> (exists u, code_canonical E u /\ s = href u).
Proof.
  intros HL HI HE HS. split.
  - intros (u & P & Q). assert (PU : parsed E u) by (eapply parsed_none; eauto). pose proof (parsed_wf E u PU) as W. pose proof (wf_fix E u HL HI W) as F.
    assert (R : snd (parse_url E (href u) BNone enc) = Ok (fix_v4 u)) by (rewrite parse_url_none; apply reparse_fix; auto; exact I).
    exists (fix_v4 u). split; [|rewrite <- Q; symmetry; apply fix_v4_href].
    apply canonical_parsed; auto. split; [eapply (parsed_none E (href u)); eauto; rewrite Q; exact HS|]. intros n U. unfold fix_v4 in U. destruct (uhost u) as [[|m|]|] eqn:UH; try congruence.
    cbn [uhost set_host] in U. injection U as <-. apply N.mod_lt. discriminate.
  - intros (u & C & ->). apply canonical_parsed in C as [P V]; auto. exists u. split; [now apply parse_round_trip|reflexivity].
Qed.
Lemma canonical_inj E u v : limit_ok E -> idna_ok E -> code_canonical E u -> code_canonical E v -> href u = href v -> u = v.
Proof.
  intros HL HI U V Q. apply canonical_parsed in U as [U1 U2]; auto. apply canonical_parsed in V as [V1 V2]; auto.
  pose proof (parse_round_trip E u UTF8 HL HI (enc_utf8 E) U1 U2) as A. pose proof (parse_round_trip E v UTF8 HL HI (enc_utf8 E) V1 V2) as B. congruence.
Qed.
