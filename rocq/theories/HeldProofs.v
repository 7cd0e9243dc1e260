(** The objects that a program can hold are exactly those of SpecObjects.v. *)
From Coq Require Import Ascii String.
From Coq Require Import NArith ZArith Bool Arith Lia ZifyBool ZifyN ZifyNat List.
From Verif Require Import PyStr PyInt Codec Env HostModel UrlRecord Parser SearchParams UrlApi SpecText SpecHost FlatParser.
From Verif Require Import Lemmas CodecProofs QuoteProofs PyIntProofs LegacyProofs IPv4Proofs IPv6Proofs HostProofs LoopProofs FlatProofs WfProofs RoundTrip PathProofs IntGrammar HostStandard UrlProps
  SetterProofs LooseProofs ApiProofs ObjProofs ExactProofs CanonProofs.
From Verif Require Import SpecPyInt SpecUrl SpecApi SpecCanon SpecObjects.
Import ListNotations.
Open Scope N_scope.

Definition code_held (E : env) (u : urlrec) : Prop := held (code_to_ascii E) (odd_number E) u.

Lemma parsed_host E sch h : limit_ok E -> idna_ok E -> h <> HStr [] ->
  (canonical_host (code_to_ascii E) (odd_number E) sch h \/ (sch = $"file" /\ canonical_host (code_to_ascii E) (odd_number E) $"http" h)) <->
  hostparsed E sch h /\ v4_ok h.
Proof.
  intros HL HI HN. rewrite !canon_hostval by assumption. unfold hostval, hostparsed. split.
  - intros [[[A _] V]|(-> & [A _] & V)]; (split; [exact A|exact V]).
  - intros [A V]. destruct (list_eq_dec N.eq_dec sch $"file") as [->|F]; [right|left].
    + split; [reflexivity|]. split; [|exact V]. split; [exact A|discriminate].
    + split; [|exact V]. split; [exact A|]. intros K. congruence.
Qed.
Lemma loose_held E u : limit_ok E -> idna_ok E -> loose E u /\ url_v4_ok u <-> code_held E u.
Proof.
  intros HL HI. assert (SP : is_special u = true <-> std_special (scheme u)) by apply special_spec.
  assert (NS : is_special u = false <-> ~ std_special (scheme u)) by apply not_special_spec. split.
  - intros [((A1 & A2 & A3 & A4 & A5 & A6 & A7) & B & C1 & C2) V]. constructor.
    + now apply scheme_ok_std.
    + rewrite <- !(encoded_qs _ _ _ agree_userinfo). auto.
    + unfold wf_host in A4. destruct (uhost u) as [h|] eqn:U; [|now apply NS].
      destruct A4 as [[-> A4]|[A4 A4']].
      * intros S. apply A4. now apply SP.
      * assert (K : canonical_host (code_to_ascii E) (odd_number E) (scheme u) h \/ (scheme u = $"file" /\ canonical_host (code_to_ascii E) (odd_number E) $"http" h)).
        { apply parsed_host; auto. split; [exact A4'|]. intros n ->. now apply V. }
        destruct h as [[|c t]|n|a]; [congruence|exact K..].
    + intros H. assert (H' : includes_credentials u = true \/ port_truthy (port u) = true).
      { unfold includes_credentials. destruct H as [H|[H|(p & -> & H)]]; [left; destruct (username u); [congruence|reflexivity]|left; destruct (username u), (password u); try reflexivity; congruence|right]. cbn [port_truthy]. lia. }
      destruct (A5 H') as (h & -> & H1 & H2). split; [discriminate|]. split; [congruence|exact H2].
    + intros p Hp. split; [apply A7; congruence|]. destruct (A6 p Hp) as [P1 P2]. split; [exact P1|]. intros D. apply default_port_spec in D. congruence.
    + unfold held_path, canonical_path. unfold loose_path in B. destruct (path u) as [s|l] eqn:P.
      * destruct B as (B1 & B2 & B3 & B4 & B5 & B6). split; [exact B1|]. split; [now apply (encoded_qs _ _ _ agree_c0)|].
        assert (NQ : forall c, is_qf c = true -> ~ In c s) by (intros c Q K; rewrite forallb_forall in B4; specialize (B4 c K); rewrite Q in B4; discriminate).
        split; [apply NQ; reflexivity|]. split; [apply NQ; reflexivity|]. split.
        { intros t ->. discriminate. }
        intros Q F t ->. specialize (B6 Q F t 32 eq_refl). lia.
      * destruct B as (B1 & B2). split.
        { apply Forall_forall. intros s Hs. rewrite Forall_forall in B1. specialize (B1 s Hs). destruct B1 as (E1 & E2 & E3 & E4). split; [now apply (encoded_qs _ _ _ agree_path)|].
          apply is_dot_spec in E4 as [D1 D2]. assert (NI : forall c, mem c (ALWAYS_SAFE ++ SAFE_PATH) = false -> ~ In c s) by (intros c Hc; apply mem_not_In; eapply qs_no; eauto).
          repeat split; auto; try (apply NI; reflexivity); [now apply mem_not_In|]. intros S. apply SP in S. apply mem_not_In. now apply E3. }
        intros K. destruct (B2 K) as [B2' B2'']. split; [now apply NS|exact B2''].
    + intros q Hq. specialize (C1 q Hq). unfold WfProofs.query_set in C1. destruct (is_special u) eqn:S.
      * apply (encoded_qs _ _ _ agree_special_query) in C1. split; [auto|]. intros c Hc. specialize (C1 c Hc). unfold special_query_set in C1. now apply orb_false_iff in C1.
      * split; [intros K; apply SP in K; congruence|]. now apply (encoded_qs _ _ _ agree_query).
    + intros f Hf. apply (encoded_qs _ _ _ agree_fragment). now apply C2.
  - intros [K1 [K2 K2'] K3 K4 K5 K6 K7 K8]. split.
    2:{ intros n U. rewrite U in K3. destruct K3 as [K3|[_ K3]]; apply K3. }
    split; [|split].
    + split; [apply scheme_std_ok; apply K1|]. split; [now apply (encoded_qs _ _ _ agree_userinfo)|]. split; [now apply (encoded_qs _ _ _ agree_userinfo)|]. split; [|split; [|split]].
      * unfold wf_host. destruct (uhost u) as [h|]; [|now apply NS].
        assert (D : h = HStr [] \/ h <> HStr []) by (destruct h as [[|c t]|n|a]; [now left|right; discriminate..]). destruct D as [->|D].
        { left. split; [reflexivity|]. intros S. apply K3. now apply SP. }
        right. split; [exact D|]. apply (parsed_host E (scheme u) h HL HI D). destruct h as [[|c t]|n|a]; [congruence|exact K3..].
      * intros H. assert (H' : username u <> [] \/ password u <> [] \/ (exists p, port u = Some p /\ p <> 0)).
        { destruct H as [H|H].
          - unfold includes_credentials in H. destruct (username u); [|left; discriminate]. destruct (password u); [discriminate|right; left; discriminate].
          - right; right. destruct (port u) as [p|]; [|discriminate]. exists p. split; [reflexivity|]. cbn [port_truthy] in H. lia. }
        destruct (K4 H') as (H1 & H2 & H3). destruct (uhost u) as [h|]; [|congruence]. exists h. repeat split; auto. congruence.
      * intros p Hp. destruct (K5 p Hp) as (_ & P1 & P2). split; [exact P1|]. intros Q. now apply default_port_std in Q.
      * intros Hp. destruct (port u) as [p|]; [|congruence]. now apply (K5 p).
    + unfold loose_path. unfold held_path, canonical_path in K6. destruct (path u) as [s|l].
      * destruct K6 as (H1 & H2 & H3 & H4 & H5 & H6). split; [exact H1|]. split; [apply NS; rewrite H1 in K3; exact K3|]. split; [now apply (encoded_qs _ _ _ agree_c0)|]. split; [|split].
        { apply forallb_forall. intros c Hc. apply negb_true_iff. destruct (is_qf c) eqn:Q; [|reflexivity]. exfalso. unfold is_qf in Q. change ($"?#") with [63; 35] in Q. cbn [mem existsb] in Q.
          assert (D : c = 63 \/ c = 35) by lia. destruct D; subst; contradiction. }
        { destruct s as [|c t]; [reflexivity|]. change ($"/") with [47]. cbn [starts_with]. rewrite andb_true_r. destruct (47 =? c) eqn:Q; [|reflexivity]. apply N.eqb_eq in Q. subst c. now destruct (H5 t). }
        intros Q F a c ->. specialize (H2 c ltac:(apply in_app_iff; right; now left)). unfold c0_control_set in H2.
        assert (c <> 32) by (intros ->; now apply (H6 Q F a)). lia.
      * destruct K6 as (H1 & H2). split.
        { apply Forall_forall. intros s Hs. rewrite Forall_forall in H1. destruct (H1 s Hs) as (E1 & D1 & D2 & D3 & D4 & D5 & D6). split; [now apply (encoded_qs _ _ _ agree_path)|].
          split; [now apply mem_not_In|]. split; [intros S; apply mem_not_In; apply D6; now apply SP|]. unfold is_dot. rewrite dd_spec, sd_spec. now rewrite D1, D2. }
        intros K. destruct (H2 K) as [H2' H2'']. split; [now apply NS|exact H2''].
    + split.
      * intros q Hq. unfold WfProofs.query_set. destruct (K7 q Hq) as [Q1 Q2]. destruct (is_special u) eqn:S.
        { apply (encoded_qs _ _ _ agree_special_query). apply Q1. now apply SP. }
        now apply (encoded_qs _ _ _ agree_query).
      * intros f Hf. apply (encoded_qs _ _ _ agree_fragment). now apply K8.
Qed.

(* ---------- making an object ---------- *)
Section Make.
Context (E : env) (HL : limit_ok E) (HI : idna_ok E).
Notation OBJ u := (mkobj u (attach_list u)).

Lemma make_sound u : loose (EE E) u -> url_v4_ok u -> sound_port u -> sound_file u -> reached E (OBJ u).
Proof.
  intros L V P F. assert (W : wf (hostval (EE E)) u) by now apply loose_wf.
  assert (HI' : idna_ok (EE E)) by now apply idna_validity.
  apply (reached_new E (href u)); [now apply (href_pystr (EE E)), wf_val_rt|]. unfold url_new. rewrite parse_url_none.
  rewrite (reparse_fix (EE E) u None UTF8); [|apply enc_utf8|exact HL|exact HI'|exact I|exact W]. now rewrite fix_v4_id.
Qed.
(** an empty host, written over another one *)
Lemma make_empty u h : reached E (OBJ (set_host (Some h) u)) -> uhost u = Some (HStr []) -> has_opaque_path u = false ->
  includes_credentials u = false -> port_truthy (port u) = false -> (is_special u = true -> scheme u = $"file") -> reached E (OBJ u).
Proof.
  intros R U O IC PT SF. pose proof (reached_call E (CSet (SetHost [])) _ (Forall_nil _) R) as R'.
  unfold do_call, set_attr in R'. cbn [o_url] in R'. change (has_opaque_path (set_host (Some h) u)) with (has_opaque_path u) in R'. rewrite O in R'.
  rewrite reparse_host in R'. change (remove_tabs []) with (@nil N) in R'.
  assert (Q : fst (put_host (EE E) HOST (set_host (Some h) u) []) = u).
  { assert (SU : set_host (Some (HStr [])) (set_host (Some h) u) = u) by (rewrite <- U; destruct u; reflexivity).
    unfold put_host, put_file_host. cbn [scheme set_host]. destruct (str_eqb (scheme u) $"file") eqn:F; [exact SU|].
    change (host_scan (is_special (set_host (Some h) u)) false []) with (@nil N, @nil N). cbn [isc cur length Nat.eqb andb tl].
    change (is_special (set_host (Some h) u)) with (is_special u). destruct (is_special u) eqn:S; [rewrite SF, str_eqb_refl in F by reflexivity; discriminate|].
    change (includes_credentials (set_host (Some h) u)) with (includes_credentials u). cbn [port set_host]. rewrite IC, PT. cbn [orb].
    unfold is_not_special. change (special_scheme (scheme (set_host (Some h) u))) with (is_special u). rewrite S. exact SU. }
  unfold with_url in R'. cbn [o_list fst] in R'. rewrite Q in R'. exact R'.
Qed.
(** the scheme "file", written over "http" *)
Lemma make_file u : reached E (OBJ (set_scheme $"http" u)) -> scheme u = $"file" ->
  includes_credentials u = false -> port_truthy (port u) = false -> reached E (OBJ u).
Proof.
  intros R F IC PT. assert (P : is_pystr $"file") by (repeat constructor; discriminate).
  pose proof (reached_call E (CSet (SetProtocol $"file")) _ P R) as R'. unfold do_call, set_attr in R'. cbn [o_url] in R'.
  rewrite reparse_scheme in R'. change (scheme_split (remove_tabs ($"file" ++ $":"))) with (Some ($"file", @nil N)) in R'. cbv beta iota in R'.
  assert (B : scheme_blocked (set_scheme $"http" u) (lower $"file") = false).
  { unfold scheme_blocked. change (includes_credentials (set_scheme $"http" u)) with (includes_credentials u). cbn [port set_scheme]. rewrite IC, PT. reflexivity. }
  rewrite B in R'. unfold put_scheme in R'. cbn [port set_scheme] in R'. rewrite PT in R'. cbn [andb fst] in R'.
  change (lower $"file") with $"file" in R'. replace (set_scheme $"file" (set_scheme $"http" u)) with u in R' by (rewrite <- F; destruct u; reflexivity).
  unfold with_url in R'. cbn [o_list fst] in R'. exact R'.
Qed.

Lemma make_any u : loose (EE E) u -> url_v4_ok u -> reached E (OBJ u).
Proof.
  intros L V. pose proof L as ((A1 & A2 & A3 & A4 & A5 & A6 & A7) & B & C1 & C2).
  destruct (list_eq_dec N.eq_dec (scheme u) $"file") as [F|F].
  - assert (S : is_special u = true) by (unfold is_special; rewrite F; reflexivity).
    assert (IC : includes_credentials u = false). { destruct (includes_credentials u) eqn:Q; [|reflexivity]. destruct A5 as (h & _ & _ & K); [now left|congruence]. }
    assert (PT : port_truthy (port u) = false). { destruct (port_truthy (port u)) eqn:Q; [|reflexivity]. destruct A5 as (h & _ & _ & K); [now right|congruence]. }
    assert (P0 : forall p, port u = Some p -> p = 0) by (intros p Q; rewrite Q in PT; cbn [port_truthy] in PT; lia).
    assert (O : has_opaque_path u = false). { unfold has_opaque_path. unfold loose_path in B. destruct (path u); [|reflexivity]. destruct B as (_ & B & _). congruence. }
    unfold wf_host in A4. destruct (uhost u) as [h|] eqn:U; [|congruence].
    assert (G : forall x, x <> HStr [] -> hostparsed (EE E) $"http" x -> v4_ok x -> reached E (OBJ (set_host (Some x) (set_scheme $"http" u)))).
    { intros x X1 X2 X3. apply make_sound.
      - split; [|split; [|split]].
        + refine (conj _ (conj A2 (conj A3 (conj _ (conj _ (conj _ _)))))); cbn [port uhost scheme username password set_host set_scheme].
          * split; reflexivity.
          * unfold wf_host. cbn [uhost set_host]. right. auto.
          * intros _. exists x. repeat split; auto. discriminate.
          * intros p Hp. split; [now apply A6|]. rewrite (P0 p) by assumption. discriminate.
          * discriminate.
        + unfold has_opaque_path in O. unfold loose_path in *. cbn [path set_host set_scheme uhost]. destruct (path u) as [s|l]; [discriminate O|]. rewrite S in B. destruct B as [B1 B2].
          split; [exact B1|]. intros K. destruct (B2 K). congruence.
        + intros q Hq. specialize (C1 q Hq). unfold WfProofs.query_set in *. rewrite S in C1. exact C1.
        + exact C2.
      - intros n. cbn [uhost set_host]. intros K. apply X3. congruence.
      - intros _. exists x. repeat split; auto. discriminate.
      - discriminate. }
    destruct A4 as [[-> _]|[H1 H2]].
    + apply (make_empty u (HIPv4 0)); auto. apply make_file; auto. apply G; [discriminate| |intros n [= <-]; lia].
      exists (host_serialize (HIPv4 0)). split; [apply ascii_pystr, ipv4_ascii|]. split; [apply ipv4_nonempty|].
      apply (reparse_ipv4 (EE E) 0); [exact HL|now apply idna_validity|lia].
    + apply make_file; auto. replace (set_scheme $"http" u) with (set_host (Some h) (set_scheme $"http" u)) by (rewrite <- U; destruct u; reflexivity).
      apply G; [exact H1| |intros n ->; now apply V]. unfold hostparsed in *. rewrite F in H2. exact H2.
  - assert (SF : sound_file u) by (intros K; congruence).
    destruct (uhost u) as [[[|c t]|n|a]|] eqn:U.
    2-4: apply make_sound; auto; intros _; eexists; split; [exact U|]; split; [discriminate|exact F].
    2:{ apply make_sound; auto. intros K. exfalso. apply A7; [congruence|reflexivity]. }
    assert (NA : ~ (includes_credentials u = true \/ port_truthy (port u) = true)) by (intros K; destruct (A5 K) as (h & Q & N & _); congruence).
    destruct (includes_credentials u) eqn:IC; [exfalso; auto|]. destruct (port_truthy (port u)) eqn:PT; [exfalso; auto|].
    assert (S : is_special u = false). { unfold wf_host in A4. rewrite U in A4. destruct A4 as [[_ A4]|[A4 _]]; [|congruence]. destruct (is_special u); [exfalso; auto|reflexivity]. }
    assert (O : has_opaque_path u = false). { unfold has_opaque_path. unfold loose_path in B. destruct (path u); [|reflexivity]. destruct B as (B & _). congruence. }
    apply (make_empty u (HStr [104])); auto; [|congruence]. apply make_sound.
    + apply keep_host; auto. left. split; [discriminate|]. exists [104]. split; [repeat constructor; discriminate|]. split; [discriminate|].
      change (special_scheme (scheme u)) with (is_special u). rewrite S. reflexivity.
    + intros n. discriminate.
    + intros _. exists (HStr [104]). repeat split; auto. discriminate.
    + intros K. now destruct (F K).
Qed.
End Make.

Lemma held_objects E o : limit_ok E -> idna_ok E ->
  (reached E o /\ url_v4_ok (o_url o) <-> code_held E (o_url o) /\ o_list o = attach_list (o_url o)).
Proof.
  intros HL HI. assert (HI' : idna_ok (EE E)) by now apply idna_validity.
  change (code_held E) with (code_held (EE E)). rewrite <- (loose_held (EE E)) by assumption. split.
  - intros [R V]. apply reached_inv in R as (A & _ & B). auto.
  - intros [[A V] B]. split; [|exact V]. rewrite <- (obj_eta o), B. now apply make_any.
Qed.
Lemma held_listed E o : limit_ok E -> idna_ok E ->
  (reached E o /\ url_v4_ok (o_url o) <->
   code_held E (o_url o) /\
   o_list o = std_urlencoded_parse (std_utf8_encode (scalar_value_string (match query (o_url o) with Some q => q | None => [] end)))).
Proof.
  intros HL HI. split.
  - intros [R V]. split; [|now apply (reached_sync E)]. now apply (held_objects E o HL HI).
  - intros [R S]. assert (K : reached E (mkobj (o_url o) (attach_list (o_url o))) /\ url_v4_ok (o_url o)) by (apply (held_objects E (mkobj (o_url o) _) HL HI); auto).
    destruct K as [K V]. pose proof (reached_sync E _ K) as Q. cbn [o_url o_list] in Q. split; [|exact V]. rewrite Q, <- S, obj_eta in K. exact K.
Qed.
(** the canonical records among them *)
Lemma canonical_held to_ascii as_number u : canonical to_ascii as_number u <->
  held to_ascii as_number u /\
  (port u = Some 0 -> uhost u <> Some (HStr []) /\ scheme u <> $"file") /\
  (scheme u = $"file" -> uhost u <> Some (HStr $"localhost") /\
     forall a l, std_alpha a = true -> path u <> PList ([a; 124] :: l)).
Proof.
  split.
  - intros [A1 A2 A3 A4 A5 A6 A7 A8]. split; [|split].
    + constructor; auto.
      * destruct (uhost u) as [[[|c t]|n|a]|]; auto.
      * intros H. apply A4. destruct H as [H|[H|(p & -> & _)]]; auto. right; right. discriminate.
      * intros p Hp. split; [|now apply A5]. apply A4. right; right. congruence.
      * unfold held_path. pose proof A6 as B. unfold canonical_path in B. destruct (path u) as [s|l] eqn:P; [exact A6|]. destruct B as (B1 & B2 & _). auto.
    + intros H. assert (K : port u <> None) by congruence. destruct A4 as (_ & ? & ?); auto.
    + intros F. split.
      * intros U. rewrite U in A3. destruct A3 as (_ & A3 & _). now apply A3.
      * intros a l Ha P. unfold canonical_path in A6. rewrite P in A6. destruct A6 as (_ & _ & A6). now apply (A6 F a l).
  - intros [[A1 A2 A3 A4 A5 A6 A7 A8] [HP HF]]. constructor; auto.
    + destruct (uhost u) as [[[|c t]|n|a]|] eqn:U; auto.
      * destruct A3 as [A3|[F A3]]; [exact A3|]. destruct A3 as (B1 & B2 & B3 & B4). assert (S : std_special (scheme u)) by (rewrite F; cbn; auto 10).
        split; [discriminate|]. split; [intros _ Q; destruct (HF F) as [K _]; congruence|]. split; [|intros K; now destruct (K S)]. intros _. apply B3. cbn; auto 10.
      * destruct A3 as [A3|[F [_ A3]]]; [exact A3|]. split; [rewrite F; cbn; auto 10|exact A3].
      * destruct A3 as [A3|[F A3]]; exact A3.
    + intros [H|[H|H]]; auto. destruct (port u) as [p|] eqn:P; [|congruence]. destruct (A5 p eq_refl) as (K & _ & _).
      destruct (N.eq_dec p 0) as [->|Z]; [|apply A4; eauto]. destruct (HP eq_refl). auto.
    + intros p Hp. now apply A5.
    + unfold canonical_path. pose proof A6 as B. unfold held_path in B. destruct (path u) as [s|l] eqn:P; [unfold canonical_path in B; now rewrite P in B|]. destruct B as (B1 & B2).
      split; [exact B1|]. split; [exact B2|]. intros F a l' Ha ->. destruct (HF F) as [_ K]. now apply (K a l').
Qed.
Lemma canonical_reparse E o : limit_ok E -> idna_ok E -> reached E o -> url_v4_ok (o_url o) ->
  (url_new E (get_href o) BNone = Ok o <-> code_canonical E (o_url o)).
Proof.
  intros HL HI R V. assert (HI' : idna_ok (EE E)) by now apply idna_validity.
  assert (PS : is_pystr (get_href o)) by now apply (reached_href_pystr E).
  change (code_canonical E) with (code_canonical (EE E)). rewrite <- (canonical_parsed (EE E)) by assumption. split.
  - intros N. split; [|exact V]. unfold url_new in N. destruct (snd (parse_url _ _ _ _)) as [u|e] eqn:P; [|discriminate]. injection N as <-. cbn [o_url].
    apply (parsed_none (EE E) _ UTF8 u PS); [apply enc_utf8|exact P].
  - intros [P _]. unfold url_new, get_href. rewrite (parse_round_trip (EE E) (o_url o) UTF8 HL HI' (enc_utf8 _) P V). apply reached_inv in R as (_ & _ & S). now rewrite <- S, obj_eta.
Qed.
