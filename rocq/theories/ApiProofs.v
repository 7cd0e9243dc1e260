(** URL objects under setters and search-params mutations. *)
From Coq Require Import Ascii String.
From Coq Require Import NArith ZArith Bool Arith Lia ZifyBool ZifyN ZifyNat List.
From Verif Require Import PyStr PyInt Codec Env HostModel UrlRecord Parser SearchParams UrlApi SpecText SpecHost FlatParser.
From Verif Require Import Lemmas CodecProofs QuoteProofs PyIntProofs LegacyProofs HostProofs LoopProofs FlatProofs WfProofs RoundTrip LooseProofs SetterProofs ParserProofs UrlProps ParamProofs.
From Verif Require Import SpecApi SpecUrl.
Import ListNotations.
Open Scope N_scope.

Notation EE E := (with_validity E false).

(* ---------- stripping ---------- *)
Lemma rstrip_split p s : exists w, s = rstrip_by p s ++ w /\ Forall (fun c => p c = true) w.
Proof.
  unfold rstrip_by. pose proof (span_eq p (rev s)) as Q. pose proof (LoopProofs.span_all p (rev s)) as F.
  rewrite span_drop in Q. exists (rev (fst (span p (rev s)))). split; [|now apply Forall_rev].
  rewrite <- rev_app_distr, <- Q. now rewrite rev_involutive.
Qed.
Lemma tidy_nil : tidy []. Proof. intros a c H. destruct a; discriminate. Qed.
Lemma c0_safe_char s c : qs SAFE_C0_CONTROL s -> In c s -> 32 <= c <= 126.
Proof.
  intros H I. assert (Q : forallb (fun c => (32 <=? c) && (c <=? 126)) (ALWAYS_SAFE ++ SAFE_C0_CONTROL) = true) by (vm_compute; reflexivity).
  pose proof (qs_char SAFE_C0_CONTROL _ s Q H) as F. rewrite forallb_forall in F. specialize (F c I). cbv beta in F. lia.
Qed.
Lemma py_space_c0 E c : 32 <= c <= 126 -> is_py_space E c = (c =? 32).
Proof.
  intros H. unfold is_py_space, is_space_ascii. replace (127 <=? c) with false by lia. cbn [andb]. lia.
Qed.
(** [loose_path] without the last clause *)
Definition bare_path (u : urlrec) : Prop :=
  match path u with
  | POpaque s => uhost u = None /\ is_special u = false /\ qs SAFE_C0_CONTROL s /\
                 forallb (fun c => negb (is_qf c)) s = true /\ starts_with $"/" s = false
  | PList l => Forall (seg_ok (is_special u)) l /\ (l = [] -> is_special u = false /\ uhost u <> None)
  end.
Lemma bare_of u : loose_path u -> bare_path u.
Proof. unfold loose_path, bare_path. destruct (path u); tauto. Qed.
Lemma bare_loose u : bare_path u -> query u <> None \/ fragment u <> None -> loose_path u.
Proof. unfold loose_path, bare_path. destruct (path u); [|tauto]. intros H [K|K]; repeat split; try tauto; congruence. Qed.
Lemma starts_prefix a w : starts_with $"/" (a ++ w) = false -> starts_with $"/" a = false.
Proof. destruct a as [|c a]; [reflexivity|]. change ($"/") with [47]. cbn [app starts_with]. destruct (47 =? c); auto. Qed.
Lemma rstrip_loose E E0 u : loose_auth E u -> bare_path u -> wf_qf u -> loose E (potentially_rstrip E0 u).
Proof.
  intros A B C. unfold potentially_rstrip. destruct (path u) as [s|l] eqn:P.
  - destruct (fragment u) as [f|] eqn:F; [split; [auto|split; [|auto]]; apply bare_loose; auto; right; congruence|].
    destruct (query u) as [q|] eqn:Q; [split; [auto|split; [|auto]]; apply bare_loose; auto; left; congruence|].
    split; [exact A|split; [|exact C]]. unfold bare_path in B. rewrite P in B. destruct B as (B1 & B2 & B3 & B4 & B5).
    unfold loose_path. cbn [path set_path uhost query fragment].
    destruct (rstrip_split (is_py_space E0) s) as (w & S & W). repeat split; auto.
    + rewrite S in B3. now apply qs_app in B3.
    + rewrite S, forallb_app in B4. now apply andb_true_iff in B4.
    + rewrite S in B5. now apply starts_prefix in B5.
    + intros _ _ a c H. pose proof (rstrip_last _ _ _ _ H) as D.
      assert (I : In c s) by (rewrite S, H; rewrite !in_app_iff; left; right; now left).
      pose proof (c0_safe_char s c B3 I) as R. rewrite py_space_c0 in D by auto. lia.
  - split; [exact A|split; [|exact C]]. unfold loose_path, bare_path in *. rewrite P in *. exact B.
Qed.

(* ---------- every setter keeps the invariant ---------- *)
Lemma remove_tabs_pystr v : is_pystr v -> is_pystr (remove_tabs v).
Proof. apply pystr_sub. intros c H. unfold remove_tabs in H. now apply filter_In in H. Qed.
Lemma strip_char_pystr c v : is_pystr v -> is_pystr (strip_char c v).
Proof. intros H. unfold strip_char. destruct v as [|x t]; [exact H|]. destruct (x =? c); auto. now apply (pystr_app [x] t). Qed.

Section Keep.
Context (E : env).
Lemma keep_fragment u f : loose E u -> qs SAFE_FRAGMENT f -> loose E (set_fragment (Some f) u).
Proof.
  intros (A & B & C) H. split; [exact A|split].
  - apply bare_loose; [exact (bare_of u B)|right; discriminate].
  - split; [apply C|]. cbn [fragment set_fragment]. intros g G. apply Some_inj in G as <-. exact H.
Qed.
Lemma keep_query u q : loose E u -> qs (query_set u) q -> loose E (set_query (Some q) u).
Proof.
  intros (A & B & C) H. split; [exact A|split].
  - apply bare_loose; [exact (bare_of u B)|left; discriminate].
  - split; [|apply C]. cbn [query set_query]. intros g G. apply Some_inj in G as <-. exact H.
Qed.
Lemma drop_fragment E0 u : loose E u -> loose E (potentially_rstrip E0 (set_fragment None u)).
Proof. intros (A & B & C). apply rstrip_loose; [exact A|exact (bare_of u B)|]. split; [apply C|discriminate]. Qed.
Lemma drop_query E0 u : loose E u -> loose E (potentially_rstrip E0 (set_query None u)).
Proof. intros (A & B & C). apply rstrip_loose; [exact A|exact (bare_of u B)|]. split; [discriminate|apply C]. Qed.
Lemma query_set_qs u t : is_pystr t -> qs (query_set u) (put_query u t).
Proof. intros H. apply qs_enc; auto. apply query_set_37. Qed.
Lemma keep_path u l t : loose E u -> path u = PList l -> is_pystr t -> loose E (set_path (PList (put_path u t)) u).
Proof.
  intros (A & B & C) P Ht. split; [exact A|split; [|exact C]]. unfold loose_path. cbn [path set_path].
  change (is_special (set_path (PList (put_path u t)) u)) with (is_special u). cbn [uhost set_path]. unfold put_path.
  assert (W : forall sp s, is_special u = sp -> is_pystr s -> Forall (seg_ok sp) (walk (scheme u) [] (pieces sp s)) /\ walk (scheme u) [] (pieces sp s) <> []).
  { intros sp s S Hs. apply walk_segs; [apply pieces_nonempty|now apply pieces_ok|constructor]. }
  destruct (is_special u) eqn:S.
  - destruct (W true (match t with c :: r => if is_slash c then r else t | [] => t end) eq_refl) as [W1 W2].
    { destruct t as [|c r]; auto. destruct (is_slash c); auto. now apply (pystr_app [c] r). }
    split; [exact W1|intros K; now destruct (W2 K)].
  - destruct t as [|c r].
    + destruct (uhost u) as [h|]; [split; [constructor|]; split; [reflexivity|discriminate]|]. split; [repeat constructor|discriminate].
    + destruct (W false (if c =? 47 then r else c :: r) eq_refl) as [W1 W2]; [destruct (c =? 47); auto; now apply (pystr_app [c] r)|].
      split; [exact W1|intros K; now destruct (W2 K)].
Qed.
Lemma keep_creds us pw u : loose E u -> cannot_have_username_password_port u = false -> qs SAFE_USERINFO us -> qs SAFE_USERINFO pw ->
  loose E (set_password pw (set_username us u)).
Proof.
  intros ((A1 & A2 & A3 & A4 & A5 & A6 & A7) & B & C) N H1 H2. split; [|split; [exact B|exact C]].
  unfold cannot_have_username_password_port in N. apply orb_false_iff in N as [N1 N2]. apply str_eqb_neq in N2.
  repeat split; auto; try (now apply A6). intros _. cbn [uhost set_password set_username scheme].
  destruct (uhost u) as [h|] eqn:U; [|discriminate]. exists h. repeat split; auto. intros ->. discriminate.
Qed.
Lemma keep_port u t : loose E u -> cannot_have_username_password_port u = false -> loose E (fst (put_port E u t)).
Proof.
  intros HL N. unfold put_port. destruct (flat_port E (scheme u) _) as [p|e] eqn:Q; [|exact HL]. cbn [fst].
  destruct (fst (span (fun c => mem c ASCII_DIGITS) t)) as [|d ds]; [exact HL|].
  destruct HL as ((A1 & A2 & A3 & A4 & A5 & A6 & A7) & B & C). split; [|split; [exact B|exact C]].
  unfold cannot_have_username_password_port in N. apply orb_false_iff in N as [N1 N2]. apply str_eqb_neq in N2.
  assert (U : exists h, uhost u = Some h) by (destruct (uhost u) as [h|]; [now exists h|discriminate]). destruct U as [h U]. rewrite U in N1.
  assert (H4 : wf_host (hostparsed E) (set_port p u)) by exact A4.
  refine (conj A1 (conj A2 (conj A3 (conj H4 (conj _ (conj _ _)))))); cbn [port uhost scheme set_port].
  - intros _. exists h. repeat split; auto. intros ->. discriminate.
  - intros q ->. now apply flat_port_image in Q.
  - rewrite U. discriminate.
Qed.
Lemma no_port u : loose E u -> loose E (set_port None u).
Proof.
  intros ((A1 & A2 & A3 & A4 & A5 & A6 & A7) & B & C). split; [|split; [exact B|exact C]].
  refine (conj A1 (conj A2 (conj A3 (conj A4 (conj _ (conj _ _)))))); cbn [port uhost scheme set_port]; try congruence; try discriminate.
  intros [H|H]; [apply A5; now left|discriminate].
Qed.
(** a new non-empty host; or the empty one where nothing forbids it *)
Lemma keep_host u h : loose E u -> has_opaque_path u = false ->
  (h <> HStr [] /\ hostparsed E (scheme u) h) \/
  (h = HStr [] /\ (is_special u = true -> scheme u = $"file") /\ includes_credentials u = false /\ port_truthy (port u) = false) ->
  loose E (set_host (Some h) u).
Proof.
  intros ((A1 & A2 & A3 & A4 & A5 & A6 & A7) & B & C) O H. split; [|split; [|exact C]].
  - refine (conj A1 (conj A2 (conj A3 (conj _ (conj _ (conj A6 _)))))); cbn [port uhost scheme set_host].
    + unfold wf_host. cbn [uhost set_host scheme]. change (is_special (set_host (Some h) u)) with (is_special u). destruct H as [H|(H1 & H2 & _)]; [now right|left; auto].
    + change (includes_credentials (set_host (Some h) u)) with (includes_credentials u). intros K. destruct H as [[H _]|(H1 & H2 & H3 & H4)].
      * destruct (A5 K) as (h' & _ & _ & F). exists h. auto.
      * destruct K; congruence.
    + discriminate.
  - unfold loose_path in *. unfold has_opaque_path in O. cbn [path set_host uhost]. change (is_special (set_host (Some h) u)) with (is_special u).
    destruct (path u) as [|l]; [discriminate|]. destruct B as [B1 B2]. split; auto. intros K. destruct (B2 K). split; [auto|discriminate].
Qed.
Lemma keep_host_new u h x : loose E u -> has_opaque_path u = false -> is_pystr h -> h <> [] ->
  snd (host_parse E h (is_not_special u)) = Ok x -> loose E (set_host (Some x) u).
Proof.
  intros HL O Hh Hn Hx. apply keep_host; auto. left. split; [now apply (host_parse_nonempty E h (is_not_special u))|]. now exists h.
Qed.
Lemma keep_file_host u t : loose E u -> has_opaque_path u = false -> scheme u = $"file" -> is_pystr t -> loose E (fst (put_file_host E u t)).
Proof.
  intros HL O F Ht. unfold put_file_host. pose proof (span_pystr (fun c => negb (mem c $"/\?#")) t Ht) as [P _].
  pose proof HL as ((A1 & A2 & A3 & A4 & A5 & A6 & A7) & _).
  assert (N1 : includes_credentials u = false). { destruct (includes_credentials u) eqn:Q; [|reflexivity]. destruct A5 as (h & _ & _ & K); [now left|congruence]. }
  assert (N2 : port_truthy (port u) = false). { destruct (port_truthy (port u)) eqn:Q; [|reflexivity]. destruct A5 as (h & _ & _ & K); [now right|congruence]. }
  assert (K0 : loose E (set_host (Some (HStr [])) u)) by (apply keep_host; auto).
  destruct (fst (span (fun c => negb (mem c $"/\?#")) t)) as [|c h]; [exact K0|].
  destruct (snd (host_parse E (c :: h) (is_not_special u))) as [x|e] eqn:X; [|exact HL]. cbn [fst].
  assert (Hn : c :: h <> []) by discriminate.
  assert (NS : is_not_special u = false) by now apply not_special_file.
  rewrite NS in X. destruct (hostval_file E x (c :: h) P Hn X) as [Q|[Q1 [Q2 _]]]; [now rewrite Q|].
  apply keep_host; auto. left. split; auto. now rewrite F.
Qed.
Lemma host_scan_in sp s : forall br, forall c, In c (fst (host_scan sp br s)) -> In c s.
Proof.
  induction s as [|x t IH]; intros br c H; [destruct H|]. cbn [host_scan] in H. destruct (_ || _); [destruct H|].
  specialize (IH (if x =? 91 then true else if x =? 93 then false else br)). destruct (host_scan sp _ t) as [b r]. cbn [fst] in *.
  destruct H as [->|H]; [now left|right]. now apply IH.
Qed.
Lemma host_empty x : snd (host_parse E [] x) = Ok (HStr []). Proof. reflexivity. Qed.
Lemma keep_put_host so u t : loose E u -> has_opaque_path u = false -> is_pystr t -> loose E (fst (put_host E so u t)).
Proof.
  intros HL O Ht. unfold put_host. destruct (str_eqb (scheme u) $"file") eqn:F.
  { apply str_eqb_eq in F. now apply keep_file_host. }
  pose proof (host_scan_in (is_special u) t false) as HI. destruct (host_scan (is_special u) false t) as [h r]. cbn [fst] in HI.
  pose proof (pystr_sub h t HI Ht) as Hh.
  destruct (isc (cur r) 58).
  - destruct (length h =? 0)%nat eqn:L; [exact HL|]. destruct (is_hostname_override (Some so)); [exact HL|].
    assert (Hn : h <> []) by (intros ->; discriminate).
    destruct (snd (host_parse E h (is_not_special u))) as [x|e] eqn:X; [|exact HL].
    apply keep_port; [now apply (keep_host_new u h)|]. unfold cannot_have_username_password_port. cbn [uhost set_host scheme]. rewrite F, orb_false_r.
    pose proof (host_parse_nonempty E h _ x Hh Hn X) as N. destruct x as [[|]| |]; try reflexivity. congruence.
  - destruct (length h =? 0)%nat eqn:L; cbn [andb].
    + destruct h as [|]; [|discriminate]. destruct (is_special u) eqn:S; [exact HL|].
      destruct (includes_credentials u || port_truthy (port u)) eqn:K; [exact HL|]. apply orb_false_iff in K as [K1 K2].
      rewrite host_empty. cbn [fst]. apply keep_host; auto. right. repeat split; auto; congruence.
    + assert (Hn : h <> []) by (intros ->; discriminate).
      destruct (snd (host_parse E h (is_not_special u))) as [x|e] eqn:X; [|exact HL]. now apply (keep_host_new u h).
Qed.
Lemma keep_scheme u s : loose E u -> scheme_ok s -> scheme_blocked u s = false -> loose E (put_scheme u s).
Proof.
  intros ((A1 & A2 & A3 & A4 & A5 & A6 & A7) & B & C) HS N. unfold scheme_blocked in N.
  apply orb_false_iff in N as [N N4]. apply orb_false_iff in N as [N N3]. apply orb_false_iff in N as [N1 N2].
  assert (SP : special_scheme s = is_special u).
  { unfold is_special, is_not_special in *. destruct (special_scheme s), (special_scheme (scheme u)); auto; discriminate. }
  assert (NF : includes_credentials u = true \/ port_truthy (port u) = true -> s <> $"file").
  { intros K F. rewrite F, str_eqb_refl, andb_true_r in N3. apply orb_false_iff in N3. destruct K; destruct N3; congruence. }
  assert (G : forall p, (p = None \/ (p = port u /\ forall n, p = Some n -> default_port s <> Some n)) -> loose E (set_port p (set_scheme s u))).
  { intros p Hp. assert (SP' : is_special (set_port p (set_scheme s u)) = is_special u) by exact SP. split; [|split].
    - refine (conj HS (conj A2 (conj A3 (conj _ (conj _ (conj _ _)))))); cbn [scheme port uhost set_port set_scheme].
      + unfold wf_host in *. cbn [uhost set_port set_scheme scheme]. rewrite SP'.
        destruct (uhost u) as [h|] eqn:U; [|exact A4]. destruct A4 as [[-> A4]|[A4 A4']].
        * left. split; [reflexivity|]. intros K. specialize (A4 K).
          exfalso. rewrite A4, str_eqb_refl in N4. discriminate.
        * right. split; auto. unfold hostparsed in *. unfold is_special in SP. rewrite SP. exact A4'.
      + change (includes_credentials (set_port p (set_scheme s u))) with (includes_credentials u). intros K.
        assert (K' : includes_credentials u = true \/ port_truthy (port u) = true).
        { destruct K as [K|K]; [now left|right]. destruct Hp as [->|[-> _]]; [discriminate|exact K]. }
        destruct (A5 K') as (h & H1 & H2 & _). exists h. auto.
      + intros n P. destruct Hp as [->|[-> Hp]]; [discriminate|]. split; [now apply A6|now apply Hp].
      + destruct Hp as [->|[-> Hp]]; [congruence|exact A7].
    - unfold loose_path in *. cbn [path set_port set_scheme uhost query fragment]. rewrite SP'. exact B.
    - destruct C as [C1 C2]. split; [|exact C2]. unfold query_set in *. rewrite SP'. exact C1. }
  unfold put_scheme. destruct (port_truthy (port u) && on_eqb (default_port s) (port u)) eqn:K.
  - apply (G None). now left.
  - assert (Q : set_scheme s u = set_port (port u) (set_scheme s u)) by (destruct u; reflexivity). rewrite Q. apply G. right. split; [reflexivity|].
    intros n P D. rewrite P, D in K. cbn [on_eqb port_truthy] in K. rewrite N.eqb_refl, andb_true_r in K. apply negb_false_iff, N.eqb_eq in K. subst n.
    (* no scheme has default port 0 *)
    clear - D. unfold default_port, SPECIAL_SCHEMES in D. cbn [find fst snd] in D.
    repeat (destruct (str_eqb s _); [discriminate|]). discriminate.
Qed.
End Keep.

(* ---------- queries written by search_params ---------- *)
Lemma urlencoded_safe s u : is_pystr s -> qs (query_set u) (utf8_percent_encode s SAFE_URLENCODED true).
Proof.
  intros H. pose proof (utf8_encode_bytes s H) as B. rewrite utf8_percent_encode_eq. unfold qs. rewrite forallb_forall. intros c Hc.
  apply in_flat_map in Hc as (b & Hb & Hc). unfold is_bytes in B. rewrite Forall_forall in B. specialize (B b Hb). cbv beta in B.
  assert (S0 : forall Q, Q = SAFE_QUERY \/ Q = SAFE_SPECIAL_QUERY -> quote_safe Q c = true).
  { intros Q HQ. unfold enc_b in Hc. destruct (true && (b =? 32)).
    - destruct Hc as [<-|[]]. destruct HQ as [->| ->]; reflexivity.
    - destruct (quote_safe SAFE_URLENCODED b) eqn:K.
      + destruct Hc as [<-|[]]. unfold quote_safe in K |- *. apply orb_true_iff in K as [->|K]; [reflexivity|]. apply andb_true_iff in K as [K ->].
        rewrite andb_true_r. apply orb_true_iff. right. apply mem_In in K.
        assert (X : forallb (fun x => mem x SAFE_QUERY && mem x SAFE_SPECIAL_QUERY) SAFE_URLENCODED = true) by (vm_compute; reflexivity).
        rewrite forallb_forall in X. specialize (X b K). apply andb_true_iff in X as [X1 X2]. destruct HQ as [->| ->]; auto.
      + unfold percent_byte in Hc. destruct Hc as [<-|[<-|[<-|[]]]]; [destruct HQ as [->| ->]; reflexivity| |]; apply quote_safe_hex; lia. }
  unfold query_set. destruct (is_special u); apply S0; [right|left]; reflexivity.
Qed.
Lemma urlencode_safe l u : pystr_pairs l -> qs (query_set u) (urlencode l).
Proof.
  intros H. induction H as [|[n v] t [Hn Hv] Ht IH]; [reflexivity|]. rewrite urlencode_cons. cbn [fst snd] in *.
  rewrite !qs_app. repeat split; try (now apply urlencoded_safe).
  - unfold query_set. destruct (is_special u); reflexivity.
  - destruct t; [reflexivity|]. apply (qs_app _ [38]). split; [|exact IH]. unfold query_set. destruct (is_special u); reflexivity.
Qed.

(* ---------- the invariant of all URL objects ---------- *)
Definition api_inv (E : env) (o : urlobj) : Prop :=
  loose (EE E) (o_url o) /\ usv_pairs (o_list o) /\ o_list o = attach_list (o_url o).
Lemma attach_usv E u : loose E u -> usv_pairs (attach_list u).
Proof.
  intros (_ & _ & C & _). apply parse_qsl_ok, utf8_encode_bytes. destruct (query u) as [q|] eqn:Q; [|constructor].
  specialize (C q eq_refl). apply qs_ascii in C. eapply Forall_impl; [|exact C]. cbv beta. intros; lia.
Qed.
Lemma inv_intro E u : loose (EE E) u -> api_inv E (mkobj u (attach_list u)).
Proof. intros H. split; [exact H|]. split; [now apply (attach_usv (EE E))|reflexivity]. Qed.
Lemma inv_same E o u : api_inv E o -> loose (EE E) u -> query u = query (o_url o) -> api_inv E (mkobj u (o_list o)).
Proof. intros (A & B & C) H Q. split; [exact H|split; [exact B|]]. cbn [o_url o_list]. rewrite C. unfold attach_list. now rewrite Q. Qed.
Lemma rstrip_query E u : query (potentially_rstrip E u) = query u.
Proof. unfold potentially_rstrip. destruct (path u), (fragment u), (query u) eqn:Q; cbn [query set_path]; auto. Qed.
Lemma opaque_list u : has_opaque_path u = false -> exists l, path u = PList l.
Proof. unfold has_opaque_path. destruct (path u); [discriminate|eauto]. Qed.
Lemma put_host_query E so u t : query (fst (put_host E so u t)) = query u.
Proof.
  unfold put_host, put_file_host, put_port. destruct (str_eqb (scheme u) _).
  - destruct (fst (span _ t)); [reflexivity|]. destruct (snd (host_parse E _ _)); reflexivity.
  - destruct (host_scan _ false t) as [h r]. destruct (isc (cur r) 58).
    + destruct (length h =? 0)%nat; [reflexivity|]. destruct (is_hostname_override _); [reflexivity|]. destruct (snd (host_parse E _ _)); [|reflexivity].
      destruct (flat_port E _ _); [|reflexivity]. destruct (fst (span _ (tl r))); reflexivity.
    + destruct (_ && is_special u); [reflexivity|]. destruct (_ && _); [reflexivity|]. destruct (snd (host_parse E _ _)); reflexivity.
Qed.
Lemma put_port_query E u t : query (fst (put_port E u t)) = query u.
Proof. unfold put_port. destruct (flat_port E _ _); [|reflexivity]. destruct (fst (span _ t)); reflexivity. Qed.
Lemma put_scheme_query u s : query (put_scheme u s) = query u.
Proof. unfold put_scheme. destruct (_ && _); reflexivity. Qed.
Lemma creds_user E v u : loose E u -> cannot_have_username_password_port u = false -> is_pystr v -> loose E (set_username (utf8_percent_encode v SAFE_USERINFO false) u).
Proof.
  intros H N Hv. replace (set_username (utf8_percent_encode v SAFE_USERINFO false) u) with (set_password (password u) (set_username (utf8_percent_encode v SAFE_USERINFO false) u)) by (destruct u; reflexivity).
  apply keep_creds; [exact H|exact N|apply qs_enc; [exact Hv|reflexivity]|destruct H as ((_ & _ & K & _) & _); exact K].
Qed.
Lemma creds_pass E v u : loose E u -> cannot_have_username_password_port u = false -> is_pystr v -> loose E (set_password (utf8_percent_encode v SAFE_USERINFO false) u).
Proof.
  intros H N Hv. replace (set_password (utf8_percent_encode v SAFE_USERINFO false) u) with (set_password (utf8_percent_encode v SAFE_USERINFO false) (set_username (username u) u)) by (destruct u; reflexivity).
  apply keep_creds; [exact H|exact N|destruct H as ((_ & K & _) & _); exact K|apply qs_enc; [exact Hv|reflexivity]].
Qed.
Lemma set_attr_inv E s o : is_pystr (text_of s) -> api_inv E o -> api_inv E (fst (set_attr E s o)).
Proof.
  intros Hv HI. pose proof HI as (HL & HU & HA). destruct s as [v|v|v|v|v|v|v|v|v|v]; cbn [text_of] in Hv; unfold set_attr; cbv zeta.
  - destruct v as [|c v].
    + cbn [fst]. apply inv_same; auto; [now apply drop_fragment|now rewrite rstrip_query].
    + rewrite reparse_fragment. unfold with_url. cbn [fst snd]. apply inv_same; auto. apply keep_fragment; auto.
      apply qs_enc; [|reflexivity]. now apply remove_tabs_pystr, strip_char_pystr.
  - destruct (has_opaque_path (o_url o)) eqn:O; [exact HI|]. rewrite reparse_host. unfold with_url. cbn [fst].
    apply inv_same; auto; [|now rewrite put_host_query]. apply keep_put_host; auto. now apply remove_tabs_pystr.
  - destruct (has_opaque_path (o_url o)) eqn:O; [exact HI|]. rewrite reparse_hostname. unfold with_url. cbn [fst].
    apply inv_same; auto; [|now rewrite put_host_query]. apply keep_put_host; auto. now apply remove_tabs_pystr.
  - destruct (snd (parse_new (EE E) v None UTF8)) as [u'|e] eqn:P; [|exact HI]. cbn [fst]. apply inv_intro.
    apply (parse_new_loose (EE E) v None UTF8); [apply enc_utf8|exact Hv|exact I|exact P].
  - destruct (cannot_have_username_password_port (o_url o)) eqn:C; [exact HI|]. cbn [fst]. apply inv_same; auto. now apply creds_pass.
  - destruct (has_opaque_path (o_url o)) eqn:O; [exact HI|]. rewrite reparse_path. unfold with_url. cbn [fst].
    apply inv_same; auto. destruct (opaque_list _ O) as [l L]. apply (keep_path _ _ l); auto. now apply remove_tabs_pystr.
  - destruct (cannot_have_username_password_port (o_url o)) eqn:C; [exact HI|]. destruct v as [|c v].
    + cbn [fst]. apply inv_same; auto. now apply no_port.
    + rewrite reparse_port. unfold with_url. cbn [fst]. apply inv_same; auto; [now apply keep_port|now rewrite put_port_query].
  - rewrite reparse_scheme. destruct (scheme_split _) as [[s t]|] eqn:S; [|unfold with_url; cbn [fst]; now apply inv_same].
    destruct (scheme_blocked (o_url o) (lower s)) eqn:B; unfold with_url; cbn [fst]; apply inv_same; auto; [|now rewrite put_scheme_query].
    apply keep_scheme; auto. now apply scheme_split_ok in S.
  - destruct v as [|c v].
    + cbn [fst]. apply inv_intro. now apply drop_query.
    + rewrite reparse_query. cbn [fst]. apply inv_intro. apply keep_query; auto. apply query_set_qs. now apply remove_tabs_pystr, strip_char_pystr.
  - destruct (cannot_have_username_password_port (o_url o)) eqn:C; [exact HI|]. cbn [fst]. apply inv_same; auto. now apply creds_user.
Qed.
Lemma params_inv E op o : op_ok op -> api_inv E o -> api_inv E (params_op E op o).
Proof.
  intros Ho (HL & HU & HA). unfold params_op. cbv zeta. pose proof (usv_apply op (o_list o) Ho HU) as U. set (l := sp_apply op (o_list o)) in *.
  unfold params_update. destruct (sp_str l) as [|c t] eqn:S.
  - pose proof (sp_str_nil l S) as L. rewrite L. split; [now apply drop_query|]. split; [constructor|]. cbn [o_url o_list].
    unfold attach_list. rewrite rstrip_query. reflexivity.
  - rewrite <- S. split; [|split; [exact U|]].
    + cbn [o_url]. apply keep_query; auto. now apply urlencode_safe, usv_pystr.
    + cbn [o_url o_list]. unfold attach_list. cbn [query set_query]. now rewrite qsl_str_id.
Qed.
Lemma url_new_inv E s base o : is_pystr s -> match base with BNone => True | BStr b => is_pystr b | BRec b => loose (EE E) b end ->
  url_new E s base = Ok o -> api_inv E o.
Proof.
  intros Hs HB H. unfold url_new in H. destruct (snd (parse_url (EE E) s base UTF8)) as [u|e] eqn:P; [|discriminate]. injection H as <-.
  apply inv_intro. destruct base as [|b|b].
  - rewrite parse_url_none in P. apply (parse_new_loose (EE E) s None UTF8); [apply enc_utf8|exact Hs|exact I|exact P].
  - rewrite parse_url_str in P. destruct (snd (parse_new (EE E) b None UTF8)) as [v|e] eqn:Q; [|discriminate].
    apply (parse_new_loose (EE E) s (Some v) UTF8); [apply enc_utf8|exact Hs| |exact P]. cbn. apply (parse_new_loose (EE E) b None UTF8); [apply enc_utf8|exact HB|exact I|exact Q].
  - rewrite parse_url_rec in P. apply (parse_new_loose (EE E) s (Some b) UTF8); [apply enc_utf8|exact Hs|exact HB|exact P].
Qed.
Lemma reached_inv E o : reached E o -> api_inv E o.
Proof.
  induction 1 as [s o Hs H|s b o Hs Hb H|s b o Hs Hb IH H|c o Hc Ho IH].
  - exact (url_new_inv E s BNone o Hs I H).
  - exact (url_new_inv E s (BStr b) o Hs Hb H).
  - apply (url_new_inv E s (BRec (o_url b)) o Hs); auto. apply IH.
  - destruct c as [s|op]; cbn [do_call]; [now apply set_attr_inv|now apply params_inv].
Qed.
