(** When assigning a component its own value changes nothing, exactly (C82). *)
From Coq Require Import Ascii String.
From Coq Require Import NArith ZArith Bool Arith Lia ZifyBool ZifyN ZifyNat List.
From Verif Require Import PyStr PyInt Codec Env HostModel UrlRecord Parser SearchParams UrlApi SpecText SpecHost FlatParser.
From Verif Require Import Lemmas CodecProofs QuoteProofs PyIntProofs LegacyProofs IPv4Proofs HostProofs LoopProofs FlatProofs WfProofs RoundTrip LooseProofs SetterProofs ParserProofs PathProofs UrlProps ParamProofs ApiProofs ObjProofs ValidityProofs GetSet SetterLaws HostStandard WritingStandard.
From Verif Require Import SpecApi SpecUrl SpecWriting.
Import ListNotations.
Open Scope N_scope.

Section Exact.
Context (E : env) (o : urlobj) (HR : reached E o).
Notation u := (o_url o).

Lemma hash_exact : set_attr E (SetHash (get_hash o)) o = (o, Ok tt) <-> fragment u <> Some [].
Proof.
  split; [|now apply gs_hash]. intros H F. rewrite (gs_hash_empty E o F) in H. injection H as H.
  assert (K : fragment (potentially_rstrip E (set_fragment None u)) = None).
  { unfold potentially_rstrip. destruct (path (set_fragment None u)); [|reflexivity]. cbn [fragment set_fragment]. destruct (query (set_fragment None u)); reflexivity. }
  assert (G : o_url (mkobj (potentially_rstrip E (set_fragment None u)) (o_list o)) = u) by now rewrite H. cbn [o_url] in G. congruence.
Qed.
Lemma search_exact : set_attr E (SetSearch (get_search o)) o = (o, Ok tt) <-> query u <> Some [].
Proof.
  split; [|now apply gs_search]. intros H F. rewrite (gs_search_empty E o F) in H. injection H as H.
  assert (G : o_url (mkobj (potentially_rstrip E (set_query None u)) []) = u) by now rewrite H. cbn [o_url] in G.
  pose proof (rstrip_query E (set_query None u)) as K. rewrite G, F in K. discriminate.
Qed.
Lemma pathname_exact : set_attr E (SetPathname (get_pathname o)) o = (o, Ok tt) <->
  (scheme u = $"file" -> forall c d l, path u = PList ([c; d] :: l) -> std_alpha c = true -> d <> 124).
Proof.
  split; [|now apply gs_pathname]. intros H F c d l P Hc ->. cbn [set_attr] in H. cbv zeta in H. unfold has_opaque_path in H. rewrite P in H.
  rewrite reparse_path in H. injection H as H.
  assert (G : path (o_url (fst (with_url o (set_path (PList (put_path u (remove_tabs (get_pathname o)))) u, Ok tt)))) = path u) by (unfold with_url; cbn [fst]; now rewrite H).
  cbn [with_url fst o_url path set_path] in G. rewrite P in G. injection G as G.
  assert (S : is_special u = true) by (unfold is_special; rewrite F; reflexivity). unfold put_path in G. rewrite S in G.
  match type of G with walk _ _ (pieces true ?t) = _ => set (x := t) in G end.
  assert (Hx : is_pystr x).
  { assert (K : is_pystr (remove_tabs (get_pathname o))).
    { destruct (gs_loose E o HR) as (_ & B & _). unfold loose_path in B. rewrite P in B. destruct B as [B _].
      unfold get_pathname, serialize_path. rewrite P, segs_join by discriminate. apply Forall_forall. intros y Hy. apply filter_In in Hy as [Hy _].
      destruct Hy as [<-|Hy]; [discriminate|]. apply join_chars in Hy as [->|(z & Hz & Hy)]; [discriminate|].
      rewrite Forall_forall in B. destruct (B z Hz) as (A & _). apply (qs_range SAFE_PATH z y) in A; [lia|vm_compute; reflexivity|exact Hy]. }
    unfold x. destruct (remove_tabs (get_pathname o)) as [|y t]; [exact K|]. destruct (is_slash y); [now apply (pystr_app [y] t)|exact K]. }
  destruct (walk_ok (scheme u) true (pieces true x) (pieces_nonempty _ _) (pieces_ok _ _ Hx) [] (Forall_nil _) (fun _ => I)) as (_ & W & _).
  rewrite G in W. specialize (W F). cbv iota in W. unfold is_normalized_windows_drive_letter in W. assert (D : is_windows_drive_letter [c; 124] = true) by (unfold is_windows_drive_letter; now rewrite alpha_class_inv).
  specialize (W D). rewrite D in W. discriminate.
Qed.

(** writing a host over any other *)
Lemma over_host h st : st = HOST \/ st = HOSTNAME -> host_rt (EE E) (scheme u) h ->
  put_host (EE E) st u (host_serialize h) = (set_host (Some h) u, Ok tt).
Proof.
  intros Hst R. assert (HN := rt_nonempty _ _ _ R). unfold put_host. destruct (str_eqb (scheme u) $"file") eqn:F.
  - apply str_eqb_eq in F. unfold put_file_host. replace (host_serialize h) with (host_serialize h ++ []) by apply app_nil_r. rewrite span_app; [|apply Forall_forall|exact I].
    + cbn [fst]. pose proof (rt_parse _ _ _ R) as P. destruct (host_serialize h) as [|x t]; [contradiction|].
      unfold is_not_special. rewrite P, (rt_local _ _ _ R F). reflexivity.
    + intros c Hc. rewrite ?app_nil_r in Hc. apply (rt_char _ _ _ R) in Hc as [_ Hc]. change ($"/\?#") with [47; 92; 63; 35]. change ($"/\?#@") with [47; 92; 63; 35; 64] in Hc.
      cbn [mem existsb] in *. lia.
  - pose proof (host_scan_rt E o h [] R (or_introl eq_refl)) as S1. rewrite app_nil_r in S1. rewrite S1. cbn [cur isc].
    replace (length (host_serialize h) =? 0)%nat with false by (symmetry; destruct (host_serialize h); [contradiction|reflexivity]). cbn [andb].
    unfold is_not_special. now rewrite (rt_parse _ _ _ R).
Qed.
Lemma over_host_port h p : limit_ok E -> host_rt (EE E) (scheme u) h -> port u = Some p -> scheme u <> $"file" ->
  put_host (EE E) HOST u (host_serialize h ++ 58 :: dec_str p) = (set_port (Some p) (set_host (Some h) u), Ok tt).
Proof.
  intros HL R HP F. assert (HN := rt_nonempty _ _ _ R). unfold put_host. replace (str_eqb (scheme u) $"file") with false by (symmetry; now apply str_eqb_neq).
  rewrite (host_scan_rt E o h (58 :: dec_str p) R) by (right; eexists; split; [reflexivity|apply dec_digits]). cbn [cur isc tl]. change (58 =? 58) with true. cbv iota.
  replace (length (host_serialize h) =? 0)%nat with false by (symmetry; destruct (host_serialize h); [contradiction|reflexivity]). cbn [is_hostname_override].
  unfold is_not_special. rewrite (rt_parse _ _ _ R). exact (put_port_same E o HR (set_host (Some h) u) p HL eq_refl HP).
Qed.
Lemma v4_rt n : limit_ok E -> idna_ok E -> uhost u = Some (HIPv4 n) -> host_rt (EE E) (scheme u) (HIPv4 (n mod 4294967296)).
Proof.
  intros HL HI U. assert (HI' : idna_ok (EE E)) by now apply idna_validity. destruct (gs_loose E o HR) as ((_ & _ & _ & W & _) & _).
  unfold wf_host in W. rewrite U in W. destruct W as [[W _]|[_ (h0 & _ & Hn & H)]]; [discriminate|].
  assert (M : n mod 4294967296 < 4294967296) by (apply N.mod_lt; discriminate).
  assert (SP : negb (special_scheme (scheme u)) = false).
  { rewrite host_parse_eq in H by auto. destruct (negb (special_scheme (scheme u))); [|reflexivity]. destruct (starts_with [91] h0).
    - destruct (ends_with_char h0 93); [|discriminate]. destruct (snd (ipv6_parse _ _)); discriminate.
    - destruct (snd (parse_opaque_host h0)); discriminate. }
  apply hostval_rt; auto; [|discriminate|intros m [= <-]; exact M].
  split; [|discriminate]. exists (ipv4_serialize (n mod 4294967296)). split; [apply ascii_pystr, ipv4_ascii|split; [apply ipv4_nonempty|]].
  rewrite SP. apply (reparse_ipv4 (EE E)); auto.
Qed.
Lemma file_host_local t v : put_file_host (EE E) u t = (v, Ok tt) -> uhost v <> Some (HStr $"localhost").
Proof.
  unfold put_file_host. destruct (fst (span _ t)) as [|c h]; [intros [= <-]; discriminate|]. destruct (snd (host_parse _ _ _)) as [x|e]; [|discriminate].
  intros [= <-]. cbn [uhost set_host]. unfold no_localhost. destruct x as [s| |]; try discriminate. destruct (str_eqb s $"localhost") eqn:Q; [discriminate|].
  intros [= ->]. discriminate.
Qed.
Lemma host_chars h c : limit_ok E -> idna_ok E -> uhost u = Some h -> h <> HStr [] -> In c (host_serialize h) -> 32 < c <= 126 /\ mem c $"/\?#@" = false.
Proof.
  intros HL HI U N Hc. destruct (gs_loose E o HR) as ((_ & _ & _ & W & _) & _). unfold wf_host in W. rewrite U in W. destruct W as [[W _]|[_ W]]; [contradiction|].
  assert (G : exists h', host_serialize h' = host_serialize h /\ host_rt (EE E) $"http" h' \/ host_serialize h' = host_serialize h /\ host_rt (EE E) (scheme u) h').
  { destruct h as [s|n|a].
    - exists (HStr s). destruct (list_eq_dec N.eq_dec (scheme u) $"file") as [F|F]; [left|right]; (split; [reflexivity|]); (apply hostval_rt; [exact HL|now apply idna_validity| |exact N|discriminate]); split.
      + unfold hostparsed in W. rewrite F in W. exact W.
      + discriminate.
      + exact W.
      + intros K. congruence.
    - exists (HIPv4 (n mod 4294967296)). right. split; [cbn [host_serialize]; now rewrite <- ipv4_serialize_mod|now apply v4_rt].
    - exists (HIPv6 a). right. split; [reflexivity|]. apply hostval_rt; [exact HL|now apply idna_validity| |exact N|discriminate]. split; [exact W|discriminate]. }
  destruct G as (h' & [[Q R]|[Q R]]); rewrite <- Q in Hc; now apply (rt_char _ _ _ R).
Qed.

Definition host_kept : Prop :=
  uhost u <> None /\ url_v4_ok u /\ (scheme u = $"file" -> uhost u <> Some (HStr $"localhost")).
Lemma hostname_exact : limit_ok E -> idna_ok E ->
  (set_attr E (SetHostname (get_hostname o)) o = (o, Ok tt) <-> has_opaque_path u = true \/ host_kept).
Proof.
  intros HL HI. split.
  - intros H. destruct (has_opaque_path u) eqn:O; [now left|right].
    assert (UN : uhost u <> None).
    { intros U. rewrite (gs_no_host E o HR SetHostname _ (or_intror eq_refl)) in H; auto; [|unfold get_hostname, serialize_host; now rewrite U].
      injection H as H. assert (G : uhost (o_url (mkobj (set_host (Some (HStr [])) u) (o_list o))) = uhost u) by now rewrite H. cbn [o_url uhost set_host] in G. congruence. }
    cbn [set_attr] in H. cbv zeta in H. rewrite O, reparse_hostname in H. unfold with_url in H. unfold get_hostname, serialize_host in H.
    destruct (uhost u) as [h|] eqn:U; [|congruence].
    destruct (put_host (EE E) HOSTNAME u (remove_tabs (host_serialize h))) as [v r] eqn:P. cbn [fst snd] in H. injection H as H ->.
    assert (V : v = u) by (assert (G : o_url (mkobj v (o_list o)) = u) by (now rewrite H); exact G). subst v. clear H.
    unfold host_kept. rewrite U. split; [discriminate|]. split.
    + intros n Q. rewrite U in Q. injection Q as ->. pose proof (v4_rt n HL HI U) as R.
      rewrite visible_tabs in P by (intros c Hc; apply (host_chars (HIPv4 n)) in Hc; [lia|auto..|discriminate]).
      replace (host_serialize (HIPv4 n)) with (host_serialize (HIPv4 (n mod 4294967296))) in P by (cbn [host_serialize]; now rewrite <- ipv4_serialize_mod).
      rewrite (over_host _ HOSTNAME (or_intror eq_refl) R) in P. injection P as P. assert (G : uhost (set_host (Some (HIPv4 (n mod 4294967296))) u) = uhost u) by now rewrite P.
      cbn [uhost set_host] in G. rewrite U in G. injection G as G. rewrite <- G. apply N.mod_lt. discriminate.
    + intros F. unfold put_host in P. rewrite F, str_eqb_refl in P. apply file_host_local in P. congruence.
  - intros [O|(A & B & C)]; [cbn [set_attr]; cbv zeta; now rewrite O|]. apply gs_hostname; auto.
Qed.

(** a port after the host of a file URL *)
Lemma colon_refused t : keeps_forbidden (code_to_ascii E) -> Forall (fun c => 32 < c <= 126) t -> (forall x, t = 91 :: x -> exists y, t = y ++ [48]) -> In 58 t ->
  exists e, snd (host_parse (EE E) t false) = Err e.
Proof.
  intros K HA HB HC. assert (HN : t <> []) by (intros ->; destruct HC). rewrite host_parse_eq by exact HN.
  destruct (starts_with [91] t) eqn:S.
  - destruct t as [|c t]; [congruence|]. cbn [starts_with] in S. rewrite andb_true_r in S. apply N.eqb_eq in S. subst c.
    destruct (HB t eq_refl) as [y Y]. rewrite Y. unfold ends_with_char. rewrite rev_app_distr. cbn [rev app]. change (48 =? 93) with false. cbv iota. eauto.
  - assert (PS : is_pystr t) by (eapply Forall_impl; [|exact HA]; cbv beta; intros; lia).
    assert (I : In 58 (utf8_decode (string_percent_decode t))).
    { rewrite utf8_decode_spec, string_percent_decode_spec by exact PS. unfold std_utf8_decode. apply run_keeps; [|lia|now left]. apply percent_keeps; [|discriminate|reflexivity].
      apply encode_keeps; [|lia]. rewrite svs_id; [exact HC|]. eapply Forall_impl; [|exact HA]. cbv beta. intros c Hc. unfold is_surrogate. lia. }
    destruct (snd (domain_to_ascii (EE E) false (utf8_decode (string_percent_decode t)))) as [d|e] eqn:D; [|eauto].
    assert (T : code_to_ascii E (utf8_decode (string_percent_decode t)) = Some d) by (unfold code_to_ascii; change (domain_to_ascii E) with (domain_to_ascii (EE E)); now rewrite D).
    rewrite (K _ _ 58 T I) by reflexivity. eauto.
Qed.
Lemma host_exact : limit_ok E -> idna_ok E -> keeps_forbidden (code_to_ascii E) ->
  (set_attr E (SetHost (get_host o)) o = (o, Ok tt) <->
   has_opaque_path u = true \/ (host_kept /\ (port u = Some 0 -> uhost u <> Some (HStr []) /\ scheme u <> $"file"))).
Proof.
  intros HL HI KF. split.
  - intros H. destruct (has_opaque_path u) eqn:O; [now left|right].
    assert (UN : uhost u <> None).
    { intros U. rewrite (gs_no_host E o HR SetHost _ (or_introl eq_refl)) in H; auto; [|unfold get_host; now rewrite U].
      injection H as H. assert (G : uhost (o_url (mkobj (set_host (Some (HStr [])) u) (o_list o))) = uhost u) by now rewrite H. cbn [o_url uhost set_host] in G. congruence. }
    cbn [set_attr] in H. cbv zeta in H. rewrite O, reparse_host in H. unfold with_url in H. unfold get_host in H.
    destruct (uhost u) as [h|] eqn:U; [|congruence].
    match type of H with context [put_host ?a ?b ?c ?d] => destruct (put_host a b c d) as [v r] eqn:P end. cbn [fst snd] in H. injection H as H ->.
    assert (V : v = u) by (assert (G : o_url (mkobj v (o_list o)) = u) by (now rewrite H); exact G). subst v. clear H.
    assert (TC : forall c, In c (host_serialize h ++ match port u with Some p => $":" ++ dec_str p | None => [] end) -> 32 < c <= 126 /\ mem c $"/\?#@" = false).
    { intros c Hc. apply in_app_iff in Hc as [Hc|Hc].
      - destruct (host_eq_dec h) as [->|N]; [destruct Hc|]. now apply (host_chars h).
      - destruct (port u) as [p|]; [|destruct Hc]. change ($":" ++ dec_str p) with (58 :: dec_str p) in Hc. destruct Hc as [<-|Hc]; [split; [lia|reflexivity]|]. apply dec_digits in Hc. split; [lia|].
        change ($"/\?#@") with [47; 92; 63; 35; 64]. cbn [mem existsb]. lia. }
    rewrite visible_tabs in P by (intros c Hc; apply TC in Hc; lia).
    assert (FP : scheme u = $"file" -> port u = None).
    { intros F. destruct (port u) as [p|] eqn:Q; [exfalso|reflexivity].
      assert (p = 0). { destruct (N.eq_dec p 0) as [Z|NZ]; [exact Z|]. destruct (gs_loose E o HR) as ((_ & _ & _ & _ & L & _) & _). destruct (L (or_intror (truthy_nz _ _ Q NZ))) as (x & _ & _ & Y). congruence. }
      subst p. change (dec_str 0) with [48] in *. change ($":" ++ [48]) with [58; 48] in *. unfold put_host in P. rewrite F, str_eqb_refl in P. unfold put_file_host in P.
      replace (host_serialize h ++ [58; 48]) with ((host_serialize h ++ [58; 48]) ++ []) in P by apply app_nil_r. rewrite span_app in P; [|apply Forall_forall|exact I].
      2:{ intros c Hc. apply TC in Hc as [_ Hc]. change ($"/\?#") with [47; 92; 63; 35]. change ($"/\?#@") with [47; 92; 63; 35; 64] in Hc. cbn [mem existsb] in *. lia. }
      cbn [fst] in P. assert (NS : is_not_special u = false) by (unfold is_not_special; rewrite F; reflexivity). rewrite NS in P.
      destruct (colon_refused (host_serialize h ++ [58; 48]) KF) as [e X].
      - apply Forall_forall. intros c Hc. now apply TC in Hc.
      - intros x _. exists (host_serialize h ++ [58]). now rewrite <- app_assoc.
      - apply in_app_iff. right. now left.
      - destruct (host_serialize h ++ [58; 48]) as [|c t] eqn:T; [destruct (host_serialize h); discriminate|]. rewrite X in P. discriminate. }
    split; [|intros P0; split; [|intros F; rewrite (FP F) in P0; discriminate]].
    + unfold host_kept. rewrite U. split; [discriminate|]. split.
      * intros n Q. rewrite U in Q. injection Q as ->. pose proof (v4_rt n HL HI U) as R.
        replace (host_serialize (HIPv4 n)) with (host_serialize (HIPv4 (n mod 4294967296))) in P by (cbn [host_serialize]; now rewrite <- ipv4_serialize_mod).
        assert (G : uhost u = Some (HIPv4 (n mod 4294967296))).
        { destruct (port u) as [p|] eqn:Q.
          - change ($":" ++ dec_str p) with (58 :: dec_str p) in P. rewrite over_host_port in P; auto; [|intros F; discriminate (FP F)].
            injection P as P. rewrite <- P. reflexivity.
          - rewrite app_nil_r in P. rewrite (over_host _ HOST (or_introl eq_refl) R) in P. injection P as P. rewrite <- P. reflexivity. }
        rewrite U in G. injection G as G. rewrite G. apply N.mod_lt. discriminate.
      * intros F. unfold put_host in P. rewrite F, str_eqb_refl in P. apply file_host_local in P. congruence.
    + intros [= ->]. rewrite P0 in P. change (dec_str 0) with [48] in P. cbn [host_serialize app] in P. change ($":" ++ [48]) with [58; 48] in P. unfold put_host in P.
      destruct (str_eqb (scheme u) $"file") eqn:F; [apply str_eqb_eq in F; rewrite (FP F) in P0; discriminate|].
      replace (host_scan (is_special u) false [58; 48]) with (@nil N, [58; 48]) in P by (destruct (is_special u); reflexivity). discriminate P.
  - intros [O|[(A & B & C) D]]; [cbn [set_attr]; cbv zeta; now rewrite O|]. apply gs_host; auto. intros P0. destruct (D P0) as [D1 D2].
    destruct (uhost u) as [h|]; [|congruence]. exists h. repeat split; auto. congruence.
Qed.
End Exact.

Lemma get_set_exact E o : reached E o ->
  (set_attr E (SetHash (get_hash o)) o = (o, Ok tt) <-> fragment (o_url o) <> Some []) /\
  (set_attr E (SetSearch (get_search o)) o = (o, Ok tt) <-> query (o_url o) <> Some []) /\
  (set_attr E (SetPathname (get_pathname o)) o = (o, Ok tt) <->
   (scheme (o_url o) = $"file" -> forall c d l, path (o_url o) = PList ([c; d] :: l) -> std_alpha c = true -> d <> 124)) /\
  (limit_ok E -> idna_ok E ->
   let kept := uhost (o_url o) <> None /\ url_v4_ok (o_url o) /\ (scheme (o_url o) = $"file" -> uhost (o_url o) <> Some (HStr $"localhost")) in
   (set_attr E (SetHostname (get_hostname o)) o = (o, Ok tt) <-> std_opaque (o_url o) \/ kept) /\
   (keeps_forbidden (code_to_ascii E) ->
    (set_attr E (SetHost (get_host o)) o = (o, Ok tt) <->
     std_opaque (o_url o) \/ kept /\ (port (o_url o) = Some 0 -> uhost (o_url o) <> Some (HStr []) /\ scheme (o_url o) <> $"file")))).
Proof.
  intros HR. split; [now apply hash_exact|]. split; [now apply search_exact|]. split; [now apply pathname_exact|]. intros HL HI kept.
  assert (O : has_opaque_path (o_url o) = true <-> std_opaque (o_url o)).
  { unfold has_opaque_path, std_opaque. destruct (path (o_url o)) as [s|l]; split; intros H; try discriminate; [now exists s|reflexivity|now destruct H]. }
  split; [rewrite <- O; now apply hostname_exact|]. intros K. rewrite <- O. now apply host_exact.
Qed.

(* ---------- the last assignment wins, exactly (C83) ---------- *)
Lemma rstrip_space E s : qs SAFE_C0_CONTROL s -> (rstrip_by (is_py_space E) s = s <-> forall p, s <> p ++ [32]).
Proof.
  intros Q. split.
  - intros H p ->. unfold rstrip_by in H. rewrite rev_app_distr in H. cbn [rev app drop_while] in H.
    rewrite py_space_c0 in H by lia. change (32 =? 32) with true in H. cbv iota in H.
    assert (L : (length (rev (drop_while (is_py_space E) (rev p))) <= length p)%nat).
    { rewrite rev_length, <- (rev_length p). generalize (rev p). intros l. induction l as [|c t IH]; [reflexivity|]. cbn [drop_while]. destruct (is_py_space E c); cbn [length]; lia. }
    rewrite H, app_length in L. cbn [length] in L. lia.
  - intros H. apply rstrip_tidy; [exact Q|]. intros a c ->. assert (32 <= c) by (apply (c0_safe_char (a ++ [c])); [exact Q|apply in_or_app; right; now left]).
    assert (c <> 32) by (intros ->; now apply (H a)). lia.
Qed.
Lemma hash_wins_exact E o v w : reached E o ->
  (set_attr E (SetHash w) (fst (set_attr E (SetHash v) o)) = set_attr E (SetHash w) o <->
   ~ (v = [] /\ w <> [] /\ query (o_url o) = None /\ exists p, path (o_url o) = POpaque (p ++ [32]))).
Proof.
  intros HR. destruct (gs_loose E o HR) as (_ & B & _). unfold loose_path in B. split.
  - intros H (-> & W & Q & p & P). rewrite !hash_shape in H. rewrite P in B. destruct B as (_ & _ & B & _).
    destruct o as [[a b c d e f g h] l]. cbn [o_url path query fst o_list] in *. subst f g.
    destruct w as [|x w]; [congruence|]. unfold hash_value, write_fragment, potentially_rstrip in H. cbn [set_fragment path fragment query set_path] in H. injection H as H.
    exact (proj1 (rstrip_space E (p ++ [32]) B) H p eq_refl).
  - intros N. destruct (list_eq_dec N.eq_dec v []) as [->|V]; [|now apply hash_wins; auto]. destruct (list_eq_dec N.eq_dec w []) as [->|W]; [now apply hash_wins; auto|].
    destruct (has_opaque_path (o_url o)) eqn:O; [|now apply hash_wins; auto]. unfold has_opaque_path in O. rewrite !hash_shape.
    destruct o as [[a b c d e f g h] l]. cbn [o_url path query fst o_list] in *. destruct f as [s|]; [|discriminate]. destruct B as (_ & _ & B & _).
    destruct w as [|x w]; [congruence|]. unfold hash_value, write_fragment, potentially_rstrip. cbn [set_fragment path fragment query set_path]. destruct g; [reflexivity|].
    replace (rstrip_by (is_py_space E) s) with s; [reflexivity|]. symmetry. apply rstrip_space; [exact B|]. intros p ->. apply N. repeat split; auto. now exists p.
Qed.
Lemma search_wins_exact E o v w : reached E o ->
  (set_attr E (SetSearch w) (fst (set_attr E (SetSearch v) o)) = set_attr E (SetSearch w) o <->
   ~ (v = [] /\ w <> [] /\ fragment (o_url o) = None /\ exists p, path (o_url o) = POpaque (p ++ [32]))).
Proof.
  intros HR. destruct (gs_loose E o HR) as (_ & B & _). unfold loose_path in B. split.
  - intros H (-> & W & Q & p & P). rewrite !search_shape in H. rewrite P in B. destruct B as (_ & _ & B & _).
    destruct o as [[a b c d e f g h] l]. cbn [o_url path fragment fst o_list] in *. subst f h.
    destruct w as [|x w]; [congruence|]. unfold search_value, write_query, potentially_rstrip in H. cbn [set_query path fragment query set_path] in H. injection H as H.
    exact (proj1 (rstrip_space E (p ++ [32]) B) H p eq_refl).
  - intros N. destruct (list_eq_dec N.eq_dec v []) as [->|V]; [|now apply search_wins; auto]. destruct (list_eq_dec N.eq_dec w []) as [->|W]; [now apply search_wins; auto|].
    destruct (has_opaque_path (o_url o)) eqn:O; [|now apply search_wins; auto]. unfold has_opaque_path in O. rewrite !search_shape.
    destruct o as [[a b c d e f g h] l]. cbn [o_url path fragment fst o_list] in *. destruct f as [s|]; [|discriminate]. destruct B as (_ & _ & B & _).
    destruct w as [|x w]; [congruence|]. unfold search_value, write_query, potentially_rstrip. cbn [set_query path fragment query set_path]. destruct h; [reflexivity|].
    replace (rstrip_by (is_py_space E) s) with s; [reflexivity|]. symmetry. apply rstrip_space; [exact B|]. intros p ->. apply N. repeat split; auto. now exists p.
Qed.
