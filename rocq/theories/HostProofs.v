(** Lemmas about hosts. *)
From Coq Require Import Ascii String.
From Coq Require Import NArith ZArith Bool Arith Lia ZifyBool ZifyN ZifyNat List.
From Verif Require Import PyStr PyInt Codec Env HostModel UrlRecord Parser Schemes Validators SpecText SpecHost.
From Verif Require Import Lemmas CodecProofs QuoteProofs PyIntProofs IPv4Proofs IPv6Proofs.
Import ListNotations.
Open Scope N_scope.

(* ---------- characters of percent-encoded text ---------- *)
Lemma svs_In_ascii s x : x < 128 -> In x (scalar_value_string s) -> In x s.
Proof.
  enough (G : forall n s, (length s <= n)%nat -> x < 128 -> In x (scalar_value_string s) -> In x s)
    by (intros; eapply G; eauto).
  clear s. induction n as [|n IH]; intros s Hn Hx H.
  - destruct s; [destruct H|cbn in Hn; lia].
  - destruct s as [|c [|d t]]; [destruct H| |].
    + cbn in H. destruct H as [H|[]]. destruct (leading c || trailing c); [lia|]. now left.
    + rewrite svs_cons2 in H. destruct (leading c && trailing d) eqn:L.
      * destruct H as [H|H]; [lia|]. right. right. apply IH; auto. cbn in Hn. lia.
      * destruct H as [H|H].
        -- destruct (leading c || trailing c); [lia|]. now left.
        -- right. apply IH; auto. cbn in Hn |- *. lia.
Qed.
Lemma std_enc1_ascii c x : c <= 1114111 -> In x (std_utf8_encode1 c) -> x < 128 -> x = c.
Proof.
  intros Hc H Hx. unfold std_utf8_encode1 in H. destruct (c <=? 127) eqn:A.
  - destruct H as [H|[]]. auto.
  - exfalso. assert (T : forall y, 128 <= N.lor 128 y).
    { intros y. destruct (N.lt_ge_cases (N.lor 128 y) 128) as [L|L]; auto. exfalso.
      assert (N.testbit (N.lor 128 y) 7 = true) by (rewrite N.lor_spec; reflexivity).
      assert (N.testbit (N.lor 128 y) 7 = false).
      { rewrite N.testbit_false. rewrite N.div_small by exact L. reflexivity. }
      congruence. }
    destruct (c <=? 2047); [|destruct (c <=? 65535)];
      repeat (cbn [N.leb N.compare Pos.compare Pos.compare_cont app In] in H;
              destruct H as [H|H]; [try (match type of H with N.lor 128 ?y = _ => pose proof (T y) end); lia|]);
      try (destruct H).
Qed.
Lemma utf8_ascii_byte s x : is_pystr s -> In x (utf8_encode s) -> x < 128 -> In x s.
Proof.
  intros Hs H Hx. rewrite utf8_encode_spec in H by auto. unfold std_utf8_encode in H.
  apply in_flat_map in H as (c & Hc & H).
  assert (c <= 1114111). { pose proof (svs_le s Hs) as F. unfold is_pystr in F. rewrite Forall_forall in F. now apply F. }
  apply std_enc1_ascii in H; auto. subst. now apply svs_In_ascii.
Qed.
Lemma hex_upper_range d : d < 16 -> upper_hex (hex_upper d).
Proof. unfold upper_hex, hex_upper. intros H. destruct (d <? 10) eqn:Q; lia. Qed.
Lemma encode_chars s safe x : is_pystr s -> In x (utf8_percent_encode s safe false) ->
  (In x s /\ kept safe x) \/ x = 37 \/ upper_hex x.
Proof.
  intros Hs H. rewrite utf8_percent_encode_eq in H. apply in_flat_map in H as (b & Hb & H).
  unfold enc_b in H. cbn [andb] in H. destruct (quote_safe safe b) eqn:Q.
  - destruct H as [<-|[]]. left. pose proof (quote_safe_ascii _ _ Q). split; [now apply utf8_ascii_byte|].
    now apply quote_safe_kept.
  - right. pose proof (utf8_encode_bytes s Hs) as F. unfold is_bytes in F. rewrite Forall_forall in F.
    specialize (F b Hb). cbv beta in F. unfold percent_byte in H.
    destruct H as [<-|[<-|[<-|[]]]]; [now left| |]; right; apply hex_upper_range.
    + apply N.div_lt_upper_bound; lia.
    + apply N.mod_lt. lia.
Qed.
Lemma encode_nonempty s safe : is_pystr s -> s <> [] -> utf8_percent_encode s safe false <> [].
Proof.
  intros Hs Hn. rewrite utf8_percent_encode_eq, utf8_encode_spec by auto.
  destruct s as [|c t]; [congruence|].
  assert (N : std_utf8_encode (scalar_value_string (c :: t)) <> []).
  { assert (E1 : forall x, std_utf8_encode1 x <> []).
    { intros x. unfold std_utf8_encode1. destruct (x <=? 127); [discriminate|]. destruct (x <=? 2047); [discriminate|]. destruct (x <=? 65535); discriminate. }
    assert (S : exists y r, scalar_value_string (c :: t) = y :: r).
    { destruct t as [|d t]; [cbn; eauto|]. rewrite svs_cons2. destruct (leading c && trailing d); eauto. }
    destruct S as (y & r & ->). unfold std_utf8_encode. cbn [flat_map]. intros H. apply app_eq_nil in H as [H _].
    now apply E1 in H. }
  destruct (std_utf8_encode (scalar_value_string (c :: t))) as [|b bs]; [congruence|].
  cbn [flat_map]. unfold enc_b at 1. cbn [andb]. destruct (quote_safe safe b); discriminate.
Qed.

(* ---------- forbidden code points ---------- *)
Lemma forbidden_host_eq c : mem c FORBIDDEN_HOST_CODE_POINT = std_forbidden_host c.
Proof.
  unfold std_forbidden_host, one_of, mem. change FORBIDDEN_HOST_CODE_POINT with
    [0; 9; 10; 13; 32; 35; 47; 58; 60; 62; 63; 64; 91; 92; 93; 94; 124].
  reflexivity.
Qed.
Lemma forbidden_domain_eq c : mem c FORBIDDEN_DOMAIN_CODE_POINT = std_forbidden_domain c.
Proof.
  unfold FORBIDDEN_DOMAIN_CODE_POINT, std_forbidden_domain. rewrite !mem_app, forbidden_host_eq.
  rewrite <- !orb_assoc. f_equal. 
  assert (C : mem c C0_CONTROL = (c <=? 31)).
  { destruct (mem c C0_CONTROL) eqn:M.
    - apply mem_In in M. cbn in M. lia.
    - apply mem_not_In in M. destruct (c <=? 31) eqn:L; auto. exfalso. apply M. cbn. lia. }
  rewrite C. f_equal. unfold mem. cbn [existsb]. now rewrite orb_false_r.
Qed.

(* ---------- the parts of host_parse ---------- *)
Lemma opaque_ok h s : snd (parse_opaque_host h) = Ok s ->
  s = utf8_percent_encode h SAFE_C0_CONTROL false /\ (forall c, In c h -> std_forbidden_host c = false).
Proof.
  unfold parse_opaque_host. destruct (existsb (fun c => mem c FORBIDDEN_HOST_CODE_POINT) h) eqn:X; [discriminate|].
  rewrite snd_wbind. intros H. split.
  - destruct (is_url_units $"%" [] h); cbn [wlog wret snd] in H; injection H as <-; reflexivity.
  - intros c Hc. rewrite existsb_false in X. specialize (X c Hc). cbv beta in X. now rewrite forbidden_host_eq in X.
Qed.
Lemma opaque_intro h : (forall c, In c h -> std_forbidden_host c = false) ->
  snd (parse_opaque_host h) = Ok (utf8_percent_encode h SAFE_C0_CONTROL false).
Proof.
  intros F. unfold parse_opaque_host.
  replace (existsb (fun c => mem c FORBIDDEN_HOST_CODE_POINT) h) with false.
  - rewrite snd_wbind. destruct (is_url_units $"%" [] h); reflexivity.
  - symmetry. apply existsb_false. intros c Hc. rewrite forbidden_host_eq. auto.
Qed.
Lemma domain_ascii_ne E d o : snd (domain_to_ascii E false d) = Ok o -> o <> [].
Proof.
  unfold domain_to_ascii. cbv zeta. destruct (icu_to_ascii E _ d) as [e o'|]; [|discriminate].
  destruct (negb _); [discriminate|]. destruct o'; [discriminate|]. intros H; injection H as <-. discriminate.
Qed.

(** [host_parse] on a non-empty string, results only *)
Lemma host_parse_eq E h ns : h <> [] ->
  snd (host_parse E h ns) =
  if starts_with [91] h then
    if ends_with_char h 93 then
      match snd (ipv6_parse E (removelast (tl h))) with Ok a => Ok (HIPv6 a) | Err e => Err e end
    else Err EIPv6
  else if ns then match snd (parse_opaque_host h) with Ok s => Ok (HStr s) | Err e => Err e end
  else match snd (domain_to_ascii E false (utf8_decode (string_percent_decode h))) with
       | Err e => Err e
       | Ok d =>
           if existsb std_forbidden_domain d then Err EHostParse
           else if is_ends_in_a_number E d
                then match snd (ipv4_parse E d) with Ok n => Ok (HIPv4 n) | Err e => Err e end
                else Ok (HStr d)
       end.
Proof.
  destruct h as [|c t]; [congruence|]. intros _. cbn [host_parse starts_with tl].
  rewrite (N.eqb_sym 91 c). destruct (c =? 91).
  - cbn [andb]. destruct (ends_with_char (c :: t) 93); [|reflexivity]. rewrite snd_wbind.
    destruct (snd (ipv6_parse E (removelast t))); destruct t; reflexivity.
  - cbn [andb]. destruct ns.
    + rewrite snd_wbind. destruct (snd (parse_opaque_host (c :: t))); reflexivity.
    + rewrite snd_wbind. destruct (snd (domain_to_ascii E false (utf8_decode (string_percent_decode (c :: t))))) as [d|]; [|reflexivity].
      replace (existsb (fun c => mem c FORBIDDEN_DOMAIN_CODE_POINT) d) with (existsb std_forbidden_domain d).
      2:{ clear. induction d as [|x d IH]; [reflexivity|]. cbn [existsb]. now rewrite IH, forbidden_domain_eq. }
      destruct (existsb std_forbidden_domain d); [reflexivity|].
      destruct (is_ends_in_a_number E d); [|reflexivity]. rewrite snd_wbind. destruct (snd (ipv4_parse E d)); reflexivity.
Qed.

(* ---------- C25 ---------- *)
Lemma host_parse_nonempty E h ns x : is_pystr h -> h <> [] -> snd (host_parse E h ns) = Ok x -> x <> HStr [].
Proof.
  intros Hs Hn H. rewrite host_parse_eq in H by auto.
  destruct (starts_with [91] h).
  - destruct (ends_with_char h 93); [|discriminate]. destruct (snd (ipv6_parse E _)); [|discriminate].
    injection H as <-. discriminate.
  - destruct ns.
    + destruct (snd (parse_opaque_host h)) as [s|] eqn:O; [|discriminate]. injection H as <-.
      apply opaque_ok in O as [-> _]. intros Q; injection Q as Q. now apply (encode_nonempty h SAFE_C0_CONTROL).
    + destruct (snd (domain_to_ascii E false _)) as [d|] eqn:D; [|discriminate].
      destruct (existsb std_forbidden_domain d); [discriminate|].
      destruct (is_ends_in_a_number E d).
      * destruct (snd (ipv4_parse E d)); [|discriminate]. injection H as <-. discriminate.
      * injection H as <-. intros Q; injection Q as ->. now apply domain_ascii_ne in D.
Qed.

(* ---------- C24 ---------- *)
Lemma join_In (sep : list N) l x : In x (std_join sep l) -> In x sep \/ exists p, In p l /\ In x p.
Proof.
  induction l as [|a l IH]; [intros []|]. cbn [std_join]. destruct l as [|b l].
  - intros H. right. exists a. split; [now left|auto].
  - rewrite !in_app_iff. intros [H|[H|H]]; auto.
    + right. exists a. split; [now left|auto].
    + destruct (IH H) as [?|(p & P1 & P2)]; auto. right. exists p. split; [now right|auto].
Qed.
Lemma pyjoin_In (sep : list N) l x : In x (join sep l) -> In x sep \/ exists p, In p l /\ In x p.
Proof.
  induction l as [|a l IH]; [intros []|]. destruct l as [|b l].
  - intros H. right. exists a. split; [now left|auto].
  - rewrite join_cons2, !in_app_iff. intros [H|[H|H]]; auto.
    + right. exists a. split; [now left|auto].
    + destruct (IH H) as [?|(p & P1 & P2)]; auto. right. exists p. split; [now right|auto].
Qed.
Lemma ipv4_chars n c : In c (ipv4_serialize n) -> c = 46 \/ 48 <= c <= 57.
Proof.
  rewrite ipv4_serialize_eq. intros H. apply pyjoin_In in H as [[<-|[]]|(p & P & H)]; [now left|].
  apply in_map_iff in P as (o & <- & _). right. pose proof (dec_str_digits o) as F.
  rewrite Forall_forall in F. now apply F.
Qed.
Lemma ipv6_chars a c : length a = 8%nat -> In c (ipv6_serialize a) -> c = 58 \/ 48 <= c <= 57 \/ 97 <= c <= 102.
Proof.
  intros L H.
  assert (J : forall l, In c (std_join [58] (hexes l)) -> c = 58 \/ 48 <= c <= 57 \/ 97 <= c <= 102).
  { intros l Hl. apply join_In in Hl as [[<-|[]]|(p & P & Hl)]; [now left|].
    apply in_map_iff in P as (o & <- & _). right. now apply hex_str_chars in Hl. }
  destruct (ipv6_serialize_cases a L) as [(pre & post & r & _ & Q)|(_ & Q)]; rewrite Q in H.
  - rewrite !in_app_iff in H. destruct H as [H|[[<-|[<-|[]]]|H]]; eauto.
  - eauto.
Qed.
Lemma not_forbidden_domain c : (c = 46 \/ 48 <= c <= 57) -> std_forbidden_domain c = false.
Proof.
  intros H. unfold std_forbidden_domain, std_forbidden_host, one_of. cbn [existsb]. lia.
Qed.

Lemma kept_c0 c : kept SAFE_C0_CONTROL c -> 32 <= c <= 126.
Proof.
  intros [L I]. assert (G : forallb (fun c => (32 <=? c) && (c <=? 126)) (ALWAYS_SAFE ++ SAFE_C0_CONTROL) = true)
    by (vm_compute; reflexivity).
  rewrite forallb_forall in G. specialize (G c I). lia.
Qed.
Lemma opaque_chars h s : is_pystr h -> snd (parse_opaque_host h) = Ok s ->
  forall c, In c s -> std_forbidden_host c = false /\ 32 <= c <= 126.
Proof.
  intros Hs H c Hc. apply opaque_ok in H as [-> F].
  apply encode_chars in Hc as [[Hi Hk]|[->|Hu]]; auto.
  - split; auto. now apply kept_c0.
  - split; [reflexivity|lia].
  - unfold upper_hex in Hu. split; [|lia]. unfold std_forbidden_host, one_of. cbn [existsb]. lia.
Qed.

Lemma host_no_forbidden E h ns x : is_pystr h -> snd (host_parse E h ns) = Ok x ->
  match x with
  | HStr s => (forall c, In c s -> std_forbidden_host c = false) /\
              (ns = false -> forall c, In c s -> std_forbidden_domain c = false)
  | HIPv4 n => forall c, In c (host_serialize x) -> std_forbidden_domain c = false
  | HIPv6 a => exists body, host_serialize x = [91] ++ body ++ [93] /\
                 forall c, In c body -> c <> 58 -> std_forbidden_domain c = false
  end.
Proof.
  intros Hs H. destruct h as [|c0 t] eqn:Q.
  { cbn in H. injection H as <-. split; intros; contradiction. }
  rewrite <- Q in *. assert (Hn : h <> []) by (subst; discriminate). rewrite host_parse_eq in H by auto.
  assert (V6 : forall a, length a = 8%nat -> exists body, host_serialize (HIPv6 a) = [91] ++ body ++ [93] /\
                 forall c, In c body -> c <> 58 -> std_forbidden_domain c = false).
  { intros a L. exists (ipv6_serialize a). split; [reflexivity|]. intros c Hc H58.
    apply ipv6_chars in Hc; auto. unfold std_forbidden_domain, std_forbidden_host, one_of. cbn [existsb]. lia. }
  destruct (starts_with [91] h).
  - destruct (ends_with_char h 93); [|discriminate].
    pose proof (ipv6_parse_total E (removelast (tl h))) as T.
    destruct (snd (ipv6_parse E _)) as [a|]; [|discriminate]. injection H as <-. apply V6. apply T.
  - destruct ns.
    + destruct (snd (parse_opaque_host h)) as [s|] eqn:O; [|discriminate]. injection H as <-.
      pose proof (opaque_chars h s Hs O) as G. split; [|discriminate]. intros c Hc. now apply G.
    + destruct (snd (domain_to_ascii E false _)) as [d|] eqn:D; [|discriminate].
      destruct (existsb std_forbidden_domain d) eqn:X; [discriminate|].
      destruct (is_ends_in_a_number E d).
      * destruct (snd (ipv4_parse E d)); [|discriminate]. injection H as <-. intros c Hc.
        apply not_forbidden_domain. now apply ipv4_chars in Hc.
      * injection H as <-. rewrite existsb_false in X. split; auto. intros c Hc. specialize (X c Hc).
        unfold std_forbidden_domain in X. apply orb_false_iff in X as [X _]. apply orb_false_iff in X as [X _].
        now apply orb_false_iff in X as [X _].
Qed.

(* ---------- C23 ---------- *)
(** What is assumed of ICU for round trips: results are ASCII and stable, and
    dotted-decimal addresses are left alone. *)
Record idna_ok (E : env) : Prop := {
  idna_stable : forall d o, snd (domain_to_ascii E false d) = Ok o ->
    ascii_str o /\ snd (domain_to_ascii E false o) = Ok o;
  idna_ipv4 : forall n, snd (domain_to_ascii E false (ipv4_serialize n)) = Ok (ipv4_serialize n) }.

Lemma percent_decode_nopct s : mem 37 s = false -> percent_decode s = s.
Proof.
  induction s as [|c t IH]; intros H; [reflexivity|]. cbn [mem existsb] in H. apply orb_false_iff in H as [H1 H2].
  rewrite percent_decode_cons by lia. f_equal. now apply IH.
Qed.
Lemma decode_ascii s : ascii_str s -> utf8_decode s = s.
Proof.
  intros H. rewrite <- (utf8_encode_ascii s H) at 1. rewrite utf8_round_trip by now apply ascii_pystr.
  now apply svs_id, ascii_nosur.
Qed.
Lemma domain_decode s : ascii_str s -> mem 37 s = false -> utf8_decode (string_percent_decode s) = s.
Proof.
  intros H Hp. unfold string_percent_decode. rewrite utf8_encode_ascii, percent_decode_nopct by auto.
  now apply decode_ascii.
Qed.
Lemma ends_with_snoc l c : ends_with_char (l ++ [c]) c = true.
Proof. unfold ends_with_char. rewrite rev_app_distr. cbn. apply N.eqb_refl. Qed.

Lemma reparse_ipv6 E a ns : length a = 8%nat -> Forall (fun v => v < 65536) a ->
  snd (host_parse E (host_serialize (HIPv6 a)) ns) = Ok (HIPv6 a).
Proof.
  intros L F. cbn [host_serialize]. change ($"[") with [91]. change ($"]") with [93].
  rewrite host_parse_eq by discriminate.
  change (starts_with [91] ([91] ++ ipv6_serialize a ++ [93])) with (starts_with [] (ipv6_serialize a ++ [93])).
  assert (S : starts_with [] (ipv6_serialize a ++ [93]) = true) by (destruct (ipv6_serialize a); reflexivity).
  rewrite S. rewrite app_assoc, ends_with_snoc. cbn [app tl]. rewrite removelast_last.
  now rewrite ipv6_round_trip.
Qed.
Lemma no_bracket s : s <> [] -> (forall c, In c s -> std_forbidden_host c = false) -> starts_with [91] s = false.
Proof.
  intros Hn H. destruct s as [|c t]; [congruence|]. cbn [starts_with]. destruct (91 =? c) eqn:Q; [|reflexivity].
  exfalso. specialize (H c (or_introl eq_refl)). assert (c = 91) by lia. subst. discriminate.
Qed.
Lemma reparse_opaque E s : s <> [] -> (forall c, In c s -> std_forbidden_host c = false /\ 32 <= c <= 126) ->
  snd (host_parse E s true) = Ok (HStr s).
Proof.
  intros Hn H. rewrite host_parse_eq by auto. rewrite no_bracket by (auto; intros c Hc; now apply H).
  rewrite opaque_intro by (intros c Hc; now apply H). f_equal. f_equal. apply safe_id.
  apply forallb_forall. intros c Hc. destruct (H c Hc) as [_ R]. unfold quote_safe. apply orb_true_iff. right.
  replace (c <? 128) with true by lia. rewrite andb_true_r. apply mem_In. unfold SAFE_C0_CONTROL. cbn. lia.
Qed.
Lemma reparse_domain E d : idna_ok E -> d <> [] -> ascii_str d -> snd (domain_to_ascii E false d) = Ok d ->
  (forall c, In c d -> std_forbidden_domain c = false) -> is_ends_in_a_number E d = false ->
  snd (host_parse E d false) = Ok (HStr d).
Proof.
  intros HE Hn Ha Hd Hf He. rewrite host_parse_eq by auto.
  assert (Hf' : forall c, In c d -> std_forbidden_host c = false).
  { intros c Hc. specialize (Hf c Hc). unfold std_forbidden_domain in Hf. destruct (std_forbidden_host c); [discriminate|auto]. }
  rewrite no_bracket by auto.
  rewrite domain_decode; auto.
  2:{ apply mem_not_In. intros I. specialize (Hf 37 I). discriminate. }
  rewrite Hd. replace (existsb std_forbidden_domain d) with false by (symmetry; now apply existsb_false).
  now rewrite He.
Qed.
Lemma ipv4_ascii n : ascii_str (ipv4_serialize n).
Proof. apply Forall_forall. intros c Hc. apply ipv4_chars in Hc. lia. Qed.
Lemma ipv4_nonempty n : ipv4_serialize n <> [].
Proof.
  intros Q. pose proof (split_serialize n) as S. rewrite Q in S. cbn in S. unfold octs in S. discriminate.
Qed.
Lemma reparse_ipv4 E n : limit_ok E -> idna_ok E -> n < 4294967296 ->
  snd (host_parse E (host_serialize (HIPv4 n)) false) = Ok (HIPv4 n).
Proof.
  intros HL HE Hn. cbn [host_serialize]. rewrite host_parse_eq by apply ipv4_nonempty.
  rewrite no_bracket; [|apply ipv4_nonempty|].
  2:{ intros c Hc. apply ipv4_chars, not_forbidden_domain in Hc. unfold std_forbidden_domain in Hc.
      destruct (std_forbidden_host c); [discriminate|auto]. }
  rewrite domain_decode; [|apply ipv4_ascii|].
  2:{ apply mem_not_In. intros I. apply ipv4_chars in I. lia. }
  rewrite (idna_ipv4 E HE). replace (existsb std_forbidden_domain (ipv4_serialize n)) with false.
  2:{ symmetry. apply existsb_false. intros c Hc. now apply ipv4_chars, not_forbidden_domain in Hc. }
  rewrite ends_serialize, ipv4_round_trip by auto. reflexivity.
Qed.

Lemma host_round_trip E h ns x : limit_ok E -> idna_ok E -> is_pystr h ->
  snd (host_parse E h ns) = Ok x -> (forall n, x = HIPv4 n -> n < 4294967296) ->
  snd (host_parse E (host_serialize x) ns) = Ok x.
Proof.
  intros HL HE Hs H Hv4. destruct h as [|c0 t] eqn:Q.
  { cbn in H. injection H as <-. reflexivity. }
  rewrite <- Q in *. assert (Hn : h <> []) by (subst; discriminate). clear Q.
  pose proof (host_parse_nonempty E h ns x Hs Hn H) as NE.
  rewrite host_parse_eq in H by auto. destruct (starts_with [91] h).
  - destruct (ends_with_char h 93); [|discriminate].
    pose proof (ipv6_parse_total E (removelast (tl h))) as T.
    destruct (snd (ipv6_parse E _)) as [a|]; [|discriminate]. injection H as <-. apply reparse_ipv6; apply T.
  - destruct ns.
    + destruct (snd (parse_opaque_host h)) as [s|] eqn:O; [|discriminate]. injection H as <-.
      cbn [host_serialize]. apply reparse_opaque; [congruence|]. now apply (opaque_chars h).
    + destruct (snd (domain_to_ascii E false _)) as [d|] eqn:D; [|discriminate].
      destruct (existsb std_forbidden_domain d) eqn:X; [discriminate|].
      destruct (is_ends_in_a_number E d) eqn:N.
      * destruct (snd (ipv4_parse E d)) as [n|]; [|discriminate]. injection H as <-. apply reparse_ipv4; auto.
      * injection H as <-. cbn [host_serialize]. destruct (idna_stable E HE _ _ D) as [A S].
        apply reparse_domain; auto; [congruence|]. now apply existsb_false.
Qed.
