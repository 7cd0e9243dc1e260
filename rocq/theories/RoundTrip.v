(** Parsing the serialization of a well-formed record gives the record back. *)
From Coq Require Import Ascii String.
From Coq Require Import NArith ZArith Bool Arith Lia ZifyBool ZifyN ZifyNat List.
From Verif Require Import PyStr PyInt Codec Env HostModel UrlRecord Parser SpecText SpecHost FlatParser.
From Verif Require Import Lemmas CodecProofs QuoteProofs PyIntProofs LegacyProofs IPv4Proofs IPv6Proofs HostProofs LoopProofs FlatProofs WfProofs.
Import ListNotations.
Open Scope N_scope.

(** what a host needs for the round trip *)
Record host_rt (E : env) (sch : str) (h : host) : Prop := {
  rt_nonempty : host_serialize h <> [];
  rt_parse : snd (host_parse E (host_serialize h) (negb (special_scheme sch))) = Ok h;
  rt_char : forall c, In c (host_serialize h) -> 32 < c <= 126 /\ mem c $"/\?#@" = false;
  rt_cut : forall t, t = [] \/ (exists p, t = 58 :: p) ->
    host_cut false (host_serialize h ++ t) = (host_serialize h, match t with [] => None | _ :: p => Some p end);
  rt_drive : sch = $"file" -> is_windows_drive_letter (host_serialize h) = false;
  rt_local : sch = $"file" -> no_localhost h = h }.

Definition v4_ok (h : host) : Prop := forall n, h = HIPv4 n -> n < 4294967296.

Lemma host_cut_plain br s t : (forall c, In c s -> c <> 58 /\ c <> 91 /\ c <> 93) -> br = false -> t = [] \/ (exists p, t = 58 :: p) ->
  host_cut br (s ++ t) = (s, match t with [] => None | _ :: p => Some p end).
Proof.
  intros H -> Ht. induction s as [|c s IH].
  - destruct Ht as [->|[p ->]]; reflexivity.
  - cbn [app host_cut]. destruct (H c (or_introl eq_refl)) as (H1 & H2 & H3).
    replace (c =? 58) with false by lia. replace (c =? 91) with false by lia. replace (c =? 93) with false by lia. cbn [andb].
    rewrite IH by (intros x Hx; apply H; now right). reflexivity.
Qed.
Lemma host_cut_in_br s t : (forall c, In c s -> c <> 91 /\ c <> 93) -> t = [] \/ (exists p, t = 58 :: p) ->
  host_cut true (s ++ 93 :: t) = (s ++ [93], match t with [] => None | _ :: p => Some p end).
Proof.
  intros H Ht. induction s as [|c s IH].
  - cbn [app]. change (host_cut true (93 :: t)) with (let (h, p) := host_cut false t in (93 :: h, p)).
    destruct Ht as [->|[p ->]]; reflexivity.
  - cbn [app host_cut]. destruct (H c (or_introl eq_refl)) as (H2 & H3).
    replace (c =? 91) with false by lia. replace (c =? 93) with false by lia. rewrite andb_false_r.
    rewrite IH by (intros x Hx; apply H; now right). reflexivity.
Qed.

Lemma host_str_chars E h ns s : idna_ok E -> is_pystr h -> snd (host_parse E h ns) = Ok (HStr s) ->
  forall c, In c s -> std_forbidden_host c = false /\ 32 <= c <= 126.
Proof.
  intros HE Hs H. destruct h as [|c0 t] eqn:Q.
  { cbn in H. injection H as <-. intros c []. }
  rewrite <- Q in *. assert (Hn : h <> []) by (subst; discriminate). rewrite host_parse_eq in H by auto.
  destruct (starts_with [91] h).
  - destruct (ends_with_char h 93); [|discriminate]. destruct (snd (ipv6_parse E _)); discriminate.
  - destruct ns.
    + destruct (snd (parse_opaque_host h)) as [x|] eqn:O; [|discriminate]. injection H as <-. now apply (opaque_chars h).
    + destruct (snd (domain_to_ascii E false _)) as [d|] eqn:D; [|discriminate].
      destruct (existsb std_forbidden_domain d) eqn:X; [discriminate|].
      destruct (is_ends_in_a_number E d); [destruct (snd (ipv4_parse E d)); discriminate|]. injection H as <-.
      rewrite existsb_false in X. destruct (idna_stable E HE _ _ D) as [A _]. unfold ascii_str in A. rewrite Forall_forall in A.
      intros c Hc. specialize (X c Hc). specialize (A c Hc). cbv beta in A. unfold std_forbidden_domain in X.
      unfold std_forbidden_host, one_of in *. cbn [existsb] in *. lia.
Qed.
Lemma host_v6 E h ns a : is_pystr h -> snd (host_parse E h ns) = Ok (HIPv6 a) -> length a = 8%nat.
Proof.
  intros Hs H. destruct h as [|c0 t] eqn:Q; [discriminate|].
  rewrite <- Q in *. assert (Hn : h <> []) by (subst; discriminate). rewrite host_parse_eq in H by auto.
  destruct (starts_with [91] h).
  - destruct (ends_with_char h 93); [|discriminate]. pose proof (ipv6_parse_total E (removelast (tl h))) as T.
    destruct (snd (ipv6_parse E _)); [|discriminate]. injection H as <-. apply T.
  - destruct ns.
    + destruct (snd (parse_opaque_host h)); discriminate.
    + destruct (snd (domain_to_ascii E false _)); [|discriminate]. destruct (existsb std_forbidden_domain _); [discriminate|].
      destruct (is_ends_in_a_number E _); [|discriminate]. destruct (snd (ipv4_parse E _)); discriminate.
Qed.

Lemma hostval_rt E sch h : limit_ok E -> idna_ok E -> hostval E sch h -> h <> HStr [] -> v4_ok h -> host_rt E sch h.
Proof.
  intros HL HI [(h0 & Hp & Hn & H) Hloc] HE HV.
  pose proof (host_round_trip E h0 _ h HL HI Hp H HV) as RT. pose proof (host_no_forbidden E h0 _ h Hp H) as NF.
  assert (C : forall c, std_forbidden_host c = false -> 32 <= c <= 126 -> (32 < c <= 126 /\ mem c $"/\?#@" = false) /\ c <> 58 /\ c <> 91 /\ c <> 93 /\ c <> 124).
  { intros c H1 H2. unfold std_forbidden_host, one_of in H1. cbn [existsb] in H1. change ($"/\?#@") with [47; 92; 63; 35; 64]. cbn [mem existsb]. lia. }
  destruct h as [s|n|a].
  - pose proof (host_str_chars E h0 _ s HI Hp H) as CH.
    assert (C' : forall c, In c s -> (32 < c <= 126 /\ mem c $"/\?#@" = false) /\ c <> 58 /\ c <> 91 /\ c <> 93 /\ c <> 124).
    { intros c Hc. destruct (CH c Hc). now apply C. }
    constructor; cbn [host_serialize]; auto.
    + congruence.
    + intros c Hc. now apply C'.
    + intros t Ht. apply host_cut_plain; auto. intros c Hc. destruct (C' c Hc) as (_ & ? & ? & ? & _). auto.
    + intros _. unfold is_windows_drive_letter. destruct s as [|x [|y [|z s]]]; try reflexivity.
      destruct (C' y (or_intror (or_introl eq_refl))) as (_ & ? & _ & _ & ?). change ($":|") with [58; 124]. cbn [mem existsb]. lia.
    + intros F. unfold no_localhost. destruct (str_eqb s $"localhost") eqn:Q; [|reflexivity]. apply str_eqb_eq in Q. now destruct (Hloc F); subst.
  - assert (C' : forall c, In c (ipv4_serialize n) -> (32 < c <= 126 /\ mem c $"/\?#@" = false) /\ c <> 58 /\ c <> 91 /\ c <> 93 /\ c <> 124).
    { intros c Hc. apply ipv4_chars in Hc. change ($"/\?#@") with [47; 92; 63; 35; 64]. cbn [mem existsb]. lia. }
    constructor; cbn [host_serialize]; auto.
    + apply ipv4_nonempty.
    + intros c Hc. now apply C'.
    + intros t Ht. apply host_cut_plain; auto. intros c Hc. destruct (C' c Hc) as (_ & ? & ? & ? & _). auto.
    + intros _. unfold is_windows_drive_letter. destruct (ipv4_serialize n) as [|x [|y [|z s]]]; try reflexivity.
      destruct (C' y (or_intror (or_introl eq_refl))) as (_ & ? & _ & _ & ?). change ($":|") with [58; 124]. cbn [mem existsb]. lia.
  - pose proof (host_v6 E h0 _ a Hp H) as L. pose proof (fun c => ipv6_chars a c L) as CH.
    constructor; cbn [host_serialize]; auto; change ($"[") with [91]; change ($"]") with [93].
    + discriminate.
    + intros c Hc. assert (D : c = 91 \/ c = 93 \/ c = 58 \/ 48 <= c <= 57 \/ 97 <= c <= 102).
      { apply in_app_iff in Hc as [[<-|[]]|Hc]; [auto|]. apply in_app_iff in Hc as [Hc|[<-|[]]]; [|auto]. apply CH in Hc. auto. }
      change ($"/\?#@") with [47; 92; 63; 35; 64]. cbn [mem existsb]. lia.
    + intros t Ht. rewrite <- !app_assoc. cbn [app]. change (host_cut false (91 :: ipv6_serialize a ++ 93 :: t)) with
        (let (h, p) := host_cut true (ipv6_serialize a ++ 93 :: t) in (91 :: h, p)).
      rewrite host_cut_in_br; auto. intros c Hc. apply CH in Hc. lia.
    + intros _. unfold is_windows_drive_letter. cbn [app]. destruct (ipv6_serialize a ++ [93]) as [|y [|z s]]; reflexivity.
Qed.

(* ---------- components ---------- *)
Definition tail_str (u : urlrec) : str :=
  (match query u with Some q => 63 :: q | None => [] end) ++ (match fragment u with Some f => 35 :: f | None => [] end).
Lemma tail_head u : match tail_str u with [] => True | c :: _ => is_qf c = true end.
Proof. unfold tail_str. destruct (query u); [reflexivity|]. destruct (fragment u); [reflexivity|exact I]. Qed.
Lemma tail_nil u : tail_str u = [] -> query u = None /\ fragment u = None.
Proof. unfold tail_str. destruct (query u); [discriminate|]. destruct (fragment u); [discriminate|auto]. Qed.

Lemma qs_id safe s : qs safe s -> utf8_percent_encode s safe false = s.
Proof. apply safe_id. Qed.
Lemma qs_ascii safe s : qs safe s -> ascii_str s.
Proof. intros H. apply Forall_forall. intros c Hc. unfold qs in H. rewrite forallb_forall in H. specialize (H c Hc). apply quote_safe_kept in H. apply H. Qed.
Lemma qs_query_id E enc u q : enc_ok E enc -> qs (query_set u) q -> enc_query E enc u q = Some q.
Proof.
  intros HE Hq. unfold enc_query. fold (query_set u).
  assert (U : enc_of E $"utf-8" = utf8_enc1) by reflexivity.
  assert (G : enc_of E (query_encoding u enc) = utf8_enc1 \/ ascii_compatible (enc_of E (query_encoding u enc))).
  { unfold query_encoding. destruct (negb _ && _) eqn:Q; [now left|]. destruct HE as [-> | HE]; [now left|].
    unfold enc_of. destruct (str_eqb enc $"utf-8"); [now left|now right]. }
  destruct G as [G|G].
  - rewrite G, utf8_percent_encode_total. rewrite <- utf8_percent_encode_eq. f_equal. now apply qs_id.
  - rewrite legacy_encode by auto. f_equal. pose proof (qs_ascii _ _ Hq) as A.
    rewrite (usv_spec q) by now apply ascii_pystr. rewrite svs_id by now apply ascii_nosur.
    destruct G as [G1 _]. clear A. induction q as [|c t IH]; [reflexivity|].
    unfold qs in Hq. cbn [forallb] in Hq. apply andb_true_iff in Hq as [Hc Ht]. cbn [flat_map]. rewrite IH by exact Ht.
    pose proof Hc as HK. apply quote_safe_kept in HK. unfold legacy_char. rewrite G1 by apply HK. cbn [flat_map]. unfold enc_b. cbn [andb].
    rewrite Hc. reflexivity.
Qed.

Lemma set_qf_id v : query v = None -> fragment v = None -> set_fragment None (set_query None v) = v.
Proof. destruct v. cbn. intros -> ->. reflexivity. Qed.

Section RT.
Context (E : env) (enc : str) (HE : enc_ok E enc) (HL : limit_ok E).
Context (u : urlrec) (WF : wf (host_rt E) u).

Lemma rt_tail v : scheme v = scheme u -> query v = None -> fragment v = None ->
  flat_tail E enc v (tail_str u) = Ok (set_fragment (fragment u) (set_query (query u) v)).
Proof.
  intros HS HQ HF. destruct WF as (_ & _ & W1 & W2). unfold tail_str. destruct (query u) as [q|] eqn:Q.
  - cbn [app flat_tail]. change (63 =? 63) with true. cbv iota. unfold flat_query.
    specialize (W1 q eq_refl).
    assert (QV : qs (query_set v) q). { unfold query_set, is_special in *. now rewrite HS. }
    assert (N : mem 35 q = false). { eapply qs_no; [|exact W1]. unfold query_set. destruct (is_special u); reflexivity. }
    rewrite span_app.
    + rewrite (qs_query_id E enc v q HE QV). f_equal. destruct (fragment u) as [f|] eqn:F; cbn [flat_frag].
      * unfold enc_fragment. rewrite qs_id by now apply W2. reflexivity.
      * rewrite <- HF. reflexivity.
    + apply Forall_forall. intros c Hc. destruct (c =? 35) eqn:X; [|reflexivity]. apply N.eqb_eq in X; subst. apply mem_In in Hc. congruence.
    + destruct (fragment u); [reflexivity|exact I].
  - cbn [app]. destruct (fragment u) as [f|] eqn:F.
    + cbn [flat_tail]. change (35 =? 63) with false. cbv iota. cbn [flat_frag]. unfold enc_fragment. rewrite qs_id by now apply W2.
      f_equal. rewrite <- HQ. reflexivity.
    + cbn [flat_tail]. f_equal. symmetry. now apply set_qf_id.
Qed.

Lemma rt_push sch sep a s sp : seg_ok sp s -> file_first sch (a ++ [s]) -> push sch sep a s = a ++ [s].
Proof.
  intros (Q & _ & _ & D) F. unfold push. rewrite qs_id by auto. cbv zeta. unfold is_dot in D. apply orb_false_iff in D as [-> ->].
  f_equal. f_equal. destruct (str_eqb sch $"file" && (length a =? 0)%nat && is_windows_drive_letter s) eqn:X; [|reflexivity].
  apply andb_true_iff in X as [X W]. apply andb_true_iff in X as [X L]. apply str_eqb_eq in X. specialize (F X).
  destruct a; [|discriminate]. cbn [app] in F. specialize (F W). unfold is_normalized_windows_drive_letter in F.
  apply andb_true_iff in F as [_ F]. destruct (firstn1_wdl s W) as (x & y & -> & _). apply N.eqb_eq in F as ->. reflexivity.
Qed.
Lemma rt_walk sch sp l : Forall (seg_ok sp) l -> l <> [] -> forall a, file_first sch (a ++ l) -> walk sch a l = a ++ l.
Proof.
  induction 1 as [|s l Hs Hl IH]; intros Hn a F; [congruence|].
  assert (F1 : file_first sch (a ++ [s])). { intros X. specialize (F X). destruct a; exact F. }
  destruct l as [|s2 l].
  - cbn [walk]. now apply (rt_push sch false a s sp).
  - rewrite walk_cons by discriminate. rewrite (rt_push sch true a s sp) by auto. rewrite IH; [now rewrite <- app_assoc|discriminate|].
    now rewrite <- app_assoc.
Qed.
Lemma segs_join l : l <> [] -> serialize_segs l = 47 :: join [47] l.
Proof.
  induction l as [|s l IH]; [congruence|]. intros _. destruct l as [|s2 l].
  - unfold serialize_segs. cbn [flat_map join]. now rewrite app_nil_r.
  - rewrite join_cons2. unfold serialize_segs in *. cbn [flat_map] in *. rewrite IH by discriminate. reflexivity.
Qed.
Lemma join_chars l c : In c (join [47] l) -> c = 47 \/ exists s, In s l /\ In c s.
Proof. intros H. apply pyjoin_In in H as [[<-|[]]|H]; auto. Qed.
Lemma rt_path_span sp l t : Forall (seg_ok sp) l -> match t with [] => True | c :: _ => is_qf c = true end ->
  span (fun c => negb (is_qf c)) (join [47] l ++ t) = (join [47] l, t).
Proof.
  intros H Ht. apply span_app.
  - apply Forall_forall. intros c Hc. apply join_chars in Hc as [->|(s & Hs & Hc)]; [reflexivity|].
    rewrite Forall_forall in H. destruct (H s Hs) as (Q & _).
    apply (proj1 (forallb_forall (fun c => negb (is_qf c)) s)); [|exact Hc]. eapply qs_char; [|exact Q]. vm_compute. reflexivity.
  - destruct t; [exact I|]. now rewrite Ht.
Qed.
Lemma rt_pieces sp l : Forall (seg_ok sp) l -> l <> [] -> pieces sp (join [47] l) = l.
Proof.
  intros H Hn. unfold pieces. replace (norm_slash sp (join [47] l)) with (join [47] l).
  - apply split_join; auto. intros p Hp. rewrite Forall_forall in H. apply (H p Hp).
  - unfold norm_slash. destruct sp; [|reflexivity]. unfold replace_char. rewrite <- (map_id (join [47] l)) at 1. apply map_ext_in.
    intros c Hc. destruct (c =? 92) eqn:X; [|reflexivity]. exfalso. apply N.eqb_eq in X as ->.
    apply join_chars in Hc as [|(s & Hs & Hc)]; [lia|]. rewrite Forall_forall in H. destruct (H s Hs) as (_ & _ & B & _).
    specialize (B eq_refl). apply mem_In in Hc. congruence.
Qed.
Lemma rt_path v l : scheme v = scheme u -> query v = None -> fragment v = None -> path_segs v = [] ->
  path u = PList l -> l <> [] ->
  flat_path E enc v (join [47] l ++ tail_str u) = Ok (set_fragment (fragment u) (set_query (query u) (set_path (path u) v))).
Proof.
  intros HS HQ HF HP PU Hn. pose proof WF as (_ & W & _). unfold wf_path in W. rewrite PU in W. destruct W as (W1 & W2 & W3).
  unfold flat_path. rewrite (rt_path_span (is_special u)) by (auto; apply tail_head).
  assert (SP : is_special v = is_special u) by (unfold is_special; now rewrite HS).
  rewrite SP, rt_pieces, HP, (rt_walk (scheme v) (is_special u) l) by (auto; now rewrite HS). cbn [app]. rewrite PU. now apply rt_tail.
Qed.
Lemma rt_path_start v : scheme v = scheme u -> query v = None -> fragment v = None -> path v = PList [] -> uhost u <> None ->
  flat_path_start E enc v (serialize_path u ++ tail_str u) =
  Ok (set_fragment (fragment u) (set_query (query u) (set_path (path u) v))).
Proof.
  intros HS HQ HF HP HH. pose proof WF as (_ & W & _). unfold wf_path in W. unfold serialize_path.
  assert (SP : is_special v = is_special u) by (unfold is_special; now rewrite HS).
  assert (PS : path_segs v = []) by (unfold path_segs; now rewrite HP).
  destruct (path u) as [s|l] eqn:PU; [destruct W as (W & _); congruence|]. destruct W as (W1 & W2 & W3).
  destruct l as [|s l].
  - destruct (W2 eq_refl) as [NS _]. cbn [serialize_segs flat_map app]. pose proof (tail_head u) as TH. unfold flat_path_start. rewrite SP, NS.
    assert (R : set_path (PList []) v = v) by (rewrite <- HP; destruct v; reflexivity).
    pose proof (rt_tail v HS HQ HF) as T. rewrite R. destruct (tail_str u) as [|c t] eqn:TS.
    + rewrite <- T. reflexivity.
    + rewrite TH. exact T.
  - rewrite segs_join by discriminate. cbn [app flat_path_start]. change (is_slash 47) with true. cbv iota. change (is_qf 47) with false. change (47 =? 47) with true. cbv iota.
    rewrite <- PU. rewrite <- (rt_path v (s :: l)) by (auto; discriminate). destruct (is_special v); reflexivity.
Qed.

(* ---------- authority ---------- *)
Definition creds_str : str :=
  if includes_credentials u then username u ++ (match password u with [] => [] | p => 58 :: p end) ++ [64] else [].
Definition port_str : str := match port u with Some p => 58 :: dec_str p | None => [] end.

Lemma rt_port p : port u = Some p -> flat_port E (scheme u) (dec_str p) = Ok (Some p).
Proof.
  intros P. destruct WF as ((_ & _ & _ & _ & _ & W) & _). destruct (W p P) as [W1 W2]. unfold flat_port.
  assert (D : forallb (fun c => mem c ASCII_DIGITS) (dec_str p) = true).
  { apply forallb_forall. intros c Hc. pose proof (dec_str_digits p) as F. rewrite Forall_forall in F. specialize (F c Hc). cbv beta in F.
    apply mem_In. change ASCII_DIGITS with [48;49;50;51;52;53;54;55;56;57]. cbn [In]. lia. }
  rewrite D, e_int_dec by (auto; lia). rewrite N2Z.id. replace (65535 <? p) with false by lia. cbv zeta.
  assert (X : on_eqb (default_port (scheme u)) (Some p) = false).
  { destruct (default_port (scheme u)) as [d|]; [|reflexivity]. cbn [on_eqb]. destruct (d =? p) eqn:Q; [|reflexivity].
    apply N.eqb_eq in Q; subst. congruence. }
  rewrite X. destruct (dec_str p) eqn:Q; [|reflexivity]. exfalso. eapply dec_str_nonempty; exact Q.
Qed.
Lemma rt_host h v : uhost u = Some h -> h <> HStr [] -> host_rt E (scheme u) h ->
  scheme v = scheme u -> query v = None -> fragment v = None -> path v = PList [] -> port v = None ->
  flat_host E enc v (host_serialize h ++ port_str) (serialize_path u ++ tail_str u) =
  Ok (set_fragment (fragment u) (set_query (query u) (set_path (path u) (set_port (port u) (set_host (Some h) v))))).
Proof.
  intros HU HN [R1 R2 R3 R4 R5 R6] HS HQ HF HP HO. unfold flat_host.
  assert (L : (length (host_serialize h) =? 0)%nat = false) by (destruct (host_serialize h); [congruence|reflexivity]).
  assert (NS : is_not_special v = negb (special_scheme (scheme u))) by (unfold is_not_special; now rewrite HS).
  unfold port_str. destruct (port u) as [p|] eqn:P.
  - rewrite R4 by (right; eauto). rewrite L, NS, R2. cbn [rbind]. rewrite HS, (rt_port p P). cbn [rbind].
    rewrite rt_path_start by (auto; congruence). reflexivity.
  - rewrite R4 by now left. rewrite L, andb_false_r, NS, R2. cbn [rbind].
    rewrite rt_path_start by (auto; congruence). f_equal. f_equal. f_equal. f_equal. rewrite <- HO. reflexivity.
Qed.
Definition auth_of_url : str := match uhost u with Some h => [47; 47] ++ creds_str ++ host_serialize h ++ port_str | None => [] end.
Definition dot_str : str := match uhost u, path u with None, PList ([] :: _ :: _) => [47; 46] | _, _ => [] end.
Lemma href_eq : href u = scheme u ++ 58 :: auth_of_url ++ dot_str ++ serialize_path u ++ tail_str u.
Proof.
  unfold href, serialize_url, auth_of_url, dot_str, creds_str, port_str, tail_str. cbn [app]. f_equal.
Qed.

Definition authc (c : N) : bool := negb (mem c $"/\?#@").
Lemma creds_chars c : In c (username u) \/ In c (password u) -> c <> 58 /\ 32 < c <= 126 /\ authc c = true.
Proof.
  intros H. destruct WF as ((_ & W1 & W2 & _) & _).
  assert (G : forall s, qs SAFE_USERINFO s -> In c s -> c <> 58 /\ 32 < c <= 126 /\ authc c = true).
  { intros s Hs Hc. apply (qs_char SAFE_USERINFO (fun c => negb (c =? 58) && (32 <? c) && (c <=? 126) && authc c)) in Hs; [|vm_compute; reflexivity].
    rewrite forallb_forall in Hs. specialize (Hs c Hc). cbv beta in Hs. destruct (authc c); lia. }
  destruct H as [H|H]; eauto.
Qed.
Lemma port_chars c : In c port_str -> c = 58 \/ 48 <= c <= 57.
Proof.
  unfold port_str. destruct (port u) as [p|]; [|intros []]. intros [<-|H]; [now left|]. right. pose proof (dec_str_digits p) as F.
  rewrite Forall_forall in F. now apply F.
Qed.
Lemma mem4 c : mem c $"/\?#@" = (c =? 47) || ((c =? 92) || ((c =? 63) || ((c =? 35) || ((c =? 64) || false)))).
Proof. reflexivity. Qed.
Lemma hostport_chars h c : host_rt E (scheme u) h -> In c (host_serialize h ++ port_str) -> 32 < c <= 126 /\ authc c = true.
Proof.
  intros R H. unfold authc. apply in_app_iff in H as [H|H].
  - destruct (rt_char _ _ _ R c H) as [H1 ->]. auto.
  - apply port_chars in H. rewrite mem4. lia.
Qed.
Lemma authc_ends sp c : authc c = true -> negb (ends_auth sp c) = true.
Proof. unfold authc, ends_auth. rewrite mem4. change ($"/?#") with [47; 63; 35]. cbn [mem existsb]. lia. Qed.
Lemma path_tail_head : uhost u <> None -> match serialize_path u ++ tail_str u with [] => True | c :: _ => c = 47 \/ is_qf c = true end.
Proof.
  intros H. unfold serialize_path. destruct WF as (_ & W & _). unfold wf_path in W. destruct (path u) as [|l]; [destruct W; congruence|].
  destruct l as [|s l].
  - cbn [serialize_segs flat_map app]. pose proof (tail_head u). destruct (tail_str u); auto.
  - cbn [serialize_segs flat_map app]. now left.
Qed.
Lemma rebuild : set_fragment (fragment u) (set_query (query u) (set_path (path u) (set_port (port u) (set_host (uhost u)
  (set_password (password u) (set_username (username u) (set_scheme (scheme u) new_url))))))) = u.
Proof. destruct u; reflexivity. Qed.
Lemma rt_authority h : uhost u = Some h -> host_rt E (scheme u) h \/ (h = HStr [] /\ is_special u = false) ->
  flat_authority E enc (set_scheme (scheme u) new_url) ((creds_str ++ host_serialize h ++ port_str) ++ serialize_path u ++ tail_str u) = Ok u.
Proof.
  intros HU HR. set (v := set_scheme (scheme u) new_url).
  pose proof WF as ((_ & W1 & W2 & _ & W3 & _) & _).
  assert (HD : h = HStr [] \/ h <> HStr []) by (destruct h as [[|]| |]; [now left|right|right|right]; discriminate).
  assert (SPAN : forall s, (forall c, In c s -> authc c = true \/ c = 64) ->
    span (fun c => negb (ends_auth (is_special v) c)) (s ++ serialize_path u ++ tail_str u) = (s, serialize_path u ++ tail_str u)).
  { intros s Hs. apply span_app.
    - apply Forall_forall. intros c Hc. destruct (Hs c Hc) as [X| ->]; [now apply authc_ends|]. destruct (is_special v); reflexivity.
    - pose proof path_tail_head as P. destruct (serialize_path u ++ tail_str u) as [|c t]; [exact I|].
      destruct P as [-> |P]; [congruence|reflexivity|]. unfold is_qf in P. unfold ends_auth.
      change ($"?#") with [63; 35] in P. change ($"/?#") with [47; 63; 35]. cbn [mem existsb] in *. lia. }
  destruct HR as [HR|[-> NS]].
  - assert (N64 : mem 64 (host_serialize h ++ port_str) = false).
    { apply mem_not_In. intros I. apply hostport_chars in I; auto. destruct I as [_ I]. discriminate. }
    assert (HN : h <> HStr []). { intros ->. now destruct (rt_nonempty _ _ _ HR). }
    unfold flat_authority. unfold creds_str. destruct (includes_credentials u) eqn:IC.
    + rewrite SPAN.
      2:{ intros c Hc. apply in_app_iff in Hc as [Hc|Hc]; [|left; now apply (hostport_chars h)].
          apply in_app_iff in Hc as [Hc|Hc]; [left; now apply creds_chars; left|].
          apply in_app_iff in Hc as [Hc|[<-|[]]]; [|now right]. destruct (password u) as [|d p] eqn:P; [destruct Hc|].
          destruct Hc as [<-|Hc]; [left; reflexivity|]. left. apply creds_chars. right. now rewrite P. }
      rewrite (app_assoc (username u)), <- (app_assoc _ [64]). cbn [app]. rewrite split_last_app by auto.
      assert (L : (length (host_serialize h ++ port_str) =? 0)%nat = false).
      { pose proof (rt_nonempty _ _ _ HR). destruct (host_serialize h); [congruence|reflexivity]. }
      rewrite L. rewrite (rt_host h) by (auto; unfold set_creds; destruct (split_first _ _); reflexivity).
      f_equal. etransitivity; [|exact rebuild]. rewrite HU. f_equal. f_equal. f_equal. f_equal. f_equal.
      assert (N58 : mem 58 (username u) = false).
      { apply mem_not_In. intros I. now destruct (creds_chars 58 (or_introl I)). }
      unfold set_creds. destruct (password u) as [|d p] eqn:P.
      * rewrite app_nil_r, split_first_none by auto. unfold enc_userinfo. now rewrite !qs_id.
      * rewrite split_first_found by auto. unfold enc_userinfo. now rewrite !qs_id.
    + cbn [app]. rewrite SPAN by (intros c Hc; left; now apply (hostport_chars h)).
      rewrite split_last_none by auto. rewrite (rt_host h) by auto. f_equal. etransitivity; [|exact rebuild]. rewrite HU. f_equal. f_equal. f_equal. f_equal. f_equal.
      unfold includes_credentials in IC. apply orb_false_iff in IC as [I1 I2].
      destruct (username u); [|discriminate]. destruct (password u); [|discriminate]. reflexivity.
  - assert (NC : includes_credentials u = false /\ port u = None).
    { destruct (includes_credentials u) eqn:IC; [destruct (W3 (or_introl eq_refl)) as (h & X & Y & _); congruence|]. split; auto.
      destruct (port u) eqn:P; [|reflexivity]. destruct W3 as (h & X & Y & _); [right; discriminate|congruence]. }
    destruct NC as [IC PN]. unfold creds_str, port_str. rewrite IC, PN. cbn [host_serialize app]. unfold flat_authority.
    pose proof (SPAN []) as SP0. cbn [app] in SP0. rewrite SP0 by (intros c []). cbn [split_last]. unfold flat_host. cbn [host_cut].
    change (is_special v) with (is_special u). rewrite NS. cbn [andb]. change (snd (host_parse E [] (is_not_special v))) with (Ok (HStr [])).
    cbn [rbind]. rewrite rt_path_start by (auto; congruence). f_equal. etransitivity; [|exact rebuild]. rewrite HU, PN. f_equal. f_equal. f_equal.
    unfold includes_credentials in IC. apply orb_false_iff in IC as [I1 I2].
    destruct (username u); [|discriminate]. destruct (password u); [|discriminate]. reflexivity.
Qed.
Lemma rt_scheme_ok : scheme_ok (scheme u). Proof. apply WF. Qed.
Lemma creds_none : scheme u = $"file" -> includes_credentials u = false /\ port u = None.
Proof.
  intros F. destruct WF as ((_ & _ & _ & _ & W & _) & _).
  destruct (includes_credentials u) eqn:IC; [destruct (W (or_introl eq_refl)) as (h & _ & _ & X); congruence|]. split; auto.
  destruct (port u) eqn:P; [|reflexivity]. destruct W as (h & _ & _ & X); [right; discriminate|congruence].
Qed.
Lemma rt_file base : scheme u = $"file" -> flat_file E base enc (auth_of_url ++ dot_str ++ serialize_path u ++ tail_str u) = Ok u.
Proof.
  intros F. destruct (creds_none F) as [IC PN]. pose proof WF as ((_ & _ & _ & W & _) & WP & _). unfold wf_host in W. unfold auth_of_url, dot_str.
  assert (SP : is_special u = true) by (unfold is_special; now rewrite F).
  destruct (uhost u) as [h|] eqn:HU; [|congruence]. unfold creds_str, port_str. rewrite IC, PN, app_nil_r. cbn [app flat_file].
  change (is_slash 47) with true. cbv iota. cbn [flat_file_slash]. change (is_slash 47) with true. cbv iota. unfold flat_file_host.
  assert (NE : uhost u <> None) by congruence.
  assert (RB : forall v, v = set_host (Some h) file_url -> Ok (set_fragment (fragment u) (set_query (query u) (set_path (path u) v))) = Ok u).
  { intros v ->. f_equal. etransitivity; [|exact rebuild]. rewrite HU, PN, F. f_equal. f_equal. f_equal.
    unfold includes_credentials in IC. apply orb_false_iff in IC as [I1 I2].
    destruct (username u); [|discriminate]. destruct (password u); [|discriminate]. reflexivity. }
  assert (SPAN : (forall c, In c (host_serialize h) -> mem c $"/\?#" = false) ->
    span (fun c => negb (mem c $"/\?#")) (host_serialize h ++ serialize_path u ++ tail_str u) = (host_serialize h, serialize_path u ++ tail_str u)).
  { intros X. apply span_app.
    - apply Forall_forall. intros c Hc. now rewrite X.
    - pose proof (path_tail_head NE) as P. destruct (serialize_path u ++ tail_str u) as [|c t]; [exact I|].
      destruct P as [-> |P]; [reflexivity|]. unfold is_qf in P.
      change ($"?#") with [63; 35] in P. change ($"/\?#") with [47; 92; 63; 35]. cbn [mem existsb] in *. lia. }
  destruct W as [[-> _]|[HN R]].
  - rewrite SPAN by (intros c []). cbn [host_serialize is_windows_drive_letter]. rewrite rt_path_start by auto. now apply RB.
  - rewrite SPAN.
    2:{ intros c Hc. destruct (rt_char _ _ _ R c Hc) as [_ X]. rewrite mem4 in X. change ($"/\?#") with [47; 92; 63; 35]. cbn [mem existsb] in *. lia. }
    rewrite (rt_drive _ _ _ R F). pose proof (rt_parse _ _ _ R) as RP. rewrite F in RP. change (negb (special_scheme $"file")) with false in RP.
    change (is_not_special file_url) with false. pose proof (rt_nonempty _ _ _ R). destruct (host_serialize h); [congruence|].
    rewrite RP. cbn [rbind]. rewrite (rt_local _ _ _ R F). rewrite rt_path_start by auto. now apply RB.
Qed.
Lemma rt_opaque s : path u = POpaque s -> flat_opaque E enc (set_scheme (scheme u) new_url) (s ++ tail_str u) = Ok u.
Proof.
  intros P. pose proof WF as ((_ & _ & _ & _ & W & _) & WP & _). unfold wf_path in WP. rewrite P in WP.
  destruct WP as (W1 & W2 & W3 & W4 & W5 & W6). unfold flat_opaque. rewrite span_app.
  - assert (EO : enc_opaque s = s).
    { clear - W3. unfold enc_opaque. induction s as [|c s IH]; [reflexivity|]. apply (qs_app SAFE_C0_CONTROL [c] s) in W3 as [A B].
      cbn [flat_map]. rewrite IH by auto. rewrite qs_id by auto. reflexivity. }
    rewrite EO, rt_tail by reflexivity. f_equal. etransitivity; [|exact rebuild]. rewrite P, W1. f_equal. f_equal. f_equal.
    assert (NC : includes_credentials u = false /\ port u = None).
    { destruct (includes_credentials u) eqn:IC; [destruct (W (or_introl eq_refl)) as (h & X & _); congruence|]. split; auto.
      destruct (port u) eqn:PU; [|reflexivity]. destruct W as (h & X & _); [right; discriminate|congruence]. }
    destruct NC as [IC PN]. rewrite PN. unfold includes_credentials in IC. apply orb_false_iff in IC as [I1 I2].
    destruct (username u); [|discriminate]. destruct (password u); [|discriminate]. reflexivity.
  - apply Forall_forall. rewrite forallb_forall in W4. exact W4.
  - pose proof (tail_head u). destruct (tail_str u); [exact I|]. now rewrite H.
Qed.
Lemma rt_nohost l : path u = PList l -> uhost u = None ->
  match dot_str ++ serialize_path u ++ tail_str u with
  | c :: r => c = 47 /\ starts_with [47] r = false /\ flat_path E enc (set_scheme (scheme u) new_url) r = Ok u
  | [] => False
  end.
Proof.
  intros P H. pose proof WF as ((_ & _ & _ & _ & W & _) & WP & _). unfold wf_path in WP. rewrite P in WP. destruct WP as (W1 & W2 & W3).
  unfold dot_str, serialize_path. rewrite H, P.
  assert (RB : Ok (set_fragment (fragment u) (set_query (query u) (set_path (path u) (set_scheme (scheme u) new_url)))) = Ok u).
  { f_equal. etransitivity; [|exact rebuild]. f_equal. f_equal. f_equal. 
    assert (NC : includes_credentials u = false /\ port u = None).
    { destruct (includes_credentials u) eqn:IC; [destruct (W (or_introl eq_refl)) as (h & X & _); congruence|]. split; auto.
      destruct (port u) eqn:PU; [|reflexivity]. destruct W as (h & X & _); [right; discriminate|congruence]. }
    destruct NC as [IC PN]. rewrite PN, H. unfold includes_credentials in IC. apply orb_false_iff in IC as [I1 I2].
    destruct (username u); [|discriminate]. destruct (password u); [|discriminate]. reflexivity. }
  destruct l as [|s l]; [destruct (W2 eq_refl); congruence|].
  destruct s as [|d s].
  - destruct l as [|s2 l].
    + cbn [serialize_segs flat_map app]. split; [reflexivity|split].
      * pose proof (tail_head u) as T. destruct (tail_str u) as [|c t]; [reflexivity|]. cbn [starts_with].
        destruct (47 =? c) eqn:Q; [|reflexivity]. apply N.eqb_eq in Q; subst. discriminate.
      * rewrite <- RB. apply (rt_path (set_scheme (scheme u) new_url) [[]]); auto. discriminate.
    + rewrite segs_join by discriminate. cbn [app]. split; [reflexivity|split; [reflexivity|]].
      rewrite <- RB. etransitivity; [|apply (rt_path (set_scheme (scheme u) new_url) ([] :: s2 :: l)); auto; discriminate].
      unfold flat_path. set (v := set_scheme (scheme u) new_url).
      change (46 :: 47 :: join [47] ([] :: s2 :: l) ++ tail_str u) with ((46 :: 47 :: join [47] ([] :: s2 :: l)) ++ tail_str u).
      rewrite (rt_path_span (is_special u) ([] :: s2 :: l)) by (auto; apply tail_head). rewrite span_app.
      * f_equal. f_equal. f_equal. assert (PC : pieces (is_special v) (46 :: 47 :: join [47] ([] :: s2 :: l)) = [46] :: pieces (is_special v) (join [47] ([] :: s2 :: l))).
        { change (46 :: 47 :: join [47] ([] :: s2 :: l)) with ([46] ++ 47 :: join [47] ([] :: s2 :: l)). apply pieces_cons; [|reflexivity].
          constructor; [|constructor]. destruct (is_special v); reflexivity. }
        rewrite PC. rewrite walk_cons by apply pieces_nonempty. reflexivity.
      * constructor; [reflexivity|]. constructor; [reflexivity|].
        pose proof (rt_path_span (is_special u) ([] :: s2 :: l) [] W1 I) as Q. rewrite app_nil_r in Q.
        pose proof (span_all (fun c => negb (is_qf c)) (join [47] ([] :: s2 :: l))) as A. rewrite Q in A. exact A.
      * pose proof (tail_head u) as T. destruct (tail_str u); [exact I|]. now rewrite T.
  - rewrite segs_join by discriminate. cbn [app]. split; [reflexivity|split].
    + assert (J : exists r, join [47] ((d :: s) :: l) = d :: r).
      { destruct l; [eexists; reflexivity|]. rewrite join_cons2. cbn [app]. eexists. reflexivity. }
      destruct J as [r ->]. cbn [app starts_with]. inversion W1 as [|? ? (_ & N & _) _]; subst. rewrite mem_cons in N.
      destruct (47 =? d); [discriminate|reflexivity].
    + rewrite <- RB. apply (rt_path (set_scheme (scheme u) new_url) ((d :: s) :: l)); auto. discriminate.
Qed.
Lemma rt_scheme base : flat_scheme E base enc (scheme u) (auth_of_url ++ dot_str ++ serialize_path u ++ tail_str u) = Ok u.
Proof.
  unfold flat_scheme. cbv zeta. destruct (str_eqb (scheme u) $"file") eqn:F.
  { apply str_eqb_eq in F. now apply rt_file. }
  apply str_eqb_neq in F. pose proof WF as ((_ & W1 & W2 & W & W3 & _) & WP & _). unfold wf_host, is_special in W.
  destruct (special_scheme (scheme u)) eqn:S.
  - unfold auth_of_url, dot_str. destruct (uhost u) as [h|] eqn:HU; [|discriminate]. cbn [app]. rewrite <- app_assoc.
    assert (R : host_rt E (scheme u) h). { destruct W as [[_ W]|[_ W]]; auto. now destruct F; apply W. }
    assert (G : flat_authority E enc (set_scheme (scheme u) new_url)
      (drop_while is_slash (47 :: 47 :: creds_str ++ (host_serialize h ++ port_str) ++ serialize_path u ++ tail_str u)) = Ok u).
    { cbn [drop_while]. change (is_slash 47) with true. cbv iota.
      rewrite app_assoc. assert (D : drop_while is_slash ((creds_str ++ host_serialize h ++ port_str) ++ serialize_path u ++ tail_str u) =
        (creds_str ++ host_serialize h ++ port_str) ++ serialize_path u ++ tail_str u).
      { assert (NH : match creds_str ++ host_serialize h ++ port_str with c :: _ => is_slash c = false | [] => False end).
        { unfold creds_str. pose proof (rt_nonempty _ _ _ R) as NE. destruct (includes_credentials u).
          - destruct (username u) as [|c t] eqn:U.
            + destruct (password u); reflexivity.
            + destruct (creds_chars c) as (_ & _ & A); [left; rewrite U; now left|]. unfold authc in A. rewrite mem4 in A.
              cbn [app]. unfold is_slash. change ($"/\") with [47; 92]. cbn [mem existsb]. lia.
          - cbn [app]. destruct (host_serialize h) as [|c t] eqn:HS; [congruence|]. destruct (rt_char _ _ _ R c) as [_ A]; [rewrite HS; now left|].
            rewrite mem4 in A. cbn [app]. unfold is_slash. change ($"/\") with [47; 92]. cbn [mem existsb]. lia. }
        destruct (creds_str ++ host_serialize h ++ port_str) as [|c t]; [destruct NH|]. cbn [app drop_while]. now rewrite NH. }
      rewrite D. apply rt_authority; auto. }
    destruct base as [b|]; [|exact G]. destruct (str_eqb (scheme b) (scheme u) && _) eqn:X; [|exact G].
    exfalso. change (starts_with $"//" (47 :: 47 :: creds_str ++ (host_serialize h ++ port_str) ++ serialize_path u ++ tail_str u)) with true in X.
    rewrite andb_false_r in X. discriminate.
  - destruct (uhost u) as [h|] eqn:HU.
    + unfold auth_of_url, dot_str. rewrite HU. cbn [app]. change (47 =? 47) with true. cbv iota. apply rt_authority; auto.
      destruct W as [[-> _]|[_ W]]; [right|left]; auto.
    + unfold auth_of_url. rewrite HU. cbn [app]. destruct (path u) as [s|l] eqn:P.
      * pose proof (rt_opaque s P) as O. unfold dot_str, serialize_path. rewrite HU, P. cbn [app].
        unfold wf_path in WP. rewrite P in WP. destruct WP as (_ & _ & _ & _ & W5 & _). pose proof (tail_head u) as T.
        destruct (s ++ tail_str u) as [|c t] eqn:Q; [exact O|]. replace (c =? 47) with false; [exact O|].
        destruct s as [|c' s]; cbn [app] in Q.
        -- rewrite Q in T. destruct (c =? 47) eqn:X; [|reflexivity]. apply N.eqb_eq in X; subst. discriminate.
        -- injection Q as -> _. change ($"/") with [47] in W5. cbn [starts_with] in W5. rewrite N.eqb_sym. destruct (47 =? c); [discriminate|reflexivity].
      * pose proof (rt_nohost l P HU) as G. destruct (dot_str ++ serialize_path u ++ tail_str u) as [|c r]; [destruct G|].
        destruct G as (-> & G1 & G2). change (47 =? 47) with true. cbv iota. destruct r as [|d r]; [exact G2|].
        cbn [starts_with] in G1. rewrite N.eqb_sym. destruct (47 =? d); [discriminate|exact G2].
Qed.
Lemma scheme_lower s : scheme_ok s -> lower s = s.
Proof.
  intros H. unfold lower. rewrite <- (map_id s) at 2. apply map_ext_in. intros c Hc. unfold lower1.
  assert (X : (97 <= c <= 122) \/ (48 <= c <= 57) \/ c = 43 \/ c = 45 \/ c = 46).
  { destruct s as [|d t]; [destruct Hc|]. destruct H as [H1 H2]. destruct Hc as [<-|Hc]; [lia|]. rewrite forallb_forall in H2. specialize (H2 c Hc).
    unfold scheme_tail_char in H2. lia. }
  replace ((65 <=? c) && (c <=? 90)) with false by lia. reflexivity.
Qed.
Lemma scheme_tail_is c : scheme_tail_char c = true -> is_scheme_char c = true.
Proof.
  intros H. assert (I : In c $"abcdefghijklmnopqrstuvwxyz0123456789+-."). { cbn. unfold scheme_tail_char in H. lia. }
  assert (Q : forallb is_scheme_char $"abcdefghijklmnopqrstuvwxyz0123456789+-." = true) by (vm_compute; reflexivity).
  rewrite forallb_forall in Q. now apply Q.
Qed.
Lemma scheme_split_app s t : scheme_ok s -> scheme_split (s ++ 58 :: t) = Some (s, t).
Proof.
  intros H. destruct s as [|c s]; [destruct H|]. destruct H as [H1 H2]. cbn [app scheme_split].
  assert (A : mem c ASCII_ALPHA = true).
  { assert (I : In c $"abcdefghijklmnopqrstuvwxyz") by (cbn; lia).
    assert (Q : forallb (fun c => mem c ASCII_ALPHA) $"abcdefghijklmnopqrstuvwxyz" = true) by (vm_compute; reflexivity).
    rewrite forallb_forall in Q. now apply Q. }
  rewrite A, span_app; [reflexivity| |reflexivity].
  apply Forall_forall. intros x Hx. rewrite forallb_forall in H2. now apply scheme_tail_is, H2.
Qed.
Lemma rt_main base : flat_main E base enc (href u) = Ok u.
Proof.
  rewrite href_eq. unfold flat_main. rewrite scheme_split_app by apply rt_scheme_ok. rewrite scheme_lower by apply rt_scheme_ok. apply rt_scheme.
Qed.

(* ---------- characters of href ---------- *)
Lemma qs_range safe s c : forallb (fun c => (32 <? c) && (c <=? 126)) (ALWAYS_SAFE ++ safe) = true -> qs safe s -> In c s -> 32 < c <= 126.
Proof. intros H Hq Hc. pose proof (qs_char safe _ s H Hq) as G. rewrite forallb_forall in G. specialize (G c Hc). cbv beta in G. lia. Qed.
Lemma tail_chars c : In c (tail_str u) -> 32 < c <= 126.
Proof.
  intros H. destruct WF as (_ & _ & W1 & W2). unfold tail_str in H. apply in_app_iff in H as [H|H].
  - destruct (query u) as [q|]; [|destruct H]. destruct H as [<-|H]; [lia|]. specialize (W1 q eq_refl). eapply qs_range; [|exact W1|exact H].
    unfold query_set. destruct (is_special u); vm_compute; reflexivity.
  - destruct (fragment u) as [f|]; [|destruct H]. destruct H as [<-|H]; [lia|]. specialize (W2 f eq_refl). eapply qs_range; [|exact W2|exact H].
    vm_compute; reflexivity.
Qed.
Lemma auth_chars c : In c auth_of_url -> 32 < c <= 126.
Proof.
  unfold auth_of_url. destruct (uhost u) as [h|] eqn:HU; [|intros []]. intros H. apply in_app_iff in H as [H|H]; [destruct H as [<-|[<-|[]]]; lia|].
  pose proof WF as ((_ & _ & _ & W & _) & _). unfold wf_host in W. rewrite HU in W. apply in_app_iff in H as [H|H].
  - unfold creds_str in H. destruct (includes_credentials u); [|destruct H]. apply in_app_iff in H as [H|H]; [apply creds_chars; now left|].
    apply in_app_iff in H as [H|[<-|[]]]; [|lia]. destruct (password u) as [|d p] eqn:P; [destruct H|]. destruct H as [<-|H]; [lia|].
    apply creds_chars. right. now rewrite P.
  - destruct W as [[-> _]|[_ R]]; [|now apply (hostport_chars h)]. apply port_chars in H. lia.
Qed.
Lemma path_chars c : In c (serialize_path u) -> 32 < c <= 126 \/ (c = 32 /\ exists s, path u = POpaque s /\ In c s).
Proof.
  intros H. pose proof WF as (_ & W & _). unfold wf_path in W. unfold serialize_path in H. destruct (path u) as [s|l].
  - destruct W as (_ & _ & Q & _). pose proof (qs_char SAFE_C0_CONTROL (fun c => (32 <=? c) && (c <=? 126)) s eq_refl Q) as G.
    rewrite forallb_forall in G. specialize (G c H). cbv beta in G. destruct (c =? 32) eqn:X; [right|left; lia]. split; [lia|]. eauto.
  - left. destruct W as (W & _). unfold serialize_segs in H. apply in_flat_map in H as (s & Hs & Hc). destruct Hc as [<-|Hc]; [lia|].
    rewrite Forall_forall in W. destruct (W s Hs) as (Q & _). eapply qs_range; [|exact Q|exact Hc]. vm_compute; reflexivity.
Qed.
Lemma scheme_chars c : In c (scheme u) -> 32 < c <= 126.
Proof.
  intros H. pose proof rt_scheme_ok as W. destruct (scheme u) as [|d t]; [destruct H|]. destruct W as [W1 W2]. destruct H as [<-|H]; [lia|].
  rewrite forallb_forall in W2. specialize (W2 c H). unfold scheme_tail_char in W2. lia.
Qed.
Lemma dot_chars c : In c dot_str -> 32 < c <= 126.
Proof. unfold dot_str. destruct (uhost u); [intros []|]. destruct (path u) as [|[|[|] [|]]]; try (intros []; fail). intros [<-|[<-|[]]]; lia. Qed.
Lemma href_chars c : In c (href u) -> 32 < c <= 126 \/ (c = 32 /\ exists s, path u = POpaque s /\ In c s).
Proof.
  rewrite href_eq. intros H. apply in_app_iff in H as [H|H]; [left; now apply scheme_chars|]. destruct H as [<-|H]; [left; lia|].
  apply in_app_iff in H as [H|H]; [left; now apply auth_chars|]. apply in_app_iff in H as [H|H]; [left; now apply dot_chars|].
  apply in_app_iff in H as [H|H]; [now apply path_chars|left; now apply tail_chars].
Qed.
Lemma tidy_app a b : tidy b -> (b = [] -> tidy a) -> tidy (a ++ b).
Proof.
  intros H1 H2 x c Q. destruct (rev_ind_inv b) as [->|(l & y & ->)].
  - rewrite app_nil_r in Q. now apply (H2 eq_refl x).
  - rewrite app_assoc in Q. apply app_inj_tail in Q as [_ <-]. now apply (H1 l).
Qed.
Lemma tidy_all s : (forall c, In c s -> 32 < c <= 126) -> tidy s.
Proof. intros H a c ->. apply H. apply in_app_iff. right. now left. Qed.
Lemma href_tidy : tidy (href u).
Proof.
  rewrite href_eq. rewrite app_assoc with (n := serialize_path u ++ tail_str u). 
  change (58 :: (auth_of_url ++ dot_str) ++ serialize_path u ++ tail_str u) with ([58] ++ (auth_of_url ++ dot_str) ++ serialize_path u ++ tail_str u).
  apply tidy_app; [apply tidy_app; [apply tidy_app; [apply tidy_app|]|]|].
  - apply tidy_all, tail_chars.
  - intros T. apply tail_nil in T as [T1 T2]. pose proof WF as (_ & W & _). unfold wf_path in W. destruct (path u) as [s|l] eqn:P.
    + unfold serialize_path. rewrite P. now apply W.
    + apply tidy_all. intros c Hc. apply path_chars in Hc as [Hc|(_ & s & Q & _)]; [auto|congruence].
  - intros _. apply tidy_all. intros c Hc. apply in_app_iff in Hc as [Hc|Hc]; [now apply auth_chars|now apply dot_chars].
  - intros _. apply tidy_all. intros c [<-|[]]. lia.
  - intros _. apply tidy_all. apply scheme_chars.
Qed.
Lemma drop_while_stop p s : match s with [] => True | c :: _ => p c = false end -> drop_while p s = s.
Proof. destruct s as [|c t]; [reflexivity|]. intros H. cbn [drop_while]. now rewrite H. Qed.
Lemma clean_id s : (forall c, In c s -> 32 <= c) -> tidy s -> match s with [] => True | c :: _ => 32 < c end -> clean s = s.
Proof.
  intros H T D. unfold clean, strip_c0, rstrip_by, remove_tabs.
  assert (D' : match s with [] => True | c :: _ => is_c0_space c = false end) by (destruct s as [|x s]; [exact I|unfold is_c0_space; lia]).
  rewrite (drop_while_stop is_c0_space s D').
  rewrite drop_while_stop, rev_involutive.
  - assert (F : forallb (fun c => negb (is_tab_newline c)) s = true).
    { apply forallb_forall. intros c Hc. specialize (H c Hc). unfold is_tab_newline. lia. }
    clear - F. induction s as [|c s IH]; [reflexivity|]. cbn [forallb filter] in *. apply andb_true_iff in F as [F1 F2]. rewrite F1. f_equal. auto.
  - destruct (rev_ind_inv s) as [->|(a & c & ->)]; [exact I|]. rewrite rev_app_distr. cbn [rev app]. specialize (T a c eq_refl). unfold is_c0_space. lia.
Qed.
Lemma href_clean : clean (href u) = href u.
Proof.
  apply clean_id.
  - intros c Hc. apply href_chars in Hc. lia.
  - apply href_tidy.
  - rewrite href_eq. pose proof rt_scheme_ok as W. destruct (scheme u); [destruct W|]. cbn [app]. destruct W. lia.
Qed.
Lemma rt_parse_main base e' : normalize_encoding E e' = enc -> flat_parse E (href u) base e' = Ok u.
Proof. intros Q. unfold flat_parse. rewrite Q, href_clean. apply rt_main. Qed.
End RT.

Lemma href_pystr E u : wf (host_rt E) u -> is_pystr (href u).
Proof.
  intros W. apply Forall_forall. intros c Hc. apply (href_chars E u W) in Hc. lia.
Qed.
(** parsing a serialization, against any base *)
Theorem reparse_record E u base enc : enc_ok E (normalize_encoding E enc) -> limit_ok E -> base_ok base -> wf (host_rt E) u ->
  snd (parse_new E (href u) base enc) = Ok u.
Proof. intros H1 H2 H3 H4. rewrite parse_new_flat by auto. eapply rt_parse_main; eauto. Qed.

Definition url_v4_ok (u : urlrec) : Prop := forall n, uhost u = Some (HIPv4 n) -> n < 4294967296.
Lemma wf_val_rt E u : limit_ok E -> idna_ok E -> url_v4_ok u -> wf (hostval E) u -> wf (host_rt E) u.
Proof.
  intros HL HI HV ((H1 & H2 & H3 & H4 & H5 & H6) & HW). split; [|exact HW]. repeat split; auto; try (now apply H6).
  unfold wf_host in *. destruct (uhost u) as [h|] eqn:U; [|auto]. destruct H4 as [H4|[H4 H4']]; [now left|]. right. split; auto.
  apply hostval_rt; auto. intros n ->. now apply HV.
Qed.
(** the record with an out-of-range IPv4 address reduced *)
Definition fix_v4 (u : urlrec) : urlrec :=
  match uhost u with Some (HIPv4 n) => set_host (Some (HIPv4 (n mod 4294967296))) u | _ => u end.

Lemma fix_v4_ok u : url_v4_ok (fix_v4 u).
Proof.
  intros n H. unfold fix_v4 in H. destruct (uhost u) as [[s|m|a]|] eqn:U; try congruence.
  cbn [uhost set_host] in H. injection H as <-. apply N.mod_lt. discriminate.
Qed.
Lemma fix_v4_id u : url_v4_ok u -> fix_v4 u = u.
Proof.
  intros H. unfold fix_v4. destruct (uhost u) as [[s|m|a]|] eqn:U; auto. rewrite N.mod_small by now apply H. rewrite <- U. destruct u; reflexivity.
Qed.
Lemma fix_v4_href u : href (fix_v4 u) = href u.
Proof.
  unfold fix_v4. destruct (uhost u) as [[s|m|a]|] eqn:U; auto.
  unfold href, serialize_url, includes_credentials, serialize_path.
  cbn [uhost set_host scheme username password port path query fragment]. rewrite U. cbn [host_serialize]. now rewrite <- ipv4_serialize_mod.
Qed.
(** the round trip for every well-formed record: up to reduction of IPv4 addresses *)
Lemma wf_fix E u : limit_ok E -> idna_ok E -> wf (hostval E) u -> wf (host_rt E) (fix_v4 u).
Proof.
  intros HL HI W. destruct (uhost u) as [[s|m|a]|] eqn:U.
  1,3,4: (unfold fix_v4; rewrite U; apply wf_val_rt; auto; intros n Hn; congruence).
  assert (R : hostval E (scheme u) (HIPv4 m)).
  { destruct W as ((_ & _ & _ & H4 & _) & _). unfold wf_host in H4. rewrite U in H4. destruct H4 as [[H4 _]|[_ H4]]; [discriminate|exact H4]. }
  assert (R2 : host_rt E (scheme u) (HIPv4 (m mod 4294967296))).
  { destruct R as [(h0 & _ & Hn & H) _].
    assert (SP : negb (special_scheme (scheme u)) = false).
    { rewrite host_parse_eq in H by auto. destruct (negb (special_scheme (scheme u))); [|reflexivity]. destruct (starts_with [91] h0).
      - destruct (ends_with_char h0 93); [|discriminate]. destruct (snd (ipv6_parse E _)); discriminate.
      - destruct (snd (parse_opaque_host h0)); discriminate. }
    apply hostval_rt; auto; [|discriminate|].
    - split; [|discriminate]. exists (ipv4_serialize (m mod 4294967296)). split; [apply ascii_pystr, ipv4_ascii|split; [apply ipv4_nonempty|]].
      rewrite SP. apply reparse_ipv4; auto. apply N.mod_lt. discriminate.
    - intros n Hq. injection Hq as <-. apply N.mod_lt. discriminate. }
  unfold fix_v4. rewrite U. destruct W as ((H1 & H2 & H3 & H4 & H5 & H6) & HW & HQ). split; [|split].
  - repeat split; auto; try (now apply H6); [|intros C].
    + unfold wf_host. cbn [uhost set_host]. right. split; [discriminate|exact R2].
    + destruct (H5 C) as (h & _ & _ & X). exists (HIPv4 (m mod 4294967296)). repeat split; auto. discriminate.
  - unfold wf_path in *. cbn [path set_host uhost query fragment]. destruct (path u); [destruct HW; congruence|].
    destruct HW as (A & B & C). repeat split; auto; [now apply B|discriminate].
  - exact HQ.
Qed.
Theorem reparse_fix E u base enc : enc_ok E (normalize_encoding E enc) -> limit_ok E -> idna_ok E -> base_ok base -> wf (hostval E) u ->
  snd (parse_new E (href u) base enc) = Ok (fix_v4 u).
Proof.
  intros H1 H2 H3 H4 H5. rewrite <- fix_v4_href. apply reparse_record; auto. now apply wf_fix.
Qed.
