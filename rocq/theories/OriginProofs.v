(** The text of an origin. *)
From Coq Require Import Ascii String.
From Coq Require Import NArith ZArith Bool Arith Lia ZifyBool ZifyN ZifyNat List.
From Verif Require Import PyStr PyInt Codec Env HostModel UrlRecord Parser SearchParams UrlApi SpecText SpecHost FlatParser.
From Verif Require Import Lemmas CodecProofs QuoteProofs PyIntProofs LegacyProofs IPv4Proofs IPv6Proofs HostProofs LoopProofs FlatProofs WfProofs RoundTrip PathProofs IntGrammar HostStandard UrlProps
  SetterProofs LooseProofs ApiProofs ObjProofs ExactProofs CanonProofs HeldProofs.
From Verif Require Import SpecPyInt SpecUrl SpecApi SpecCanon SpecObjects.
Import ListNotations.
Open Scope N_scope.

Definition origin_url (og : origin) : urlrec := mkurl (og_scheme og) [] [] (og_host og) (og_port og) (PList [[]]) None None.
Definition origin_v4_ok (og : origin) : Prop := forall n, og_host og = Some (HIPv4 n) -> n < 4294967296.

Lemma origin_href og : og_host og <> None -> href (origin_url og) = origin_str og ++ $"/".
Proof.
  intros H. unfold href, serialize_url, origin_url, origin_str. cbn [scheme username password uhost port path query fragment].
  destruct (og_host og) as [h|]; [|now elim H]. change (includes_credentials _) with false. cbv iota.
  unfold serialize_path. cbn [path]. change (serialize_segs [[]]) with $"/".
  change ($"://") with ($":" ++ $"//"). rewrite ?app_nil_r, <- ?app_assoc. cbn [app]. reflexivity.
Qed.
(** the object whose scheme, host and port an origin has *)
Lemma origin_source E o og : limit_ok E -> idna_ok E -> reached E o -> record_origin E (o_url o) = Ok (Some og) ->
  exists p, reached E p /\ std_network_scheme (scheme (o_url p)) /\ og = mkorigin (scheme (o_url p)) (uhost (o_url p)) (port (o_url p)) None.
Proof.
  intros HL HI R O.
  destruct (str_in (scheme (o_url o)) [$"ftp"; $"http"; $"https"; $"ws"; $"wss"]) eqn:Q.
  - apply network_spec in Q. exists o. rewrite origin_network in O by exact Q. injection O as <-. now repeat split.
  - assert (Q' : ~ std_network_scheme (scheme (o_url o))) by (intros K; apply network_spec in K; congruence).
    destruct (list_eq_dec N.eq_dec (scheme (o_url o)) $"blob") as [B|B]; [|rewrite origin_other in O by assumption; discriminate O].
    rewrite origin_blob in O by exact B. destruct (url_new E (serialize_path (o_url o)) BNone) as [p|e] eqn:P; [|destruct (is_url_error e); discriminate O].
    destruct (str_in (scheme (o_url p)) [$"http"; $"https"]) eqn:S; [|discriminate O]. injection O as <-. exists p. split; [|split; [|reflexivity]].
    + apply (reached_new E (serialize_path (o_url o))); [|exact P]. pose proof (reached_href_pystr E o HL HI R) as H.
      unfold is_pystr in *. rewrite Forall_forall in *. intros c Hc. apply H. unfold get_href, href, serialize_url. rewrite !in_app_iff. tauto.
    + unfold str_in in S. cbn [existsb] in S. rewrite orb_false_r in S. unfold std_network_scheme. apply orb_true_iff in S as [S|S]; apply str_eqb_eq in S; rewrite S; vm_compute; tauto.
Qed.
Lemma origin_held E og p : limit_ok E -> idna_ok E -> reached E p -> std_network_scheme (scheme (o_url p)) ->
  og = mkorigin (scheme (o_url p)) (uhost (o_url p)) (port (o_url p)) None -> origin_v4_ok og ->
  og_host og <> None /\ code_canonical E (origin_url og).
Proof.
  intros HL HI R NS -> V. cbn [og_host]. assert (SP : std_special (scheme (o_url p))) by now apply network_special.
  assert (NF : scheme (o_url p) <> $"file") by (intros Q; rewrite Q in NS; vm_compute in NS; intuition discriminate).
  destruct (proj1 (held_objects E p HL HI)) as [H _]; [now split|].
  pose proof (held_host _ _ _ H) as H1. pose proof (held_scheme _ _ _ H) as H2. pose proof (held_port _ _ _ H) as H3.
  assert (NE : uhost (o_url p) <> None) by (intros Q; rewrite Q in H1; now apply H1).
  split; [exact NE|]. unfold code_canonical, origin_url. cbn [og_scheme og_host og_port].
  assert (NH : uhost (o_url p) <> Some (HStr [])).
  { intros Q. rewrite Q in H1. now apply NF, H1. }
  constructor; cbn [scheme username password uhost port path query fragment].
  - exact H2.
  - split; intros c [].
  - destruct (uhost (o_url p)) as [[[|c d]|n|a]|]; [now elim NH| | | |now elim NE]; destruct H1 as [H1|[H1 _]]; try exact H1; now elim NF.
  - intros _. now repeat split.
  - intros q Hq. now destruct (H3 q Hq).
  - cbv beta iota delta [canonical_path path]. split; [constructor; [|constructor]; split; [intros c []|]|split; [discriminate|intros Q; now elim NF]].
    unfold clean_segment. do 5 (split; [first [reflexivity|intros []]|]). intros _ [].
  - discriminate.
  - discriminate.
Qed.

Lemma host_slash E enc u a : is_special u = true -> flat_host E enc u a [] = flat_host E enc u a $"/".
Proof.
  intros S. unfold flat_host.
  assert (P : forall v, is_special v = true -> flat_path_start E enc v [] = flat_path_start E enc v $"/").
  { intros v SV. unfold flat_path_start. rewrite SV. reflexivity. }
  destruct (host_cut false a) as [h [ps|]].
  - destruct (length h =? 0)%nat; [reflexivity|]. destruct (snd (host_parse E h (is_not_special u))) as [x|]; [|reflexivity]. cbn [rbind].
    destruct (flat_port E (scheme u) ps) as [q|]; [|reflexivity]. cbn [rbind]. now apply P.
  - destruct (is_special u && _); [reflexivity|]. destruct (snd (host_parse E h (is_not_special u))) as [x|]; [|reflexivity]. cbn [rbind]. now apply P.
Qed.
Lemma slash_optional E enc sch a : scheme_ok sch -> special_scheme sch = true -> sch <> $"file" -> a <> [] ->
  (forall c, In c a -> ends_auth true c = false) ->
  flat_main E None enc (sch ++ $"://" ++ a) = flat_main E None enc ((sch ++ $"://" ++ a) ++ $"/").
Proof.
  intros SO SP NF NE A. unfold flat_main. change ($"://" ++ a) with (58 :: 47 :: 47 :: a). rewrite <- app_assoc. change ((58 :: 47 :: 47 :: a) ++ $"/") with (58 :: 47 :: 47 :: a ++ $"/").
  rewrite !scheme_split_app by exact SO. rewrite scheme_lower by exact SO. unfold flat_scheme. apply str_eqb_neq in NF. rewrite NF, SP.
  cbn [drop_while]. change (is_slash 47) with true. cbv iota. 
  assert (D : forall t, drop_while is_slash (a ++ t) = a ++ t).
  { intros t. destruct a as [|c a]; [now elim NE|]. cbn [app drop_while]. replace (is_slash c) with false; [reflexivity|]. symmetry.
    specialize (A c (or_introl eq_refl)). unfold ends_auth in A. apply orb_false_iff in A as [A1 A2]. unfold is_slash. change ($"/\") with [47; 92]. change ($"/?#") with [47; 63; 35] in A1. cbn [mem existsb] in *. lia. }
  rewrite <- (app_nil_r a) at 1. rewrite !D. unfold flat_authority.
  assert (SU : is_special (set_scheme sch new_url) = true) by exact SP.
  rewrite !SU. assert (FA : Forall (fun c => negb (ends_auth true c) = true) a) by (apply Forall_forall; intros c Hc; now rewrite (A c Hc)).
  rewrite !span_app by (exact FA || reflexivity || exact I).
  destruct (split_last 64 a) as [[ui hp]|]; [|now apply host_slash]. destruct (length hp =? 0)%nat; [reflexivity|]. apply host_slash.
  unfold set_creds. destruct (split_first 58 ui). exact SP.
Qed.
Lemma origin_text_null E o : get_origin E o = Ok $"null" <-> record_origin E (o_url o) = Ok None.
Proof.
  unfold get_origin. destruct (record_origin E (o_url o)) as [[og|]|e]; split; try discriminate; try reflexivity.
  intros H. exfalso. injection H as H. assert (I : In 58 (origin_str og)) by (unfold origin_str; rewrite in_app_iff; right; now left).
  rewrite H in I. vm_compute in I. intuition discriminate.
Qed.
Lemma origin_text_parses E o og : limit_ok E -> idna_ok E -> reached E o -> record_origin E (o_url o) = Ok (Some og) -> origin_v4_ok og ->
  exists o', url_new E (origin_str og) BNone = Ok o' /\ get_href o' = origin_str og ++ $"/" /\ record_origin E (o_url o') = Ok (Some og).
Proof.
  intros HL HI R O V. destruct (origin_source E o og HL HI R O) as (p & RP & NS & OG).
  destruct (origin_held E og p HL HI RP NS OG V) as [NH C]. exists (mkobj (origin_url og) []).
  assert (R' : reached E (mkobj (origin_url og) [])).
  { apply (held_listed E (mkobj (origin_url og) [])); [exact HL|exact HI|]. split; [|reflexivity]. apply canonical_held in C. apply C. }
  assert (V' : url_v4_ok (origin_url og)) by exact V.
  split; [|split].
  2:{ unfold get_href. now rewrite <- origin_href. }
  2:{ cbn [o_url]. rewrite origin_network; [|cbn [origin_url scheme]; now rewrite OG]. cbn [origin_url scheme uhost port]. now rewrite OG. }
  pose proof (proj2 (canonical_reparse E (mkobj (origin_url og) []) HL HI R' V') C) as P.
  unfold get_href in P. cbn [o_url] in P. rewrite origin_href in P by exact NH. rewrite <- P. clear P.
  assert (HI' : idna_ok (EE E)) by now apply idna_validity.
  assert (W : wf (host_rt (EE E)) (origin_url og)).
  { change (code_canonical E) with (code_canonical (EE E)) in C. apply wf_canonical in C as [C _]; [|exact HL|exact HI']. now apply wf_val_rt. }
  assert (SP : special_scheme (og_scheme og) = true) by (apply special_spec, network_special; now rewrite OG).
  assert (NF : og_scheme og <> $"file") by (rewrite OG; cbn [og_scheme]; intros Q; rewrite Q in NS; vm_compute in NS; intuition discriminate).
  pose proof (rt_scheme_ok (EE E) (origin_url og) W) as SO. cbn [origin_url scheme] in SO.
  destruct (og_host og) as [h|] eqn:HH; [|now elim NH].
  assert (RT : host_rt (EE E) (og_scheme og) h).
  { destruct W as ((_ & _ & _ & W & _) & _). unfold wf_host, is_special in W. cbn [origin_url uhost scheme] in W. rewrite HH, SP in W.
    destruct W as [[_ W]|[_ W]]; [now elim NF; apply W|exact W]. }
  set (a := host_serialize h ++ port_str (origin_url og)).
  assert (OS : origin_str og = og_scheme og ++ $"://" ++ a).
  { unfold origin_str, a, port_str. rewrite HH. cbn [origin_url port]. destruct (og_port og); reflexivity. }
  assert (CA : forall c, In c a -> 32 < c <= 126 /\ authc c = true) by (intros c Hc; now apply (hostport_chars (EE E) (origin_url og) h c RT)).
  assert (CH : forall c, In c (origin_str og ++ $"/") -> 32 < c).
  { intros c Hc. rewrite <- origin_href in Hc by congruence. apply (href_chars (EE E) (origin_url og) W) in Hc as [Hc|(_ & t & Q & _)]; [lia|discriminate Q]. }
  assert (CL : forall t, (forall c, In c t -> 32 < c) -> clean t = t).
  { intros t Ht. apply clean_id.
    - intros c Hc. specialize (Ht c Hc). lia.
    - intros x c ->. apply Ht. apply in_or_app. right. now left.
    - destruct t as [|c t]; [exact I|]. apply Ht. now left. }
  unfold url_new. change (with_validity E false) with (EE E). rewrite !parse_url_none, !parse_new_flat by exact I. unfold flat_parse.
  rewrite !CL; [|exact CH|intros c Hc; apply CH, in_or_app; now left]. rewrite OS.
  rewrite slash_optional; [reflexivity|exact SO|exact SP|exact NF| |].
  - unfold a. pose proof (rt_nonempty _ _ _ RT) as NE. now destruct (host_serialize h).
  - intros c Hc. destruct (CA c Hc) as [_ AC]. apply (authc_ends true) in AC. now apply negb_true_iff in AC.
Qed.
Lemma origin_text_inj E o1 o2 og1 og2 : limit_ok E -> idna_ok E -> reached E o1 -> reached E o2 ->
  record_origin E (o_url o1) = Ok (Some og1) -> record_origin E (o_url o2) = Ok (Some og2) -> origin_v4_ok og1 -> origin_v4_ok og2 ->
  (get_origin E o1 = get_origin E o2 <-> is_same_origin og1 og2 = true).
Proof.
  intros HL HI R1 R2 O1 O2 V1 V2. unfold get_origin. rewrite O1, O2. split.
  - intros Q. injection Q as Q. destruct (origin_text_parses E o1 og1 HL HI R1 O1 V1) as (p1 & P1 & _ & Q1).
    destruct (origin_text_parses E o2 og2 HL HI R2 O2 V2) as (p2 & P2 & _ & Q2). rewrite Q, P2 in P1. injection P1 as <-.
    rewrite Q1 in Q2. injection Q2 as <-. apply same_origin_equiv.
  - rewrite same_origin_spec. intros (Q1 & Q2 & Q3). unfold origin_str. now rewrite Q1, Q2, Q3.
Qed.
Lemma origin_prefix E o : reached E o -> std_network_scheme (scheme (o_url o)) -> username (o_url o) = [] -> password (o_url o) = [] ->
  exists t r, get_origin E o = Ok t /\ get_href o = t ++ 47 :: r.
Proof.
  intros R NS U P. apply reached_inv in R as (((A1 & A2 & A3 & A4 & A5 & A6 & A7) & B & C) & _).
  assert (SP : is_special (o_url o) = true) by (apply special_spec; now apply network_special).
  unfold get_origin. rewrite origin_network by exact NS. unfold get_href, href, serialize_url, origin_str. cbn [og_scheme og_host og_port].
  unfold wf_host in A4. rewrite SP in A4. destruct (uhost (o_url o)) as [h|]; [|discriminate A4].
  assert (IC : includes_credentials (o_url o) = false) by (unfold includes_credentials; now rewrite U, P). rewrite IC.
  unfold loose_path in B. unfold serialize_path. destruct (path (o_url o)) as [s|[|s l]].
  - exfalso. destruct B as (_ & B & _). congruence.
  - exfalso. destruct B as (_ & B). destruct (B eq_refl) as [B' _]. congruence.
  - eexists. eexists. split; [reflexivity|]. change ($"://") with ($":" ++ $"//"). rewrite <- !app_assoc, !app_nil_l.
    change (serialize_segs (s :: l)) with (47 :: s ++ serialize_segs l). reflexivity.
Qed.
Lemma origin_text_object E o og : limit_ok E -> idna_ok E -> reached E o -> record_origin E (o_url o) = Ok (Some og) -> origin_v4_ok og ->
  exists t o', get_origin E o = Ok t /\ url_new E t BNone = Ok o' /\ get_href o' = t ++ $"/" /\
               get_origin E o' = Ok t /\ record_origin E (o_url o') = Ok (Some og).
Proof.
  intros HL HI R O V. destruct (origin_text_parses E o og HL HI R O V) as (o' & H1 & H2 & H3). exists (origin_str og), o'.
  unfold get_origin. rewrite O, H3. auto.
Qed.
