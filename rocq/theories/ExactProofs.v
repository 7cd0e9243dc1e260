(** Exact forms of round-trip properties: the converse of C23, C49 and C57, and the
    characters of a serialization after any history of calls. *)
From Coq Require Import Ascii String.
From Coq Require Import NArith ZArith Bool Arith Lia ZifyBool ZifyN ZifyNat List.
From Verif Require Import PyStr PyInt Codec Env HostModel UrlRecord Parser SearchParams UrlApi FlatParser Lemmas CodecProofs QuoteProofs
  IPv4Proofs HostProofs FlatProofs WfProofs RoundTrip UrlProps LooseProofs ApiProofs ObjProofs ValidityProofs.
From Verif Require Import SpecText SpecHost SpecApi SpecUrl.
Import ListNotations.
Open Scope N_scope.

(* ---------- C23 ---------- *)
Lemma host_back E h ns x : limit_ok E -> idna_ok E -> is_pystr h -> snd (host_parse E h ns) = Ok x ->
  (snd (host_parse E (host_serialize x) ns) = Ok x <-> forall n, x = HIPv4 n -> n < 4294967296).
Proof.
  intros HL HI Hp H. split; [|now apply (host_round_trip E h)]. intros R n ->.
  assert (NS : ns = false).
  { destruct ns; [|reflexivity]. destruct h as [|c t]; [discriminate H|]. rewrite host_parse_eq in H by discriminate. destruct (starts_with [91] (c :: t)).
    - destruct (ends_with_char _ 93); [|discriminate]. destruct (snd (ipv6_parse E _)); discriminate.
    - destruct (snd (parse_opaque_host _)); discriminate. }
  subst ns. cbn [host_serialize] in R. rewrite ipv4_serialize_mod in R.
  pose proof (reparse_ipv4 E (n mod 4294967296) HL HI ltac:(apply N.mod_lt; discriminate)) as Q. cbn [host_serialize] in Q.
  rewrite Q in R. injection R as R. rewrite <- R. apply N.mod_lt. discriminate.
Qed.

(* ---------- characters of href ---------- *)
Lemma hostparsed_chars E sch h c : limit_ok E -> idna_ok E -> hostparsed E sch h -> h <> HStr [] -> In c (host_serialize h) -> 32 < c <= 126.
Proof.
  intros HL HI P N0 Hc. destruct h as [s|n|a] eqn:Q.
  2:{ cbn [host_serialize] in Hc. apply ipv4_chars in Hc. lia. }
  all: rewrite <- Q in *.
  all: assert (V : v4_ok h) by (intros m K; rewrite Q in K; discriminate).
  all: assert (exists sch', hostval E sch' h) as [sch' HV] by
   (destruct (special_scheme sch) eqn:SP;
    [exists $"http"; split; [|discriminate]; destruct P as (h0 & A & B & C); exists h0; rewrite SP in C; auto
    |exists sch; split; [exact P|intros ->; discriminate SP]]).
  all: exact (proj1 (rt_char _ _ _ (hostval_rt E sch' h HL HI HV N0 V) c Hc)).
Qed.
Lemma loose_href_chars E u c : limit_ok E -> idna_ok E -> loose E u -> In c (href u) ->
  32 < c <= 126 \/ (c = 32 /\ exists s, path u = POpaque s /\ In c s).
Proof.
  intros HL HI ((A1 & A2 & A3 & A4 & _) & B & C1 & C2) H. rewrite href_eq in H.
  assert (CR : forall x, In x (username u) \/ In x (password u) -> 32 < x <= 126).
  { intros x [X|X]; eapply qs_range; [|exact A2|exact X| |exact A3|exact X]; vm_compute; reflexivity. }
  apply in_app_iff in H as [H|H].
  { left. destruct (scheme u) as [|d t]; [destruct H|]. destruct A1 as [W1 W2]. destruct H as [<-|H]; [lia|].
    rewrite forallb_forall in W2. specialize (W2 c H). unfold scheme_tail_char in W2. lia. }
  destruct H as [<-|H]; [left; lia|]. apply in_app_iff in H as [H|H].
  { left. unfold auth_of_url in H. unfold wf_host in A4. destruct (uhost u) as [h|] eqn:U; [|destruct H].
    apply in_app_iff in H as [H|H]; [destruct H as [<-|[<-|[]]]; lia|]. apply in_app_iff in H as [H|H].
    - unfold creds_str in H. destruct (includes_credentials u); [|destruct H]. apply in_app_iff in H as [H|H]; [apply CR; now left|].
      apply in_app_iff in H as [H|[<-|[]]]; [|lia]. destruct (password u) as [|d p] eqn:P; [destruct H|]. destruct H as [<-|H]; [lia|]. apply CR. now right.
    - apply in_app_iff in H as [H|H].
      + destruct A4 as [[-> _]|[N0 P]]; [destruct H|]. now apply (hostparsed_chars E (scheme u) h).
      + apply port_chars in H. lia. }
  apply in_app_iff in H as [H|H]; [left; now apply dot_chars in H|]. apply in_app_iff in H as [H|H].
  - unfold loose_path in B. unfold serialize_path in H. destruct (path u) as [s|l].
    + destruct B as (_ & _ & Q & _). pose proof (qs_char SAFE_C0_CONTROL (fun c => (32 <=? c) && (c <=? 126)) s eq_refl Q) as G.
      rewrite forallb_forall in G. specialize (G c H). cbv beta in G. destruct (c =? 32) eqn:X; [right|left; lia]. split; [lia|]. eauto.
    + left. destruct B as (W & _). unfold serialize_segs in H. apply in_flat_map in H as (s & Hs & Hc). destruct Hc as [<-|Hc]; [lia|].
      rewrite Forall_forall in W. destruct (W s Hs) as (Q & _). eapply qs_range; [|exact Q|exact Hc]. vm_compute; reflexivity.
  - left. unfold tail_str in H. apply in_app_iff in H as [H|H].
    + destruct (query u) as [q|]; [|destruct H]. destruct H as [<-|H]; [lia|]. specialize (C1 q eq_refl). eapply qs_range; [|exact C1|exact H].
      unfold WfProofs.query_set. destruct (is_special u); vm_compute; reflexivity.
    + destruct (fragment u) as [f|]; [|destruct H]. destruct H as [<-|H]; [lia|]. specialize (C2 f eq_refl). eapply qs_range; [|exact C2|exact H].
      vm_compute; reflexivity.
Qed.
Lemma reached_href_chars E o c : limit_ok E -> idna_ok E -> reached E o -> In c (get_href o) ->
  33 <= c <= 126 \/ (c = 32 /\ exists s, path (o_url o) = POpaque s /\ In c s).
Proof.
  intros HL HI HR H. apply reached_inv in HR as (L & _). destruct (loose_href_chars (EE E) (o_url o) c HL (idna_validity E false HI) L H) as [K|K]; [left; lia|now right].
Qed.
Lemma reached_href_pystr E o : limit_ok E -> idna_ok E -> reached E o -> is_pystr (get_href o).
Proof. intros HL HI HR. apply Forall_forall. intros c Hc. apply (reached_href_chars E o c HL HI HR) in Hc. lia. Qed.

(* ---------- C49 ---------- *)
Lemma reparse_back E o : limit_ok E -> idna_ok E -> reached E o -> url_new E (get_href o) BNone = Ok o ->
  wf (hostval (EE E)) (o_url o) /\ url_v4_ok (o_url o).
Proof.
  intros HL HI HR H. unfold url_new in H. destruct (snd (parse_url (EE E) (get_href o) BNone UTF8)) as [v|] eqn:P; [|discriminate].
  assert (V : o_url o = v) by (injection H as H; now rewrite <- H). rewrite V.
  assert (W : wf (hostval (EE E)) v).
  { rewrite parse_url_none in P. eapply (parse_new_wf (EE E) (get_href o) None UTF8 v); eauto; [apply enc_utf8|now apply (reached_href_pystr E)|exact I]. }
  split; [exact W|]. rewrite parse_url_none in P. unfold get_href in P. rewrite V in P.
  rewrite (reparse_fix (EE E) v None UTF8) in P; [|apply enc_utf8|exact HL|now apply idna_validity|exact I|exact W].
  injection P as P. rewrite <- P. apply fix_v4_ok.
Qed.
Lemma reparse_exact E o : limit_ok E -> idna_ok E -> reached E o ->
  (url_new E (get_href o) BNone = Ok o <->
   url_v4_ok (o_url o) /\
   (port (o_url o) = Some 0 -> exists h, uhost (o_url o) = Some h /\ h <> HStr [] /\ scheme (o_url o) <> $"file") /\
   (scheme (o_url o) = $"file" -> uhost (o_url o) <> Some (HStr $"localhost") /\
     forall c d l, path (o_url o) = PList ([c; d] :: l) -> std_alpha c = true -> d <> 124)).
Proof.
  intros HL HI HR. split.
  - intros H. destruct (reparse_back E o HL HI HR H) as [((W1 & W2 & W3 & W4 & W5 & W6) & W7 & W8) V]. split; [exact V|]. split.
    + intros P. apply W5. right. congruence.
    + intros F. split.
      * unfold wf_host in W4. intros U. rewrite U in W4. destruct W4 as [[W4 _]|[_ [_ W4]]]; [discriminate|]. now apply W4.
      * intros c d l P A ->. unfold wf_path in W7. rewrite P in W7. destruct W7 as (_ & _ & W7). specialize (W7 F). cbv iota beta in W7.
        assert (X : is_normalized_windows_drive_letter [c; 124] = true).
        { apply W7. cbn [is_windows_drive_letter]. apply andb_true_iff. split; [|reflexivity]. apply mem_In.
          change ASCII_ALPHA with $"abcdefghijklmnopqrstuvwxyzABCDEFGHIJKLMNOPQRSTUVWXYZ". cbn. unfold std_alpha in A. lia. }
        unfold is_normalized_windows_drive_letter in X. apply andb_true_iff in X as [_ X]. discriminate X.
  - intros (V & P & F). now apply reached_reparse_std.
Qed.

(* ---------- C57 ---------- *)
Lemma origin_exact E o og : limit_ok E -> idna_ok E -> reached E o -> record_origin E (o_url o) = Ok (Some og) ->
  ((exists o' og', url_new E (get_href o) BNone = Ok o' /\ record_origin E (o_url o') = Ok (Some og') /\ is_same_origin og og' = true) <->
   url_v4_ok (o_url o)).
Proof.
  intros HL HI HR HO. split; [|intros V; now apply (reached_same_origin E o og)].
  intros (o' & og' & H & HO' & S). intros n U.
  pose proof HR as L. apply reached_inv in L as (L & _). pose proof L as ((A1 & A2 & A3 & A4 & A5 & A6 & A7) & B & C).
  destruct (str_in (scheme (o_url o)) [$"ftp"; $"http"; $"https"; $"ws"; $"wss"]) eqn:Q.
  2:{ destruct (str_eqb (scheme (o_url o)) $"blob") eqn:Q2.
      - exfalso. apply str_eqb_eq in Q2. unfold wf_host in A4. rewrite U in A4. destruct A4 as [[A4 _]|[_ (h0 & _ & Hn & A4)]]; [discriminate|].
        rewrite Q2 in A4. change (negb (special_scheme $"blob")) with true in A4. rewrite host_parse_eq in A4 by exact Hn. destruct (starts_with [91] h0).
        + destruct (ends_with_char h0 93); [|discriminate]. destruct (snd (ipv6_parse _ _)); discriminate.
        + destruct (snd (parse_opaque_host h0)); discriminate.
      - rewrite origin_other in HO; [discriminate| |now apply str_eqb_neq]. intros K. apply network_spec in K. congruence. }
  apply network_spec in Q. assert (NF : scheme (o_url o) <> $"file") by (intros K; rewrite K in Q; vm_compute in Q; intuition discriminate).
  assert (W : wf (hostval (EE E)) (o_url o)).
  { apply loose_wf; [exact L| |intros K; congruence]. intros _. exists (HIPv4 n). repeat split; auto. discriminate. }
  unfold url_new, get_href in H. rewrite parse_url_none in H.
  rewrite (reparse_fix (EE E) (o_url o) None UTF8) in H; [|apply enc_utf8|exact HL|now apply idna_validity|exact I|exact W].
  injection H as <-. cbn [o_url] in HO'. rewrite origin_network in HO by exact Q. injection HO as <-.
  assert (SC : scheme (fix_v4 (o_url o)) = scheme (o_url o)) by (unfold fix_v4; rewrite U; reflexivity).
  rewrite origin_network in HO' by (rewrite SC; exact Q). injection HO' as <-. apply same_origin_spec in S.
  unfold fix_v4 in S. rewrite U in S. cbn [uhost set_host] in S. unfold std_same_origin in S. cbn in S.
  destruct S as (_ & S & _). injection S as S. rewrite S. apply N.mod_lt. discriminate.
Qed.
