(** Assigning a component the value that its getter returns. *)
From Coq Require Import Ascii String.
From Coq Require Import NArith ZArith Bool Arith Lia ZifyBool ZifyN ZifyNat List.
From Verif Require Import PyStr PyInt Codec Env HostModel UrlRecord Parser SearchParams UrlApi SpecText SpecHost FlatParser.
From Verif Require Import Lemmas CodecProofs QuoteProofs PyIntProofs LegacyProofs IPv4Proofs HostProofs LoopProofs FlatProofs WfProofs RoundTrip LooseProofs SetterProofs ParserProofs PathProofs UrlProps ParamProofs ApiProofs ObjProofs ValidityProofs.
From Verif Require Import SpecApi SpecUrl.
Import ListNotations.
Open Scope N_scope.

Notation EE E := (with_validity E false).
Lemma visible_tabs s : (forall c, In c s -> 32 <= c) -> remove_tabs s = s.
Proof.
  intros H. apply remove_tabs_id. apply Forall_forall. intros c Hc. specialize (H c Hc). unfold is_tab_newline. lia.
Qed.
Lemma qs_low safe s : forallb (fun c => 32 <=? c) (ALWAYS_SAFE ++ safe) = true -> qs safe s -> remove_tabs s = s.
Proof. intros H Q. apply visible_tabs. intros c Hc. pose proof (qs_char safe _ s H Q) as F. rewrite forallb_forall in F. specialize (F c Hc). cbv beta in F. lia. Qed.
Lemma same_fragment u f : fragment u = f -> set_fragment f u = u. Proof. intros <-. now destruct u. Qed.
Lemma same_query u q : query u = q -> set_query q u = u. Proof. intros <-. now destruct u. Qed.
Lemma same_path u p : path u = p -> set_path p u = u. Proof. intros <-. now destruct u. Qed.
Lemma same_port u p : port u = p -> set_port p u = u. Proof. intros <-. now destruct u. Qed.
Lemma same_host u h : uhost u = h -> set_host h u = u. Proof. intros <-. now destruct u. Qed.
Lemma same_scheme u : set_scheme (scheme u) u = u. Proof. now destruct u. Qed.
Lemma same_username u : set_username (username u) u = u. Proof. now destruct u. Qed.
Lemma same_password u : set_password (password u) u = u. Proof. now destruct u. Qed.

Lemma host_eq_dec h : {h = HStr []} + {h <> HStr []}.
Proof. destruct h as [[|]| |]; [now left|right; discriminate..]. Qed.

Lemma truthy_nz q p : q = Some p -> p <> 0 -> port_truthy q = true.
Proof. intros -> H. cbn [port_truthy]. lia. Qed.

Section GS.
Variable E : env.
Variable o : urlobj.
Hypothesis HR : reached E o.
Notation u := (o_url o).

Lemma gs_loose : loose (EE E) u. Proof. now apply reached_inv in HR as (H & _). Qed.
Lemma gs_list : o_list o = attach_list u. Proof. now apply reached_inv in HR as (_ & _ & H). Qed.

Lemma gs_username : set_attr E (SetUsername (get_username o)) o = (o, Ok tt).
Proof.
  cbn [set_attr]. cbv zeta. destruct (cannot_have_username_password_port u); [reflexivity|]. unfold get_username.
  destruct gs_loose as ((_ & A & _) & _). rewrite qs_id by exact A. now rewrite same_username, obj_eta.
Qed.
Lemma gs_password : set_attr E (SetPassword (get_password o)) o = (o, Ok tt).
Proof.
  cbn [set_attr]. cbv zeta. destruct (cannot_have_username_password_port u); [reflexivity|]. unfold get_password.
  destruct gs_loose as ((_ & _ & A & _) & _). rewrite qs_id by exact A. now rewrite same_password, obj_eta.
Qed.
Lemma gs_protocol : set_attr E (SetProtocol (get_protocol o)) o = (o, Ok tt).
Proof.
  cbn [set_attr]. cbv zeta. rewrite reparse_scheme. destruct gs_loose as ((A & _ & _ & _ & _ & P & _) & _).
  unfold get_protocol. rewrite visible_tabs.
  2:{ intros c Hc. apply in_app_iff in Hc as [Hc|[<-|[]]]; [|vm_compute; discriminate]. apply in_app_iff in Hc as [Hc|[<-|[]]]; [|vm_compute; discriminate].
      apply scheme_ok_std in A as [A _]. clear - A Hc. destruct (scheme u) as [|x s]; [destruct Hc|].
      cbn [std_scheme] in A. apply andb_true_iff in A as [A1 A2]. rewrite forallb_forall in A2. destruct Hc as [<-|Hc].
      - unfold std_alpha in A1. lia.
      - specialize (A2 c Hc). unfold std_scheme_char, std_alpha, std_digit in A2. lia. }
  change ((scheme u ++ $":") ++ $":") with ((scheme u ++ [58]) ++ [58]). rewrite <- app_assoc. cbn [app]. rewrite scheme_split_app by exact A.
  rewrite scheme_lower by exact A. destruct (scheme_blocked u (scheme u)); [unfold with_url; cbn [fst snd]; now rewrite obj_eta|].
  unfold put_scheme. replace (port_truthy (port u) && on_eqb (default_port (scheme u)) (port u)) with false.
  - unfold with_url. cbn [fst snd]. now rewrite same_scheme, obj_eta.
  - symmetry. destruct (port u) as [p|] eqn:Q; [|reflexivity]. destruct (P p eq_refl) as [_ D].
    destruct (default_port (scheme u)) as [d|]; [|now rewrite andb_false_r]. cbn [on_eqb]. destruct (d =? p) eqn:X; [|now rewrite andb_false_r]. exfalso. apply D. f_equal. lia.
Qed.
Lemma digits_span (s t : str) : (forall c, In c s -> 48 <= c <= 57) -> t = [] -> span (fun c => mem c ASCII_DIGITS) (s ++ t) = (s, t).
Proof.
  intros H ->. apply span_app; [|exact I]. apply Forall_forall. intros c Hc. specialize (H c Hc).
  apply mem_In. change ASCII_DIGITS with [48;49;50;51;52;53;54;55;56;57]. cbn [In]. lia.
Qed.
Lemma dec_digits p c : In c (dec_str p) -> 48 <= c <= 57.
Proof. intros I. pose proof (dec_str_digits p) as F. rewrite Forall_forall in F. exact (F c I). Qed.
Lemma put_port_same v p : limit_ok E -> scheme v = scheme u -> port u = Some p -> put_port (EE E) v (dec_str p) = (set_port (Some p) v, Ok tt).
Proof.
  intros HE HS Q. destruct gs_loose as ((_ & _ & _ & _ & _ & P & _) & _). destruct (P p Q) as [P1 P2].
  unfold put_port. pose proof (digits_span (dec_str p) [] (dec_digits p) eq_refl) as SP. rewrite app_nil_r in SP. rewrite SP. cbn [fst].
  assert (FP : flat_port (EE E) (scheme v) (dec_str p) = Ok (Some p)).
  { rewrite HS. unfold flat_port. replace (forallb _ (dec_str p)) with true.
    2:{ symmetry. apply forallb_forall. intros c Hc. apply dec_digits in Hc. apply mem_In. change ASCII_DIGITS with [48;49;50;51;52;53;54;55;56;57]. cbn [In]. lia. }
    rewrite e_int_dec by (auto; lia). rewrite N2Z.id. replace (65535 <? p) with false by lia. cbv zeta.
    replace (on_eqb (default_port (scheme u)) (Some p)) with false.
    - destruct (dec_str p) eqn:D; [|reflexivity]. exfalso. eapply dec_str_nonempty; exact D.
    - symmetry. destruct (default_port (scheme u)) as [d|]; [|reflexivity]. cbn [on_eqb]. destruct (d =? p) eqn:X; [|reflexivity]. exfalso. apply P2. f_equal. lia. }
  rewrite FP. destruct (dec_str p) eqn:D; [|reflexivity]. exfalso. eapply dec_str_nonempty; exact D.
Qed.
Lemma gs_port : limit_ok E -> set_attr E (SetPort (get_port o)) o = (o, Ok tt).
Proof.
  intros HE. cbn [set_attr]. cbv zeta. destruct (cannot_have_username_password_port u); [reflexivity|]. unfold get_port.
  destruct (port u) as [p|] eqn:Q.
  - destruct (dec_str p) as [|c t] eqn:D; [exfalso; eapply dec_str_nonempty; exact D|]. rewrite <- D. rewrite reparse_port.
    rewrite visible_tabs by (intros x Hx; apply dec_digits in Hx; lia). rewrite (put_port_same u p HE eq_refl Q).
    unfold with_url. cbn [fst snd]. now rewrite same_port, obj_eta.
  - now rewrite same_port, obj_eta.
Qed.
Lemma rstrip_tidy s : qs SAFE_C0_CONTROL s -> tidy s -> rstrip_by (is_py_space E) s = s.
Proof.
  intros Q T. destruct (rstrip_split (is_py_space E) s) as (w & W & F). destruct w as [|c w] using rev_ind; [now rewrite app_nil_r in W|]. exfalso. clear IHw.
  assert (32 < c) by (apply (T (rstrip_by (is_py_space E) s ++ w)); now rewrite <- app_assoc).
  apply Forall_app in F as [_ F]. inversion F as [|? ? Fc _]; subst. rewrite py_space_c0 in Fc; [lia|].
  apply (c0_safe_char s); [exact Q|]. rewrite W. apply in_or_app. right. apply in_or_app. right. now left.
Qed.
Lemma rstrip_same : potentially_rstrip E u = u.
Proof.
  destruct gs_loose as (_ & P & _). unfold potentially_rstrip, loose_path in *. destruct (path u) as [s|l] eqn:Q; [|reflexivity].
  destruct P as (_ & _ & P1 & _ & _ & P2). destruct (fragment u); [reflexivity|]. destruct (query u); [reflexivity|].
  rewrite rstrip_tidy by auto. now apply same_path.
Qed.
Lemma gs_hash : fragment u <> Some [] -> set_attr E (SetHash (get_hash o)) o = (o, Ok tt).
Proof.
  intros HF. cbn [set_attr]. cbv zeta. unfold get_hash. destruct (fragment u) as [[|c f]|] eqn:Q; [congruence| |].
  - cbv iota. unfold strip_char. change (35 =? 35) with true. cbv iota. rewrite reparse_fragment. destruct gs_loose as (_ & _ & _ & B).
    specialize (B _ Q). rewrite (qs_low SAFE_FRAGMENT) by (auto; vm_compute; reflexivity). unfold enc_fragment. rewrite qs_id by exact B.
    unfold with_url. cbn [fst snd]. now rewrite same_fragment, obj_eta.
  - now rewrite same_fragment, rstrip_same, obj_eta.
Qed.
Lemma gs_search : query u <> Some [] -> set_attr E (SetSearch (get_search o)) o = (o, Ok tt).
Proof.
  intros HF. cbn [set_attr]. cbv zeta. unfold get_search. destruct (query u) as [[|c f]|] eqn:Q; [congruence| |].
  - cbv iota. unfold strip_char. change (63 =? 63) with true. cbv iota. rewrite reparse_query. destruct gs_loose as (_ & _ & B & _).
    specialize (B _ Q). unfold put_query. rewrite (qs_low (query_set u)) by (auto; unfold query_set; destruct (is_special u); vm_compute; reflexivity).
    rewrite qs_id by exact B. cbv iota. rewrite same_query by exact Q. now rewrite <- gs_list, obj_eta.
  - rewrite same_query by exact Q. rewrite rstrip_same. now rewrite <- gs_list, obj_eta.
Qed.
(** the empty fragment and the empty query have the same getter value as none *)
Lemma gs_hash_empty : fragment u = Some [] -> set_attr E (SetHash (get_hash o)) o = (mkobj (potentially_rstrip E (set_fragment None u)) (o_list o), Ok tt).
Proof. intros Q. cbn [set_attr]. cbv zeta. unfold get_hash. now rewrite Q. Qed.
Lemma gs_search_empty : query u = Some [] -> set_attr E (SetSearch (get_search o)) o = (mkobj (potentially_rstrip E (set_query None u)) [], Ok tt).
Proof. intros Q. cbn [set_attr]. cbv zeta. unfold get_search. rewrite Q. cbv iota. unfold attach_list. rewrite rstrip_query. reflexivity. Qed.

Lemma gs_pathname : (scheme u = $"file" -> forall c d l, path u = PList ([c; d] :: l) -> std_alpha c = true -> d <> 124) ->
  set_attr E (SetPathname (get_pathname o)) o = (o, Ok tt).
Proof.
  intros HF. cbn [set_attr]. cbv zeta. destruct gs_loose as ((_ & _ & _ & WH & _) & P & _). unfold has_opaque_path, loose_path in *.
  destruct (path u) as [s|l] eqn:Q; [reflexivity|]. destruct P as [P1 P2]. rewrite reparse_path. unfold get_pathname, serialize_path. rewrite Q.
  assert (FF : file_first (scheme u) l).
  { intros F. destruct l as [|s l]; [exact I|]. intros W. unfold is_normalized_windows_drive_letter. rewrite W.
    destruct s as [|c [|d [|x t]]]; try discriminate W. cbn [is_windows_drive_letter andb] in *. apply andb_true_iff in W as [W1 W2].
    destruct (d =? 58) eqn:X; [reflexivity|]. exfalso. apply (HF F c d l eq_refl); [now apply PathProofs.alpha_class|].
    apply mem_In in W2. destruct W2 as [<-|[<-|[]]]; [discriminate X|reflexivity]. }
  assert (PP : put_path u (remove_tabs (serialize_segs l)) = l).
  { destruct l as [|s l].
    - destruct (P2 eq_refl) as [NS NH]. cbn. unfold put_path. rewrite NS. destruct (uhost u); [reflexivity|congruence].
    - rewrite visible_tabs.
      2:{ intros c Hc. rewrite segs_join in Hc by discriminate. destruct Hc as [<-|Hc]; [lia|]. apply join_chars in Hc as [->|(x & Hx & Hc)]; [lia|].
          rewrite Forall_forall in P1. destruct (P1 x Hx) as (A & _). apply (qs_range SAFE_PATH x c) in A; [lia|vm_compute; reflexivity|exact Hc]. }
      rewrite segs_join by discriminate. unfold put_path. destruct (is_special u) eqn:SP.
      + change (is_slash 47) with true. cbv iota. rewrite (rt_pieces true) by (auto; discriminate). rewrite (rt_walk (scheme u) true) by (auto; discriminate). reflexivity.
      + change (47 =? 47) with true. cbv iota. rewrite (rt_pieces false) by (auto; discriminate). rewrite (rt_walk (scheme u) false) by (auto; discriminate). reflexivity. }
  rewrite PP. unfold with_url. cbn [fst snd]. now rewrite same_path, obj_eta.
Qed.

Lemma host_scan_rt h t : host_rt (EE E) (scheme u) h -> t = [] \/ (exists p, t = 58 :: p /\ forall c, In c p -> 48 <= c <= 57) ->
  host_scan (is_special u) false (host_serialize h ++ t) = (host_serialize h, t).
Proof.
  intros R Ht. assert (A : Forall (fun c => ends_auth (is_special u) c = false) (host_serialize h ++ t)).
  { apply Forall_app. split.
    - apply Forall_forall. intros c Hc. apply (rt_char _ _ _ R) in Hc as [_ Hc]. pose proof (authc_ends (is_special u) c) as X. unfold authc in X. rewrite Hc in X. specialize (X eq_refl). now apply negb_true_iff in X.
    - destruct Ht as [->|(p & -> & Hp)]; [constructor|]. constructor; [destruct (is_special u); reflexivity|]. apply Forall_forall. intros c Hc. specialize (Hp c Hc).
      pose proof (authc_ends (is_special u) c) as X. unfold authc in X. rewrite mem4 in X.
      replace ((c =? 47) || ((c =? 92) || ((c =? 63) || ((c =? 35) || ((c =? 64) || false))))) with false in X by lia. specialize (X eq_refl). now apply negb_true_iff in X. }
  pose proof (host_scan_cut (is_special u) (host_serialize h ++ t) [] false A I) as C. rewrite app_nil_r in C. rewrite C.
  rewrite (rt_cut _ _ _ R) by (destruct Ht as [->|(p & -> & _)]; eauto). destruct Ht as [->|(p & -> & _)]; cbn [fst snd]; now rewrite ?app_nil_r.
Qed.

Lemma empty_host st : st = HOST \/ st = HOSTNAME -> (scheme u = $"file" \/ is_special u = false) -> includes_credentials u = false -> port_truthy (port u) = false ->
  put_host (EE E) st u [] = (set_host (Some (HStr [])) u, Ok tt).
Proof.
  intros Hst HS IC PT. unfold put_host. destruct (str_eqb (scheme u) $"file") eqn:F; [reflexivity|]. assert (NS : is_special u = false).
  { destruct HS as [HS|HS]; [|exact HS]. rewrite HS in F. discriminate F. }
  cbn [host_scan cur]. cbn [isc length Nat.eqb andb]. rewrite NS, IC, PT. cbn [orb]. unfold is_not_special. unfold is_special in NS. rewrite NS. reflexivity.
Qed.
Lemma gs_rt h : limit_ok E -> idna_ok E -> url_v4_ok u -> (scheme u = $"file" -> uhost u <> Some (HStr $"localhost")) ->
  uhost u = Some h -> h <> HStr [] -> host_rt (EE E) (scheme u) h.
Proof.
  intros HL HI HV HF HU HN. destruct gs_loose as ((_ & _ & _ & W & _) & _). unfold wf_host in W. rewrite HU in W. destruct W as [[W _]|[_ W]]; [contradiction|].
  apply hostval_rt; auto.
  - now apply idna_validity.
  - split; [exact W|]. intros F Q. apply (HF F). now rewrite HU, Q.
  - intros n ->. now apply HV.
Qed.
Lemma gs_put_host h st : st = HOST \/ st = HOSTNAME -> host_rt (EE E) (scheme u) h -> uhost u = Some h ->
  put_host (EE E) st u (host_serialize h) = (u, Ok tt).
Proof.
  intros Hst R HU. assert (HN := rt_nonempty _ _ _ R). unfold put_host. destruct (str_eqb (scheme u) $"file") eqn:F.
  - apply str_eqb_eq in F. unfold put_file_host. replace (host_serialize h) with (host_serialize h ++ []) by apply app_nil_r. rewrite span_app; [|apply Forall_forall|exact I].
    + cbn [fst]. pose proof (rt_parse _ _ _ R) as P. destruct (host_serialize h) as [|x t]; [contradiction|].
      unfold is_not_special. rewrite P, (rt_local _ _ _ R F), same_host by exact HU. reflexivity.
    + intros c Hc. rewrite ?app_nil_r in Hc. apply (rt_char _ _ _ R) in Hc as [_ Hc]. change ($"/\?#") with [47; 92; 63; 35]. change ($"/\?#@") with [47; 92; 63; 35; 64] in Hc.
      cbn [mem existsb] in *. lia.
  - pose proof (host_scan_rt h [] R (or_introl eq_refl)) as S1. rewrite app_nil_r in S1. rewrite S1. cbn [cur isc].
    replace (length (host_serialize h) =? 0)%nat with false by (symmetry; destruct (host_serialize h); [contradiction|reflexivity]). cbn [andb].
    unfold is_not_special. rewrite (rt_parse _ _ _ R), same_host by exact HU. reflexivity.
Qed.
Lemma gs_put_host_port h p : limit_ok E -> host_rt (EE E) (scheme u) h -> uhost u = Some h -> port u = Some p -> scheme u <> $"file" ->
  put_host (EE E) HOST u (host_serialize h ++ 58 :: dec_str p) = (u, Ok tt).
Proof.
  intros HL R HU HP F. assert (HN := rt_nonempty _ _ _ R). unfold put_host. replace (str_eqb (scheme u) $"file") with false by (symmetry; now apply str_eqb_neq).
  rewrite (host_scan_rt h (58 :: dec_str p) R) by (right; eexists; split; [reflexivity|apply dec_digits]). cbn [cur isc tl]. change (58 =? 58) with true. cbv iota.
  replace (length (host_serialize h) =? 0)%nat with false by (symmetry; destruct (host_serialize h); [contradiction|reflexivity]). cbn [is_hostname_override].
  unfold is_not_special. rewrite (rt_parse _ _ _ R), same_host by exact HU. rewrite (put_port_same u p HL eq_refl HP). now rewrite same_port.
Qed.
Lemma gs_empty : uhost u = None \/ uhost u = Some (HStr []) -> has_opaque_path u = false ->
  (scheme u = $"file" \/ is_special u = false) /\ includes_credentials u = false /\ port_truthy (port u) = false.
Proof.
  intros HU HO. destruct gs_loose as ((_ & _ & _ & W & L & _) & _). split; [|split].
  - unfold wf_host in W. destruct HU as [HU|HU]; rewrite HU in W.
    + right. tauto.
    + destruct W as [[_ W]|[W _]]; [|congruence]. destruct (is_special u); [left; now apply W|now right].
  - destruct (includes_credentials u); [|reflexivity]. destruct (L (or_introl eq_refl)) as (h & X & Y & _). destruct HU; congruence.
  - destruct (port_truthy (port u)); [|reflexivity]. destruct (L (or_intror eq_refl)) as (h & X & Y & _). destruct HU; congruence.
Qed.
Lemma gs_hostname : limit_ok E -> idna_ok E -> url_v4_ok u -> (scheme u = $"file" -> uhost u <> Some (HStr $"localhost")) ->
  uhost u <> None \/ has_opaque_path u = true -> set_attr E (SetHostname (get_hostname o)) o = (o, Ok tt).
Proof.
  intros HL HI HV HF HN. cbn [set_attr]. cbv zeta. destruct (has_opaque_path u) eqn:HO; [reflexivity|]. destruct HN as [HN|HN]; [|discriminate].
  rewrite reparse_hostname. unfold get_hostname, serialize_host. destruct (uhost u) as [h|] eqn:HU; [|contradiction].
  destruct (host_eq_dec h) as [->|NE].
  - cbn [host_serialize remove_tabs filter]. destruct (gs_empty (or_intror HU) HO) as (A & B & C). rewrite empty_host by auto.
    unfold with_url. cbn [fst snd]. now rewrite same_host, obj_eta.
  - rewrite <- HU in HF. pose proof (gs_rt h HL HI HV HF HU NE) as R. rewrite visible_tabs by (intros c Hc; apply (rt_char _ _ _ R) in Hc; lia).
    rewrite gs_put_host by auto. unfold with_url. cbn [fst snd]. now rewrite obj_eta.
Qed.
Lemma gs_host : limit_ok E -> idna_ok E -> url_v4_ok u -> (scheme u = $"file" -> uhost u <> Some (HStr $"localhost")) -> sound_port u ->
  uhost u <> None \/ has_opaque_path u = true -> set_attr E (SetHost (get_host o)) o = (o, Ok tt).
Proof.
  intros HL HI HV HF HP HN. cbn [set_attr]. cbv zeta. destruct (has_opaque_path u) eqn:HO; [reflexivity|]. destruct HN as [HN|HN]; [|discriminate].
  rewrite reparse_host. unfold get_host. destruct (uhost u) as [h|] eqn:HU; [|contradiction].
  assert (PH : forall p, port u = Some p -> h <> HStr [] /\ scheme u <> $"file").
  { intros p Q. destruct (N.eq_dec p 0) as [->|NZ].
    - destruct (HP Q) as (x & X & Y). rewrite HU in X. injection X as <-. exact Y.
    - destruct gs_loose as ((_ & _ & _ & _ & L & _) & _). destruct (L (or_intror (truthy_nz _ _ Q NZ))) as (x & X & Y). rewrite HU in X. injection X as <-. exact Y. }
  destruct (host_eq_dec h) as [->|NE].
  - destruct (port u) as [p|] eqn:Q; [exfalso; now destruct (PH p eq_refl)|].
    cbn [host_serialize app remove_tabs filter]. destruct (gs_empty (or_intror HU) HO) as (A & B & C). rewrite empty_host by auto.
    unfold with_url. cbn [fst snd]. now rewrite same_host, obj_eta.
  - rewrite <- HU in HF. pose proof (gs_rt h HL HI HV HF HU NE) as R. destruct (port u) as [p|] eqn:Q.
    + change ($":" ++ dec_str p) with (58 :: dec_str p). rewrite visible_tabs.
      2:{ intros c Hc. apply in_app_iff in Hc as [Hc|[<-|Hc]]; [apply (rt_char _ _ _ R) in Hc; lia|lia|apply dec_digits in Hc; lia]. }
      rewrite gs_put_host_port; auto; [|now apply (PH p)]. unfold with_url. cbn [fst snd]. now rewrite obj_eta.
    + rewrite app_nil_r. rewrite visible_tabs by (intros c Hc; apply (rt_char _ _ _ R) in Hc; lia).
      rewrite gs_put_host by auto. unfold with_url. cbn [fst snd]. now rewrite obj_eta.
Qed.
Lemma gs_no_host st (s : str) : st = SetHost \/ st = SetHostname -> s = [] -> uhost u = None -> has_opaque_path u = false ->
  set_attr E (st s) o = (mkobj (set_host (Some (HStr [])) u) (o_list o), Ok tt).
Proof.
  intros Hst -> HU HO. destruct (gs_empty (or_introl HU) HO) as (A & B & C). destruct Hst as [-> | ->]; cbn [set_attr]; cbv zeta; rewrite HO.
  - rewrite reparse_host. cbn [remove_tabs filter]. rewrite empty_host by auto. reflexivity.
  - rewrite reparse_hostname. cbn [remove_tabs filter]. rewrite empty_host by auto. reflexivity.
Qed.
Lemma gs_href : limit_ok E -> idna_ok E -> url_v4_ok u -> sound_port u -> sound_file u ->
  set_attr E (SetHref (get_href o)) o = (o, Ok tt).
Proof.
  intros HL HI HV HP HF. pose proof (reached_reparse E o HL HI HR HP HF HV) as R. cbn [set_attr]. cbv zeta.
  unfold url_new in R. rewrite parse_url_none in R. destruct (snd (parse_new (EE E) (get_href o) None UTF8)) as [v|e]; [|discriminate R].
  injection R as R. now rewrite R.
Qed.
End GS.

Lemma get_set E o : reached E o ->
  set_attr E (SetProtocol (get_protocol o)) o = (o, Ok tt) /\
  set_attr E (SetUsername (get_username o)) o = (o, Ok tt) /\
  set_attr E (SetPassword (get_password o)) o = (o, Ok tt) /\
  (limit_ok E -> set_attr E (SetPort (get_port o)) o = (o, Ok tt)) /\
  (fragment (o_url o) <> Some [] -> set_attr E (SetHash (get_hash o)) o = (o, Ok tt)) /\
  (query (o_url o) <> Some [] -> set_attr E (SetSearch (get_search o)) o = (o, Ok tt)) /\
  ((scheme (o_url o) = $"file" -> forall c d l, path (o_url o) = PList ([c; d] :: l) -> std_alpha c = true -> d <> 124) ->
   set_attr E (SetPathname (get_pathname o)) o = (o, Ok tt)).
Proof.
  intros H. split; [now apply gs_protocol|]. split; [now apply gs_username|]. split; [now apply gs_password|]. split; [now apply gs_port|].
  split; [now apply gs_hash|]. split; [now apply gs_search|now apply gs_pathname].
Qed.
Lemma get_set_host E o : limit_ok E -> idna_ok E -> reached E o -> url_v4_ok (o_url o) ->
  (scheme (o_url o) = $"file" -> uhost (o_url o) <> Some (HStr $"localhost")) ->
  uhost (o_url o) <> None \/ has_opaque_path (o_url o) = true ->
  set_attr E (SetHostname (get_hostname o)) o = (o, Ok tt) /\
  ((port (o_url o) = Some 0 -> exists h, uhost (o_url o) = Some h /\ h <> HStr [] /\ scheme (o_url o) <> $"file") ->
   set_attr E (SetHost (get_host o)) o = (o, Ok tt)).
Proof. intros HL HI HR HV HF HN. split; [now apply gs_hostname|]. intros HP. now apply gs_host. Qed.
Lemma get_set_exceptions E o : reached E o ->
  (fragment (o_url o) = Some [] -> set_attr E (SetHash (get_hash o)) o = (mkobj (potentially_rstrip E (set_fragment None (o_url o))) (o_list o), Ok tt)) /\
  (query (o_url o) = Some [] -> set_attr E (SetSearch (get_search o)) o = (mkobj (potentially_rstrip E (set_query None (o_url o))) [], Ok tt)) /\
  (uhost (o_url o) = None -> has_opaque_path (o_url o) = false ->
   set_attr E (SetHostname (get_hostname o)) o = (mkobj (set_host (Some (HStr [])) (o_url o)) (o_list o), Ok tt) /\
   set_attr E (SetHost (get_host o)) o = (mkobj (set_host (Some (HStr [])) (o_url o)) (o_list o), Ok tt)).
Proof.
  intros H. split; [now apply gs_hash_empty|]. split; [now apply gs_search_empty|]. intros HU HO.
  split; apply (gs_no_host E o H _ _); auto; [unfold get_hostname, serialize_host|unfold get_host]; now rewrite HU.
Qed.
