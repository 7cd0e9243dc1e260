(** Lemmas on IDNA's error names and cache (C106, C107). *)
From Coq Require Import Ascii String.
From Coq Require Import NArith ZArith Bool Arith Lia ZifyBool ZifyN ZifyNat List.
From Coq Require Import Permutation.
From Verif Require Import PyStr PyInt Codec Env HostModel Idna SpecText SpecHost.
From Verif Require Import Lemmas CodecProofs QuoteProofs PyIntProofs IPv4Proofs ParamProofs.
From Verif Require Import SpecParams SpecUrl SpecIdna.
Import ListNotations.
Open Scope N_scope.

(* ---------- names of errors ---------- *)
Lemma union_app l l' a b : flags_union l = Some a -> flags_union l' = Some b -> flags_union (l ++ l') = Some (N.lor a b).
Proof.
  revert a. induction l as [|s l IH]; intros a H H'; cbn [flags_union app] in *; [injection H as <-; now rewrite N.lor_0_l|].
  destruct (flag_value s) as [x|]; [|discriminate H]. destruct (flags_union l) as [y|]; [|discriminate H]. injection H as <-. rewrite (IH y eq_refl H'). now rewrite N.lor_assoc.
Qed.
Definition entry_ok (p : N * str) : Prop := (exists i, fst p = 2 ^ i) /\ flag_value (snd p) = Some (fst p) /\ mem 124 (snd p) = false /\ snd p <> [].
Lemma table_ok : Forall entry_ok ERROR_TO_STRING.
Proof.
  unfold ERROR_TO_STRING. repeat (apply Forall_cons; [split; [cbn [fst]|vm_compute; repeat split; discriminate]|]); [..|apply Forall_nil].
  all: match goal with |- exists i, ?v = _ => exists (N.log2 v); vm_compute; reflexivity end.
Qed.
Lemma take_flag a i e : N.land (2 ^ i) e <> 0 -> N.lor (N.lor a (2 ^ i)) (N.ldiff e (2 ^ i)) = N.lor a e.
Proof.
  intros H. assert (T : N.testbit e i = true).
  { destruct (N.testbit e i) eqn:T; [reflexivity|]. exfalso. apply H. apply N.bits_inj. intros k. rewrite N.land_spec, N.bits_0, N.pow2_bits_eqb. destruct (N.eqb_spec i k); [subst; now rewrite T|reflexivity]. }
  apply N.bits_inj. intros k. rewrite !N.lor_spec, N.ldiff_spec, N.pow2_bits_eqb. destruct (N.eqb_spec i k); [subst; rewrite T|]; destruct (N.testbit a k), (N.testbit e k); reflexivity.
Qed.
Lemma names_union table : Forall entry_ok table -> forall names e a, flags_union names = Some a -> Forall (fun s => mem 124 s = false /\ s <> []) names ->
  let (ns, r) := error_names table names e in
  (exists b, flags_union ns = Some b /\ N.lor b r = N.lor a e) /\ Forall (fun s => mem 124 s = false /\ s <> []) ns.
Proof.
  induction 1 as [|[v n] table (( i & Hi) & Hv & Hm & Hn) F IH]; intros names e a U G; cbn [error_names]; [split; [now exists a|exact G]|]. cbn [fst snd] in *. subst v.
  destruct (N.land (2 ^ i) e =? 0) eqn:Q; cbn [negb]; [now apply IH|]. apply N.eqb_neq in Q.
  specialize (IH (names ++ [n]) (N.ldiff e (2 ^ i)) (N.lor a (2 ^ i))). destruct (error_names table (names ++ [n]) (N.ldiff e (2 ^ i))) as [ns r]. destruct IH as ((b & B1 & B2) & B3).
  - apply union_app; [exact U|]. cbn [flags_union]. rewrite Hv. now rewrite N.lor_0_r.
  - apply Forall_app. split; [exact G|]. constructor; [split; assumption|constructor].
  - split; [|exact B3]. exists b. split; [exact B1|]. rewrite B2. now apply take_flag.
Qed.
Lemma hex_flag e : e <> 0 -> flag_value ($"0x" ++ hex_str e) = Some e.
Proof.
  intros _. change ($"0x" ++ hex_str e) with (48 :: 120 :: hex_str e). unfold flag_value.
  replace (flag_index flag_names 0 (48 :: 120 :: hex_str e)) with (@None N); [apply hex_str_value|]. symmetry.
  assert (G : forall names i, Forall (fun n => exists t, n = 85 :: t) names -> flag_index names i (48 :: 120 :: hex_str e) = None).
  { intros names. induction names as [|n names IH]; intros i F; [reflexivity|]. inversion F as [|? ? (t & ->) F']; subst. cbn [flag_index]. destruct (list_eq_dec N.eq_dec _ _) as [X|_]; [discriminate X|now apply IH]. }
  apply G. unfold flag_names. apply Forall_map. apply Forall_forall. intros s _. eexists. reflexivity.
Qed.
Lemma hex_no_bar e : mem 124 ($"0x" ++ hex_str e) = false.
Proof.
  apply mem_not_In. intros H. change ($"0x") with [48; 120] in H. cbn [app] in H. destruct H as [H|[H|H]]; try discriminate H.
  unfold hex_str in H. apply in_map_iff in H as (d & Hc & Hd). destruct (digits_spec 16 e ltac:(lia)) as (_ & F & _). rewrite Forall_forall in F. specialize (F d Hd). unfold digit_char in Hc. cbv beta in F. destruct (d <? 10) eqn:Q; lia.
Qed.
Lemma errors_text e : flags_of (errors_to_string e) = Some e.
Proof.
  unfold errors_to_string. pose proof (names_union ERROR_TO_STRING table_ok [] e 0 eq_refl (Forall_nil _)) as H. destruct (error_names ERROR_TO_STRING [] e) as [ns r]. destruct H as ((b & B1 & B2) & B3). rewrite N.lor_0_l in B2.
  set (l := if negb (r =? 0) then ns ++ [$"0x" ++ hex_str r] else ns).
  assert (L : flags_union l = Some e /\ Forall (fun s => mem 124 s = false /\ s <> []) l).
  { unfold l. destruct (r =? 0) eqn:R; cbn [negb].
    - apply N.eqb_eq in R. subst r. rewrite N.lor_0_r in B2. subst b. now split.
    - apply N.eqb_neq in R. split.
      + rewrite <- B2. apply union_app; [exact B1|]. cbn [flags_union]. rewrite hex_flag by exact R. now rewrite N.lor_0_r.
      + apply Forall_app. split; [exact B3|]. constructor; [|constructor]. split; [apply hex_no_bar|discriminate]. }
  clearbody l. clear -L. destruct L as (U & F). destruct l as [|s l]; [cbn [flags_union] in U; injection U as <-; reflexivity|].
  unfold flags_of. destruct (join $"|" (s :: l)) as [|c t] eqn:J.
  - exfalso. inversion F as [|? ? (_ & N0) _]; subst. destruct s; [congruence|]. destruct l; discriminate J.
  - rewrite <- J. rewrite std_split_eq. change ($"|") with [124]. rewrite split_join; [exact U|discriminate|]. rewrite Forall_forall in F. intros x Hx. apply F, Hx.
Qed.

Definition flag_entry (nm : N -> str) (i : N) : N * str := (2 ^ i, nm i).
Lemma land_flag i e : (N.land (2 ^ i) e =? 0) = negb (N.testbit e i).
Proof.
  destruct (N.testbit e i) eqn:T; cbn [negb].
  - apply N.eqb_neq. intros H. assert (K : N.testbit (N.land (2 ^ i) e) i = true) by now rewrite N.land_spec, N.pow2_bits_true, T. rewrite H, N.bits_0 in K. discriminate K.
  - apply N.eqb_eq. apply N.bits_inj. intros k. rewrite N.land_spec, N.bits_0, N.pow2_bits_eqb. destruct (N.eqb_spec i k); [subst; now rewrite T|reflexivity].
Qed.
Lemma flag_gone i e k : N.testbit (N.ldiff e (2 ^ i)) k = N.testbit e k && negb (i =? k).
Proof. now rewrite N.ldiff_spec, N.pow2_bits_eqb. Qed.
Lemma names_closed nm is : NoDup is -> forall names e,
  let (ns, r) := error_names (map (flag_entry nm) is) names e in
  ns = names ++ map nm (filter (N.testbit e) is) /\ forall k, N.testbit r k = N.testbit e k && negb (existsb (fun i => i =? k) is).
Proof.
  induction 1 as [|i is NI ND IH]; intros names e; cbn [map error_names flag_entry filter existsb].
  { split; [symmetry; apply app_nil_r|]. intros k. cbn [negb]. now rewrite andb_true_r. }
  rewrite land_flag. destruct (N.testbit e i) eqn:T; cbn [negb].
  - specialize (IH (names ++ [nm i]) (N.ldiff e (2 ^ i))). destruct (error_names _ _ _) as [ns r]. destruct IH as (IH1 & IH2). split.
    + rewrite IH1. cbn [map]. rewrite <- app_assoc. cbn [app]. do 3 f_equal. apply filter_ext_in. intros k Hk. rewrite flag_gone. destruct (N.eqb_spec i k); [subst; contradiction|apply andb_true_r].
    + intros k. rewrite IH2, flag_gone. destruct (i =? k), (N.testbit e k), (existsb _ is); reflexivity.
  - specialize (IH names e). destruct (error_names _ _ _) as [ns r]. destruct IH as (IH1 & IH2). split; [exact IH1|]. intros k. rewrite IH2. destruct (N.eqb_spec i k); [subst; rewrite T; reflexivity|reflexivity].
Qed.
Lemma table_entries : ERROR_TO_STRING = map (flag_entry flag_name) flag_bits.
Proof. vm_compute. reflexivity. Qed.
Lemma errors_closed e : errors_to_string e = join $"|" (error_texts e).
Proof.
  unfold errors_to_string, error_texts. rewrite table_entries. assert (ND : NoDup flag_bits) by (unfold flag_bits; repeat (constructor; [cbn [In]; intuition discriminate|]); constructor).
  pose proof (names_closed flag_name flag_bits ND [] e) as H. destruct (error_names _ _ _) as [ns r]. destruct H as (-> & H). cbn [app].
  assert (R : r = N.shiftl (N.shiftr e 15) 15).
  { apply N.bits_inj. intros k. rewrite H. destruct (N.ltb_spec k 15) as [K|K].
    - rewrite N.shiftl_spec_low by exact K. replace (existsb (fun i => i =? k) flag_bits) with true; [apply andb_false_r|]. symmetry. apply existsb_exists. exists k. split; [unfold flag_bits; cbn [In]; lia|apply N.eqb_refl].
    - rewrite N.shiftl_spec_high' by exact K. rewrite N.shiftr_spec' . replace (k - 15 + 15) with k by lia. replace (existsb (fun i => i =? k) flag_bits) with false; [apply andb_true_r|]. symmetry. apply existsb_false. intros i Hi. unfold flag_bits in Hi. cbn [In] in Hi. lia. }
  subst r. destruct (N.shiftl (N.shiftr e 15) 15 =? 0); cbn [negb]; [now rewrite app_nil_r|reflexivity].
Qed.

(* ---------- the cache ---------- *)
Lemma u16len_utf16 s : u16len s = length (to_utf16 s).
Proof. unfold u16len, to_utf16. induction s as [|c s IH]; [reflexivity|]. cbn [map list_sum fold_right flat_map]. rewrite app_length. unfold list_sum in IH. rewrite IH. f_equal. unfold utf16_units. destruct (c <=? 65535) eqn:Q; [replace (c <? 65536) with true by lia|replace (c <? 65536) with false by lia]; reflexivity. Qed.

Definition in_cache (X : icu) (cache : list (N * instance X)) : Prop :=
  NoDup (map fst cache) /\ forall o i, dict_get cache o = Some i -> create_uts46_instance X o = Some i.
Lemma dict_get_in {A} (d : list (N * A)) k : dict_get d k = None -> ~ In k (map fst d).
Proof. induction d as [|[k' v] d IH]; cbn [dict_get map fst In]; [tauto|]. destruct (N.eqb_spec k' k); [discriminate|]. intros H [K|K]; [congruence|now apply IH]. Qed.
Lemma dict_put_new {A} (d : list (N * A)) k v : dict_get d k = None -> dict_put d k v = d ++ [(k, v)].
Proof. induction d as [|[k' v'] d IH]; cbn [dict_get dict_put app]; [reflexivity|]. destruct (N.eqb_spec k' k); [discriminate|]. intros H. now rewrite IH. Qed.
Lemma dict_get_app {A} (d : list (N * A)) k v o : dict_get (d ++ [(k, v)]) o = match dict_get d o with Some x => Some x | None => if k =? o then Some v else None end.
Proof. induction d as [|[k' v'] d IH]; cbn [dict_get app]; [reflexivity|]. destruct (k' =? o); [reflexivity|exact IH]. Qed.
Lemma create_spec X cache o : in_cache X cache -> let (r, cache') := create_instance X cache o in
  r = create_uts46_instance X o /\ in_cache X cache' /\ exists new, cache' = cache ++ new /\ (forall k, In k (map fst new) -> k = o /\ ~ In k (map fst cache)) /\ (length new <= 1)%nat.
Proof.
  intros (ND & C). unfold create_instance. destruct (dict_get cache o) as [i|] eqn:D.
  - split; [symmetry; now apply C|]. split; [now split|]. exists []. rewrite app_nil_r. split; [reflexivity|]. split; [intros k []|cbn; lia].
  - destruct (create_uts46_instance X o) as [i|] eqn:K.
    + split; [reflexivity|]. rewrite dict_put_new by exact D. pose proof (dict_get_in _ _ D) as NI. split.
      * split; [rewrite map_app; cbn [map fst]; apply (Permutation_NoDup (Permutation_cons_append _ _)); now constructor|]. intros o' i' H. rewrite dict_get_app in H. destruct (dict_get cache o') as [x|] eqn:G; [injection H as <-; now apply C|]. destruct (N.eqb_spec o o'); [subst o'; congruence|discriminate H].
      * exists [(o, i)]. split; [reflexivity|]. split; [|cbn; lia]. intros k [<-|[]]. now split.
    + split; [reflexivity|]. split; [now split|]. exists []. rewrite app_nil_r. split; [reflexivity|]. split; [intros k []|cbn; lia].
Qed.

Lemma whole_text d : is_pystr d -> unicode_string d (u16len d) = std_utf16 d.
Proof. intros H. unfold unicode_string. rewrite u16len_utf16, firstn_all. now apply utf16_std. Qed.
Lemma do_idna_spec X E cache c : in_cache X cache -> is_pystr (call_text c) ->
  icu_to_ascii E = direct X name_to_ascii -> icu_to_unicode E = direct X name_to_unicode ->
  let (r, cache') := do_idna X cache c in
  r = call_result E c /\
  in_cache X cache' /\ exists new, cache' = cache ++ new /\ (forall k, In k (map fst new) -> k = call_options c /\ ~ In k (map fst cache)) /\ (length new <= 1)%nat.
Proof.
  intros C P HA HU. destruct c as [b d|b d]; cbn [do_idna call_text] in *; unfold call_result, idna_to_ascii, idna_to_unicode, domain_to_ascii, domain_to_unicode; cbv zeta; rewrite ?HA, ?HU.
  - assert (O : (if b then (N.lor (N.lor (N.lor 4 8) 16) 2, CHECK_HYPHENS_ERRORS) else (N.lor (N.lor 4 8) 16, N.lor CHECK_HYPHENS_ERRORS VERIFY_DNS_LENGTH_ERRORS)) =
      (4 + 8 + 16 + (if b then 2 else 0), if b then CHECK_HYPHENS_ERRORS else N.lor CHECK_HYPHENS_ERRORS VERIFY_DNS_LENGTH_ERRORS)) by (destruct b; reflexivity).
    rewrite O. pose proof (create_spec X cache (4 + 8 + 16 + (if b then 2 else 0)) C) as K. destruct (create_instance X cache _) as [r cache']. destruct K as (-> & K1 & K2). split; [|split; [exact K1|destruct b; exact K2]].
    unfold direct. destruct (create_uts46_instance X _) as [i|]; [|reflexivity]. rewrite whole_text by exact P. destruct (name_to_ascii X i (std_utf16 d)) as [e [|x t]|e]; reflexivity.
  - assert (O : (if b then N.lor (N.lor (N.lor 4 8) 32) 2 else N.lor (N.lor 4 8) 32) = 4 + 8 + 32 + (if b then 2 else 0)) by (destruct b; reflexivity).
    rewrite O. pose proof (create_spec X cache (4 + 8 + 32 + (if b then 2 else 0)) C) as K. destruct (create_instance X cache _) as [r cache']. destruct K as (-> & K1 & K2). split; [|split; [exact K1|destruct b; exact K2]].
    unfold direct. destruct (create_uts46_instance X _) as [i|]; [|reflexivity]. rewrite whole_text by exact P. reflexivity.
Qed.
Lemma idna_history X E cs : Forall (fun c => is_pystr (call_text c)) cs -> icu_to_ascii E = direct X name_to_ascii -> icu_to_unicode E = direct X name_to_unicode ->
  forall cache, in_cache X cache -> incl (map fst cache) [28; 30; 44; 46] ->
  let (rs, cache') := idna_calls X cache cs in
  rs = map (call_result E) cs /\
  in_cache X cache' /\ incl (map fst cache') [28; 30; 44; 46].
Proof.
  intros P HA HU. induction P as [|c cs Pc P IH]; intros cache C L; cbn [idna_calls map]; [now split|].
  pose proof (do_idna_spec X E cache c C Pc HA HU) as K. destruct (do_idna X cache c) as [r cache1]. destruct K as (-> & C1 & new & -> & N1 & _).
  specialize (IH (cache ++ new) C1). destruct (idna_calls X (cache ++ new) cs) as [rs cache2]. destruct IH as (-> & C2 & L2).
  - intros k Hk. rewrite map_app in Hk. apply in_app_or in Hk as [Hk|Hk]; [now apply L|]. apply N1 in Hk as (-> & _). destruct c as [[|] d|[|] d]; cbn [call_options In]; auto.
  - now split.
Qed.
Lemma cache_size X E cs : Forall (fun c => is_pystr (call_text c)) cs -> icu_to_ascii E = direct X name_to_ascii -> icu_to_unicode E = direct X name_to_unicode ->
  fst (idna_calls X [] cs) = map (call_result E) cs /\
  NoDup (map fst (snd (idna_calls X [] cs))) /\ incl (map fst (snd (idna_calls X [] cs))) [28; 30; 44; 46] /\ (length (snd (idna_calls X [] cs)) <= 4)%nat.
Proof.
  intros P HA HU. pose proof (idna_history X E cs P HA HU []) as K. destruct (idna_calls X [] cs) as [rs c]. cbn [fst snd].
  destruct K as (K1 & (K2 & _) & K3); [split; [constructor|discriminate]|intros k []|]. split; [exact K1|]. split; [exact K2|]. split; [exact K3|].
  pose proof (NoDup_incl_length K2 K3) as L. now rewrite map_length in L.
Qed.
