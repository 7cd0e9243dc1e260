(** Lemmas about the validators. *)
From Coq Require Import Ascii String.
From Coq Require Import NArith ZArith Bool Arith Lia ZifyBool ZifyN ZifyNat List.
From Verif Require Import PyStr PyInt Codec Env HostModel UrlRecord Parser Schemes Validators SpecText SpecHost SpecPyInt.
From Verif Require Import Lemmas CodecProofs QuoteProofs PyIntProofs IPv4Proofs IntGrammar IPv6Proofs HostProofs.
Import ListNotations.
Open Scope N_scope.

(* ---------- ValidityState: C66 ---------- *)
Definition vs_consistent (s : vstate) : Prop :=
  (vs_valid s = true <-> vs_count s = 0%nat) /\ (vs_count s = 0%nat <-> vs_types s = []) /\
  length (vs_types s) = vs_count s /\ vs_descs s = vs_count s.
(** one call on a ValidityState; the argument of [+=] is another state *)
Inductive vs_step : vstate -> vstate -> Prop :=
| vs_step_prepend v s : vs_step s (vs_prepend v s)
| vs_step_reset s : vs_step s (vs_reset s)
| vs_step_iadd s o : vs_reach o -> vs_step s (vs_iadd s o)
with vs_reach : vstate -> Prop :=
| vs_reach_fresh : vs_reach vs_fresh
| vs_reach_step s t : vs_reach s -> vs_step s t -> vs_reach t.
Scheme vs_step_mut := Induction for vs_step Sort Prop
with vs_reach_mut := Induction for vs_reach Sort Prop.

Lemma vs_consistent_of s : vs_valid s = (vs_count s =? 0)%nat -> length (vs_types s) = vs_count s ->
  vs_descs s = vs_count s -> vs_consistent s.
Proof.
  intros V L D. unfold vs_consistent. rewrite V, D, <- L. destruct (vs_types s); cbn; repeat split; congruence.
Qed.
Lemma vs_reach_consistent s : vs_reach s -> vs_consistent s.
Proof.
  intros H. apply vs_consistent_of; revert s H.
  - apply (vs_reach_mut
      (fun s t _ => vs_valid s = (vs_count s =? 0)%nat -> vs_valid t = (vs_count t =? 0)%nat)
      (fun s _ => vs_valid s = (vs_count s =? 0)%nat)); auto.
    intros s o _ Ho Hs. cbn [vs_iadd vs_valid vs_count]. rewrite Hs, Ho. lia.
  - apply (vs_reach_mut
      (fun s t _ => length (vs_types s) = vs_count s -> length (vs_types t) = vs_count t)
      (fun s _ => length (vs_types s) = vs_count s)); auto.
    + intros v s Hs. cbn. now f_equal.
    + intros s o _ Ho Hs. cbn [vs_iadd vs_types vs_count]. rewrite app_length. lia.
  - apply (vs_reach_mut
      (fun s t _ => vs_descs s = vs_count s -> vs_descs t = vs_count t)
      (fun s _ => vs_descs s = vs_count s)); auto.
    + intros v s Hs. cbn. now f_equal.
    + intros s o _ Ho Hs. cbn [vs_iadd vs_descs vs_count]. lia.
Qed.
Lemma vs_apply_cons v l s : vs_apply (v :: l) s = vs_apply l (vs_log v s).
Proof. reflexivity. Qed.
Lemma vs_log_types v s : exists w, vs_types (vs_log v s) = w :: vs_types s.
Proof. destruct v; eexists; reflexivity. Qed.
Lemma vs_apply_types l : forall s, length (vs_types (vs_apply l s)) = (length l + length (vs_types s))%nat.
Proof.
  induction l as [|v l IH]; intros s; [reflexivity|]. rewrite vs_apply_cons, IH.
  destruct (vs_log_types v s) as [w ->]. cbn. lia.
Qed.
Lemma vs_apply_reach l : forall s, ~ In VIPv4OutOfRangeRaised l -> vs_reach s -> vs_reach (vs_apply l s).
Proof.
  induction l as [|v l IH]; intros s N H; [exact H|]. rewrite vs_apply_cons. apply IH; [intros I; apply N; now right|].
  apply (vs_reach_step s); auto. destruct v; try constructor. exfalso. apply N. now left.
Qed.
Lemma vs_start_count v : vs_count (vs_start v) = 0%nat.
Proof. destruct v; reflexivity. Qed.

(* ---------- C71 ---------- *)
Lemma py_lower_ascii E s : ascii_str s -> py_lower E s = lower s.
Proof.
  induction 1 as [|c t Hc Ht IH]; [reflexivity|]. unfold py_lower in *. cbn [flat_map lower map]. rewrite IH.
  now replace (c <? 128) with true by lia.
Qed.
Lemma lower_idem s : lower (lower s) = lower s.
Proof.
  unfold lower. rewrite map_map. apply map_ext. intros c. unfold lower1.
  destruct ((65 <=? c) && (c <=? 90)) eqn:Q; [|now rewrite Q].
  now replace ((65 <=? c + 32) && (c + 32 <=? 90)) with false by lia.
Qed.
Lemma registered_lower : forallb (fun s => str_eqb (lower s) s && negb (length s =? 0)%nat && forallb (fun c => c <? 128) s) REGISTERED_SCHEMES = true.
Proof. vm_compute. reflexivity. Qed.
Lemma registered_lower_In s : In s REGISTERED_SCHEMES -> lower s = s /\ s <> [] /\ ascii_str s.
Proof.
  intros H. pose proof registered_lower as R. rewrite forallb_forall in R. specialize (R s H). cbv beta in R.
  apply andb_true_iff in R as [R R3]. apply andb_true_iff in R as [R1 R2]. apply str_eqb_eq in R1. repeat split; auto.
  - intros ->. discriminate.
  - apply Forall_forall. rewrite forallb_forall in R3. intros c Hc. specialize (R3 c Hc). cbv beta in R3. lia.
Qed.
Lemma scheme_valid E s v : ascii_str s -> (fst (is_valid_url_scheme E s v) = true <-> In (lower s) REGISTERED_SCHEMES).
Proof.
  intros H. unfold is_valid_url_scheme. cbv zeta. rewrite py_lower_ascii by auto.
  destruct (negb (length (lower s) =? 0)%nat && str_in (lower s) REGISTERED_SCHEMES) eqn:Q; cbn [fst].
  - apply andb_true_iff in Q as [_ Q]. apply str_in_In in Q. tauto.
  - split; [discriminate|]. intros I. exfalso. apply andb_false_iff in Q as [Q|Q].
    + apply registered_lower_In in I as (_ & I & _). destruct (lower s); [congruence|discriminate].
    + apply str_in_In in I. congruence.
Qed.
Lemma scheme_valid_case E s t v : ascii_str s -> ascii_str t -> lower s = lower t ->
  fst (is_valid_url_scheme E s v) = fst (is_valid_url_scheme E t v).
Proof.
  intros Hs Ht Q. unfold is_valid_url_scheme. cbv zeta. rewrite !py_lower_ascii, Q by auto. reflexivity.
Qed.
Lemma scheme_valid_registered E s v : In s REGISTERED_SCHEMES -> fst (is_valid_url_scheme E s v) = true.
Proof. intros H. destruct (registered_lower_In s H) as (L & _ & A). apply scheme_valid; auto. congruence. Qed.

(* ---------- C68 ---------- *)
Lemma nonchar_eq c : c <= 1114109 -> noncharacter c = std_noncharacter c.
Proof.
  intros H. unfold noncharacter, std_noncharacter. f_equal.
  change 65535 with (N.ones 16) at 1. rewrite N.land_ones. change (2 ^ 16) with 65536.
  apply eq_true_iff_eq. rewrite N.leb_le, existsb_exists. split.
  - intros R. exists (c / 65536). pose proof (N.div_mod c 65536 ltac:(lia)) as D.
    pose proof (N.mod_lt c 65536 ltac:(lia)) as M. split; [|apply orb_true_iff; rewrite !N.eqb_eq; lia].
    assert (c / 65536 <= 16) by lia. set (q := c / 65536) in *. clearbody q. cbn [In]. lia.
  - intros (k & _ & K). apply orb_true_iff in K. rewrite !N.eqb_eq in K.
    destruct K as [-> | ->]; rewrite N.add_comm, N.mod_add by lia; reflexivity || discriminate.
Qed.
Lemma url_cp_eq inc exc c : is_url_cp inc exc c = negb (mem c exc) && (mem c inc || std_url_code_point c).
Proof.
  unfold is_url_cp. destruct (mem c exc); [reflexivity|]. cbn [negb andb].
  unfold std_url_code_point.
  assert (A : mem c ASCII_ALPHANUMERIC = ((48 <=? c) && (c <=? 57)) || ((65 <=? c) && (c <=? 90)) || ((97 <=? c) && (c <=? 122))).
  { unfold mem. cbn [ASCII_ALPHANUMERIC ASCII_ALPHA ASCII_LOWER ASCII_UPPER ASCII_DIGITS range_from app existsb]. 
    vm_compute (range_from _ _). cbn [app existsb]. lia. }
  rewrite A.
  assert (B : mem c $"!$&'()*+,-./:;=?@_~" = one_of c [33; 36; 38; 39; 40; 41; 42; 43; 44; 45; 46; 47; 58; 59; 61; 63; 64; 95; 126]) by reflexivity.
  rewrite B.
  replace ((160 <=? c) && (c <=? 1114109) && negb ((55296 <=? c) && (c <=? 56319)) && negb ((56320 <=? c) && (c <=? 57343)) && negb (noncharacter c))
    with ((160 <=? c) && (c <=? 1114109) && negb ((55296 <=? c) && (c <=? 57343)) && negb (std_noncharacter c)).
  2:{ destruct (c <=? 1114109) eqn:Q; [|now rewrite andb_false_r]. rewrite nonchar_eq by lia. destruct (std_noncharacter c); cbn [negb]; [now rewrite !andb_false_r|]. rewrite !andb_true_r. lia. }
  repeat match goal with |- context [mem c inc] => destruct (mem c inc) end; [now rewrite !orb_true_r|].
  now rewrite !orb_false_r.
Qed.
Lemma url_cps_none inc exc s : is_url_code_points inc exc s = None <-> forall c, In c s -> is_url_cp inc exc c = true.
Proof.
  induction s as [|c t IH]; cbn [is_url_code_points]; [split; [intros _ c []|auto]|].
  destruct (is_url_cp inc exc c) eqn:Q.
  - rewrite IH. split; [intros H x [<-|Hx]; auto | intros H x Hx; apply H; now right].
  - split; [discriminate|]. intros H. rewrite (H c) in Q by now left. discriminate.
Qed.
Lemma find_none {A} (f : A -> bool) l : find f l = None <-> forall x, In x l -> f x = false.
Proof.
  split; [apply find_none|]. intros H. destruct (find f l) as [x|] eqn:Q; [|reflexivity].
  apply find_some in Q as [I Q]. rewrite (H x I) in Q. discriminate.
Qed.
Lemma url_units_none inc exc s : is_url_units inc exc s = None <->
  (forall c, In c s -> is_url_cp inc exc c = true) /\ (forall p, In p (percent_parts s) -> bad_percent_part p = false).
Proof.
  unfold is_url_units. rewrite <- url_cps_none, <- find_none.
  destruct (is_url_code_points inc exc s); [split; [discriminate|intros [? _]; discriminate]|].
  destruct (find bad_percent_part (percent_parts s)); split; auto; try discriminate. intros [_ ?]; discriminate.
Qed.
Lemma split_head_cons sep c t : c <> sep -> tl (split sep (c :: t)) = tl (split sep t).
Proof.
  intros H. cbn [split]. replace (c =? sep) with false by lia.
  destruct (split sep t) as [|p ps] eqn:Q; [now apply split_not_nil in Q|reflexivity].
Qed.
Lemma bad_part_cons x y p : bad_percent_part (37 :: x :: y :: p) = false <-> std_hex x <> None /\ std_hex y <> None.
Proof.
  unfold bad_percent_part. cbn [length Nat.ltb Nat.leb skipn firstn existsb orb]. rewrite !hex_mem.
  destruct (std_hex x), (std_hex y); cbn; split; intros; try discriminate; try tauto; try (split; discriminate);
    destruct H; congruence.
Qed.
Lemma bad_part_short p : (length p < 2)%nat -> bad_percent_part (37 :: p) = true.
Proof. intros H. unfold bad_percent_part. cbn [length]. now replace (S (length p) <? 3)%nat with true by lia. Qed.
Lemma hex_not37 x : std_hex x <> None -> x <> 37.
Proof. intros H ->. now apply H. Qed.
Lemma hex_url_cp x : std_hex x <> None -> std_url_code_point x = true.
Proof.
  unfold std_hex, std_url_code_point. intros H.
  destruct ((48 <=? x) && (x <=? 57)); [reflexivity|]. destruct ((65 <=? x) && (x <=? 70)) eqn:B.
  { now replace ((65 <=? x) && (x <=? 90)) with true by lia. }
  destruct ((97 <=? x) && (x <=? 102)) eqn:D; [|congruence].
  replace ((97 <=? x) && (x <=? 122)) with true by lia. now rewrite !orb_true_r.
Qed.

Lemma url_units_spec exc s : mem 37 exc = false -> (forall c, std_hex c <> None -> mem c exc = false) ->
  (is_url_units $"%" exc s = None <-> url_units (fun c => std_url_code_point c = true /\ ~ In c exc) s).
Proof.
  intros H37 Hhex. rewrite url_units_none. unfold percent_parts.
  enough (G : forall n s, (length s <= n)%nat ->
     ((forall c, In c s -> is_url_cp $"%" exc c = true) /\
      (forall p, In p (map (fun p => 37 :: p) (tl (split 37 s))) -> bad_percent_part p = false)
      <-> url_units (fun c => std_url_code_point c = true /\ ~ In c exc) s)) by (eapply G; reflexivity).
  clear s. induction n as [|n IH]; intros s Hn.
  { destruct s; [|cbn in Hn; lia]. split; [constructor|]. intros _. split; [intros c []|intros p []]. }
  destruct s as [|c t].
  { split; [constructor|]. intros _. split; [intros c []|intros p []]. }
  destruct (N.eq_dec c 37) as [->|Hc].
  - cbn [split N.eqb Pos.eqb tl]. split.
    + intros [Hcp Hp]. destruct (split 37 t) as [|p ps] eqn:Q; [now apply split_not_nil in Q|].
      pose proof (Hp (37 :: p) (or_introl eq_refl)) as Hp0.
      destruct (Nat.lt_ge_cases (length p) 2) as [L|L]; [rewrite bad_part_short in Hp0 by auto; discriminate|].
      destruct p as [|x [|y p']]; [cbn in L; lia|cbn in L; lia|]. apply bad_part_cons in Hp0 as [Hx Hy].
      pose proof (hex_not37 x Hx) as Nx. pose proof (hex_not37 y Hy) as Ny.
      destruct t as [|x' t1]; [discriminate|]. cbn [split] in Q. destruct (x' =? 37) eqn:X37; [discriminate|].
      destruct (split 37 t1) as [|q qs] eqn:Q1; [now apply split_not_nil in Q1|]. injection Q as -> Q ->.
      destruct t1 as [|y' t2]; [cbn in Q1; congruence|]. cbn [split] in Q1. destruct (y' =? 37) eqn:Y37; [congruence|].
      destruct (split 37 t2) as [|r rs] eqn:Q2; [now apply split_not_nil in Q2|].
      injection Q1 as Q1 ->. rewrite <- Q1 in Q. injection Q as -> ->.
      apply uu_esc; auto. apply IH; [cbn in Hn; lia|]. rewrite Q2. split.
      * intros z Hz. apply Hcp. do 3 right. exact Hz.
      * intros z Hz. apply Hp. right. exact Hz.
    + intros U. inversion U as [|c' t' [A _] _|x y t' Hx Hy U']; [discriminate|]. subst t.
      apply IH in U' as [C P]; [|cbn in Hn; lia].
      pose proof (hex_not37 x Hx) as Nx. pose proof (hex_not37 y Hy) as Ny.
      assert (HX : forall z, std_hex z <> None -> is_url_cp $"%" exc z = true).
      { intros z Hz. rewrite url_cp_eq, (Hhex z Hz), (hex_url_cp z Hz). now rewrite orb_true_r. }
      split.
      * intros z [<-|[<-|[<-|Hz]]]; auto. rewrite url_cp_eq, H37. reflexivity.
      * cbn [split]. replace (x =? 37) with false by lia. replace (y =? 37) with false by lia.
        destruct (split 37 t') as [|q qs] eqn:Q; [now apply split_not_nil in Q|].
        intros z [<-|Hz]; [now apply bad_part_cons|]. apply P. exact Hz.
  - rewrite split_head_cons by auto. split.
    + intros [Hcp Hp]. apply uu_cp.
      * pose proof (Hcp c (or_introl eq_refl)) as K. rewrite url_cp_eq in K. apply andb_true_iff in K as [K1 K2].
        split.
        -- apply orb_true_iff in K2 as [K2|K2]; auto. apply mem_In in K2. cbn in K2. destruct K2 as [K2|[]]; congruence.
        -- apply mem_not_In. now destruct (mem c exc).
      * apply IH; [cbn in Hn; lia|]. split; auto. intros z Hz. apply Hcp. now right.
    + intros U. inversion U as [|c' t' [A B] U'|x y t' Hx Hy U']; [|congruence]. subst.
      apply IH in U' as [C P]; [|cbn in Hn; lia]. split; auto. intros z [<-|Hz]; auto.
      rewrite url_cp_eq, A, orb_true_r. apply mem_not_In in B. now rewrite B.
Qed.
Lemma url_units_plain s : is_url_units $"%" [] s = None <-> url_units (fun c => std_url_code_point c = true) s.
Proof.
  rewrite url_units_spec by auto. split; intros U; induction U as [|c t A U IH|x y t Hx Hy U IH].
  1,4: constructor. 1,3: apply uu_cp; tauto. all: now apply uu_esc.
Qed.

(* ---------- C69, C70 ---------- *)
(** nothing is logged by a successful run *)
Definition silent {A} (m : W A) : Prop := forall a, snd m = Ok a -> fst m = [].
Lemma silent_bind {A B} (m : W A) (f : A -> W B) : silent m -> (forall a, silent (f a)) -> silent (wbind m f).
Proof.
  intros Hm Hf. destruct m as [l [a|e]]; unfold wbind, silent in *; cbn in *.
  - specialize (Hf a). destruct (f a) as [l' r]. cbn in *. intros b Hb. rewrite (Hm a eq_refl), (Hf b Hb). reflexivity.
  - discriminate.
Qed.
Lemma silent_ret {A} (a : A) : silent (wret a). Proof. intros b _. reflexivity. Qed.
Lemma silent_fail {A} v e : silent (@wfail A v e). Proof. intros b H. discriminate. Qed.
Lemma silent_of_opt {A} e (o : option A) : silent (of_opt e o).
Proof. destruct o; [apply silent_ret|intros b H; discriminate]. Qed.
Lemma silent_piece E c st : silent (ipv6_piece E c st).
Proof.
  unfold ipv6_piece. destruct (negb _).
  - destruct (_ || _); [apply silent_fail|].
    repeat (apply silent_bind; [apply silent_of_opt|intros ?]). apply silent_ret.
  - destruct (6 <? _)%nat; [apply silent_fail|]. cbv zeta. destruct (_ || _); [apply silent_fail|].
    apply silent_bind; [apply silent_of_opt|intros ns]. destruct (existsb _ ns); [apply silent_fail|].
    destruct (_ <? 4)%nat; [apply silent_fail|].
    repeat (apply silent_bind; [apply silent_of_opt|intros ?]). apply silent_ret.
Qed.
Lemma silent_sep E c st : silent (ipv6_sep E c st).
Proof.
  unfold ipv6_sep. cbv zeta. destruct (_ && _); [destruct (v6_compress st); [apply silent_fail|apply silent_ret]|].
  destruct (_ && _).
  - destruct (v6_compress st); [|apply silent_fail]. destruct (_ =? _)%nat; [apply silent_ret|apply silent_fail].
  - destruct (v6_piece st); [apply silent_ret|]. apply silent_bind; [apply silent_piece|intros; apply silent_ret].
Qed.
Lemma silent_loop E : forall rest st, silent (ipv6_loop E rest st).
Proof.
  induction rest as [|c t IH]; intros st; cbn [ipv6_loop]; destruct (8 <=? _)%nat; try apply silent_fail.
  - apply silent_bind; [apply silent_sep|intros; apply silent_ret].
  - destruct (negb (c =? 58)); [apply IH|]. apply silent_bind; [apply silent_sep|intros; apply IH].
Qed.
Lemma silent_ipv6 E s : silent (ipv6_parse E s).
Proof.
  unfold ipv6_parse. cbv zeta. apply silent_bind.
  { destruct (starts_with $":" s); [|apply silent_ret]. destruct (starts_with $"::" s); [apply silent_ret|apply silent_fail]. }
  intros p. apply silent_bind; [apply silent_loop|]. intros st. destruct (v6_compress st).
  - apply silent_of_opt.
  - destruct (_ =? _)%nat; [apply silent_ret|apply silent_fail].
Qed.
Lemma ints_validity E b xs : ints (with_validity E b) xs = ints E xs.
Proof. induction xs as [|x t IH]; [reflexivity|]. cbn [ints]. now rewrite IH. Qed.
Lemma piece_validity E b c st : ipv6_piece (with_validity E b) c st = ipv6_piece E c st.
Proof. unfold ipv6_piece. now rewrite ints_validity. Qed.
Lemma loop_validity E b : forall rest st, ipv6_loop (with_validity E b) rest st = ipv6_loop E rest st.
Proof.
  assert (S : forall c st, ipv6_sep (with_validity E b) c st = ipv6_sep E c st).
  { intros c st. unfold ipv6_sep. now rewrite piece_validity. }
  induction rest as [|c t IH]; intros st; cbn [ipv6_loop]; rewrite S; [reflexivity|].
  rewrite IH. destruct (_ <=? _)%nat; [reflexivity|]. destruct (negb _); [reflexivity|].
  destruct (ipv6_sep E (Some c) st) as [l [r|e]]; cbn [wbind]; [now rewrite IH|reflexivity].
Qed.
Lemma ipv6_validity E b s : ipv6_parse (with_validity E b) s = ipv6_parse E s.
Proof.
  unfold ipv6_parse. cbv zeta. destruct (if starts_with $":" s then _ else _) as [l [r|e]]; cbn [wbind]; [|reflexivity].
  now rewrite loop_validity.
Qed.
Lemma valid_ipv6 E s v : fst (is_valid_ipv6_address E s v) = Ok true <-> exists a, snd (ipv6_parse E s) = Ok a.
Proof.
  unfold is_valid_ipv6_address, valid_if_clean. rewrite ipv6_validity. pose proof (silent_ipv6 E s) as S.
  destruct (ipv6_parse E s) as [l [a|e]]; cbn [fst snd] in *.
  - specialize (S a eq_refl). cbn [fst] in S. subst l. cbn [vs_apply fold_left]. rewrite vs_start_count. cbn. split; eauto.
  - split; [destruct e; discriminate|intros [a H]; discriminate].
Qed.

Lemma url_units_no_exc s exc : is_url_units $"%" exc s = None -> is_url_units $"%" [] s = None /\ forall c, In c s -> mem c exc = false.
Proof.
  rewrite !url_units_none. intros [A B]. repeat split; auto.
  - intros c Hc. specialize (A c Hc). rewrite url_cp_eq in A |- *. apply andb_true_iff in A as [_ A]. now rewrite A.
  - intros c Hc. specialize (A c Hc). rewrite url_cp_eq in A. apply andb_true_iff in A as [A _]. now destruct (mem c exc).
Qed.
Lemma valid_opaque E h v : fst (is_valid_opaque_host E h v) = Ok true ->
  exists x, host_parse E h true = ([], Ok x).
Proof.
  unfold is_valid_opaque_host. cbv zeta. destruct h as [|c t]; [discriminate|].
  change ($"[") with [91]. cbn [starts_with].
  destruct ((91 =? c) && true && ends_with_char (c :: t) 93) eqn:Q.
  - intros H. apply andb_true_iff in Q as [Q1 Q2]. apply andb_true_iff in Q1 as [Q1 _].
    apply valid_ipv6 in H as [a Ha]. exists (HIPv6 a). cbn [host_parse]. rewrite N.eqb_sym, Q1, Q2.
    pose proof (silent_ipv6 E (removelast t) a) as S. cbn [tl] in Ha. specialize (S Ha).
    destruct (ipv6_parse E (removelast t)) as [l r]. cbn in *. subst. reflexivity.
  - destruct (is_url_units $"%" FORBIDDEN_HOST_CODE_POINT (c :: t)) eqn:U; [discriminate|]. intros _.
    apply url_units_no_exc in U as [U F]. exists (HStr (utf8_percent_encode (c :: t) SAFE_C0_CONTROL false)).
    cbn [host_parse]. assert (Hc : (c =? 91) = false).
    { destruct (c =? 91) eqn:W; [|reflexivity]. assert (c = 91) by lia. subst. specialize (F 91 (or_introl eq_refl)). discriminate. }
    rewrite Hc. unfold parse_opaque_host.
    replace (existsb (fun c => mem c FORBIDDEN_HOST_CODE_POINT) (c :: t)) with false by (symmetry; now apply existsb_false).
    now rewrite U.
Qed.

(* ---------- C67 ---------- *)
Lemma radix10_map s : forall acc v, std_radix_value 10 s acc = Some v ->
  exists ds, s = map std_digit ds /\ Forall (fun d => d < 10) ds /\ fold_left (fun a d => a * 10 + d) ds acc = v.
Proof.
  induction s as [|c t IH]; intros acc v H; cbn [std_radix_value] in H.
  - apply Some_inj in H. exists []. repeat split; auto.
  - destruct (std_radix_digit 10 c) as [d|] eqn:Q; [|discriminate]. apply IH in H as (ds & -> & F & V).
    exists (d :: ds). assert (c = std_digit d /\ d < 10) as [-> Hd].
    { unfold std_radix_digit in Q. destruct (std_hex c) as [x|] eqn:X; [|discriminate].
      destruct (x <? 10) eqn:L; [|discriminate]. apply Some_inj in Q. subst x. split; [|lia].
      unfold std_hex in X. unfold std_digit. rewrite L.
      destruct ((48 <=? c) && (c <=? 57)) eqn:A; [apply Some_inj in X; lia|].
      destruct ((65 <=? c) && (c <=? 70)) eqn:B; [apply Some_inj in X; lia|].
      destruct ((97 <=? c) && (c <=? 102)) eqn:D; [apply Some_inj in X; lia|discriminate]. }
    repeat split; auto.
Qed.
Lemma shortest_dec_str n s : shortest_in_base 10 n s -> s = dec_str n.
Proof.
  intros (ds & -> & F & S & V). destruct (dec_str_spec n) as (ds' & -> & F' & S' & V'). f_equal.
  apply (shortest_unique 10); auto; [lia|congruence].
Qed.
(** "valid IPv4-address string" *)
Definition valid_ipv4_string (s : list N) : Prop :=
  exists a b c d sa sb sc sd, a < 256 /\ b < 256 /\ c < 256 /\ d < 256 /\
    shortest_in_base 10 a sa /\ shortest_in_base 10 b sb /\ shortest_in_base 10 c sc /\ shortest_in_base 10 d sd /\
    s = sa ++ [46] ++ sb ++ [46] ++ sc ++ [46] ++ sd.
Lemma valid_ipv4_split s : valid_ipv4_string s <->
  exists a b c d, a < 256 /\ b < 256 /\ c < 256 /\ d < 256 /\ split 46 s = map dec_str [a; b; c; d].
Proof.
  split.
  - intros (a & b & c & d & sa & sb & sc & sd & Ha & Hb & Hc & Hd & A & B & C & D & ->).
    apply shortest_dec_str in A, B, C, D. subst. exists a, b, c, d. repeat split; auto.
    change (dec_str a ++ [46] ++ dec_str b ++ [46] ++ dec_str c ++ [46] ++ dec_str d) with (join [46] (map dec_str [a; b; c; d])).
    apply split_join; [discriminate|]. intros p Hp. apply in_map_iff in Hp as (o & <- & _). apply dec_str_no. lia.
  - intros (a & b & c & d & Ha & Hb & Hc & Hd & Q). exists a, b, c, d, (dec_str a), (dec_str b), (dec_str c), (dec_str d).
    repeat split; auto using dec_str_spec. rewrite <- (join_split 46 s), Q. reflexivity.
Qed.
Definition part_ok (E : env) (p : list N) : bool :=
  let r := parse_ipv4_number E p in
  negb (fst r <? 0)%Z && negb (snd r) &&
  match e_int E p 10 with Some z => ((0 <=? z) && (z <=? 255))%Z | None => false end.
Lemma parts_check_ok E parts : ipv4_parts_check E parts = None <-> forallb (part_ok E) parts = true.
Proof.
  induction parts as [|p t IH]; cbn [ipv4_parts_check forallb]; [split; auto|]. unfold part_ok at 1. cbv zeta.
  destruct (fst (parse_ipv4_number E p) <? 0)%Z; cbn [negb andb]; [split; discriminate|].
  destruct (snd (parse_ipv4_number E p)); cbn [negb andb]; [split; discriminate|].
  destruct (e_int E p 10) as [z|]; [|split; discriminate].
  destruct ((0 <=? z) && (z <=? 255))%Z; cbn [andb]; [exact IH|split; discriminate].
Qed.
Lemma part_ok_dec E o : limit_ok E -> o < 256 -> part_ok E (dec_str o) = true.
Proof.
  intros HE Ho. unfold part_ok. cbv zeta.
  rewrite (ipv4_number_complete E (dec_str o) o false) by (auto using std_number_octet; lia). cbn [fst snd negb].
  rewrite e_int_dec by (auto; lia). lia.
Qed.
Definition code_octet (E : env) := int_octet (int_limit E) (uni_decimal E) (uni_space E).
Lemma part_ok_exact E p : part_ok E p = true <-> code_octet E p.
Proof.
  unfold code_octet, int_octet. split.
  - intros H. unfold part_ok in H. cbv zeta in H. apply andb_true_iff in H as [H HI]. apply andb_true_iff in H as [_ HV]. split.
    + intros t ->. destruct t as [|y u]; [reflexivity|]. exfalso. cbn [parse_ipv4_number] in HV. change (48 =? 48) with true in HV. cbv iota in HV.
      destruct ((y =? 120) || (y =? 88)); [destruct u as [|n l]; [discriminate|]; destruct (e_int E (n :: l) 16); discriminate|].
      destruct (e_int E (y :: u) 8); discriminate.
    + destruct (e_int E p 10) as [z|] eqn:Z; [|discriminate]. unfold e_int in Z. apply int_grammar in Z as (r & S & L); [|auto].
      exists r, (Z.to_N z). split; [exact S|]. split; [rewrite Z2N.id by lia; exact L|lia].
  - intros (Z & r & o & S & L & B). assert (I : e_int E p 10 = Some (Z.of_N o)) by (unfold e_int; apply int_grammar; [auto|eauto]).
    unfold part_ok. cbv zeta. rewrite I.
    assert (Pn : parse_ipv4_number E p = (Z.of_N o, false)).
    { destruct p as [|c t]; [discriminate I|]. unfold parse_ipv4_number.
      replace (match t with [] => (c :: t, 10, false) | x :: t0 => if c =? 48 then if (x =? 120) || (x =? 88) then (t0, 16, true) else (x :: t0, 8, true) else (c :: t, 10, false) end) with (c :: t, 10, false); [now rewrite I|].
      destruct t as [|x t]; [reflexivity|]. destruct (c =? 48) eqn:C; [|reflexivity]. apply N.eqb_eq in C. subst c. discriminate (Z _ eq_refl). }
    rewrite Pn. cbn [fst snd negb andb]. lia.
Qed.
Lemma octet_plain E p : forallb plain_char p = true -> code_octet E p -> exists o, o < 256 /\ p = dec_str o.
Proof.
  intros P (Z & r & o & S & L & B).
  assert (A : r = p).
  { unfold seen_by_int in S. replace (forallb (fun c => c <? 128) p) with true in S; [exact S|]. symmetry. apply forallb_forall. intros c Hc.
    rewrite forallb_forall in P. specialize (P c Hc). unfold plain_char in P. lia. }
  subst r. destruct (literal_plain _ _ _ L P) as (v & V & Q). assert (v = o) by lia. subst v. exists o. split; [lia|].
  assert (p <> []).
  { intros ->. apply (int_literal_complete _ 10) with (f := fun _ => None) (g := fun _ => false) (s0 := []) in L; auto. discriminate L. }
  apply shortest_dec_str. destruct (radix10_map _ _ _ V) as (ds & -> & F & W). exists ds. repeat split; auto.
  - intros ->. auto.
  - intros u ->. destruct u as [|u0 u]; [reflexivity|]. exfalso. cbn [map] in Z. change (std_digit 0) with 48 in Z. discriminate (Z _ eq_refl).
Qed.
Lemma ipv4_valid_check E s v : fst (is_valid_ipv4_address E s v) = true <-> ipv4_check E s = None.
Proof. unfold is_valid_ipv4_address. cbv zeta. destruct (ipv4_check E s); cbn; split; congruence. Qed.
Lemma valid_ipv4_complete E s v : limit_ok E -> valid_ipv4_string s -> fst (is_valid_ipv4_address E s v) = true.
Proof.
  intros HE H. apply ipv4_valid_check. apply valid_ipv4_split in H as (a & b & c & d & Ha & Hb & Hc & Hd & Q).
  unfold ipv4_check. rewrite Q. cbv zeta. cbn [map last]. pose proof (dec_str_nonempty d).
  replace (length (dec_str d) =? 0)%nat with false by (destruct (dec_str d); [congruence|reflexivity]).
  cbn [length Nat.eqb Nat.ltb Nat.leb].
  apply parts_check_ok. cbn [forallb]. now rewrite !part_ok_dec.
Qed.
Lemma valid_ipv4_exact E s v : fst (is_valid_ipv4_address E s v) = true <->
  exists p1 p2 p3 p4, s = p1 ++ [46] ++ p2 ++ [46] ++ p3 ++ [46] ++ p4 /\
    (forall p, In p [p1; p2; p3; p4] -> ~ In 46 p /\ code_octet E p).
Proof.
  rewrite ipv4_valid_check. unfold ipv4_check. cbv zeta. split.
  - intros H. destruct (length (last (split 46 s) []) =? 0)%nat; [discriminate|].
    destruct (4 <? length (split 46 s))%nat eqn:L4; [discriminate|]. destruct (length (split 46 s) <? 4)%nat eqn:L3; [discriminate|].
    apply parts_check_ok in H. rewrite forallb_forall in H.
    assert (NS : forall p, In p (split 46 s) -> ~ In 46 p) by (intros p Hp; apply mem_not_In; eapply split_pieces_no_sep; eauto).
    pose proof (join_split 46 s) as J. destruct (split 46 s) as [|p1 [|p2 [|p3 [|p4 [|]]]]]; try (cbn in *; discriminate).
    exists p1, p2, p3, p4. split; [rewrite <- J; reflexivity|]. intros p Hp. split; [now apply NS|]. apply part_ok_exact. now apply H.
  - intros (p1 & p2 & p3 & p4 & -> & H).
    assert (Q : split 46 (p1 ++ [46] ++ p2 ++ [46] ++ p3 ++ [46] ++ p4) = [p1; p2; p3; p4]).
    { change (p1 ++ [46] ++ p2 ++ [46] ++ p3 ++ [46] ++ p4) with (join [46] [p1; p2; p3; p4]). apply split_join; [discriminate|].
      intros p Hp. apply mem_not_In. now apply H. }
    rewrite Q. cbn [last]. assert (P4 : p4 <> []).
    { intros ->. destruct (H [] ltac:(cbn; auto)) as (_ & K). apply part_ok_exact in K. discriminate K. }
    replace (length p4 =? 0)%nat with false by (destruct p4; [congruence|reflexivity]). cbn [length Nat.eqb Nat.ltb Nat.leb].
    apply parts_check_ok, forallb_forall. intros p Hp. apply part_ok_exact. now apply H.
Qed.
Lemma valid_ipv4_sound E s v : forallb plain_char s = true ->
  fst (is_valid_ipv4_address E s v) = true -> valid_ipv4_string s.
Proof.
  intros Ha H. apply valid_ipv4_exact in H as (p1 & p2 & p3 & p4 & -> & H).
  rewrite !forallb_app in Ha. repeat (apply andb_true_iff in Ha as [? Ha]).
  destruct (octet_plain E p1) as (a & Ba & ->); [assumption|apply H; cbn; auto|].
  destruct (octet_plain E p2) as (b & Bb & ->); [assumption|apply H; cbn; auto|].
  destruct (octet_plain E p3) as (c & Bc & ->); [assumption|apply H; cbn; auto|].
  destruct (octet_plain E p4) as (d & Bd & ->); [assumption|apply H; cbn; auto 6|].
  exists a, b, c, d, (dec_str a), (dec_str b), (dec_str c), (dec_str d). repeat split; auto using dec_str_spec.
Qed.
