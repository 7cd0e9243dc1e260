(** Proofs about the texts of Origin and ValidityState objects. *)
From Coq Require Import Ascii String.
From Coq Require Import NArith ZArith Bool Arith Lia ZifyBool ZifyN ZifyNat List.
From Verif Require Import PyStr PyInt Codec Env HostModel UrlRecord Parser SearchParams UrlApi MsgValidators Repr ReprTuple SpecText SpecHost.
From Verif Require Import Lemmas PyIntProofs IPv4Proofs HostProofs IntGrammar ObjProofs ReprProofs.
From Verif Require Import SpecPyInt SpecUrl SpecApi SpecRepr SpecReprTuple.
Import ListNotations.
Open Scope N_scope.

(* ---------- Origin ---------- *)
Definition origin_items (o : origin) : list (str * pyobj) :=
  [($"scheme", PStr (og_scheme o)); ($"host", host_obj (og_host o)); ($"port", port_obj (og_port o)); ($"domain", text_obj (og_domain o))].
Lemma origin_items_ok o : pystr_origin o -> Forall (fun kv => (fst kv <> [] /\ forallb letter (fst kv) = true) /\ pystr_obj (snd kv)) (origin_items o).
Proof.
  intros (H1 & H2 & H3). unfold origin_items.
  repeat (apply Forall_cons; [split; [split; [discriminate|reflexivity]|cbn [snd]]|]); try apply Forall_nil; try (now constructor); auto using text_pystr.
  - destruct (og_host o) as [[s|n|l]|]; constructor; [now apply H2|]. apply Forall_map. apply Forall_forall. constructor.
  - destruct (og_port o); constructor.
Qed.
Lemma origin_read E pr o t : pystr_origin o -> origin_repr E pr o = Ok t -> exists args, reads_call t $"Origin" args /\ origin_value args o.
Proof.
  intros P H. exists (origin_items o). split.
  - destruct (call_read E pr _ _ t (origin_items_ok o P) ltac:(discriminate) H []) as (n & r & Q). rewrite app_nil_r in Q. exists n, r. exact Q.
  - unfold origin_items, origin_value. split; [reflexivity|]. repeat split.
    + destruct (og_host o) as [[]|]; reflexivity.
    + destruct (og_port o); reflexivity.
    + destruct (og_domain o); reflexivity.
Qed.
Lemma origin_value_fun args o o' : origin_value args o -> origin_value args o' -> o = o'.
Proof.
  unfold origin_value. destruct args as [|[k1 []] [|[k2 b] [|[k3 c] [|[k4 d] [|]]]]]; try (intros H; destruct H; fail).
  intros (_ & A1 & A2 & A3 & A4) (_ & B1 & B2 & B3 & B4). destruct o as [a1 a2 a3 a4], o' as [b1 b2 b3 b4]. cbn [og_scheme og_host og_port og_domain] in *. subst. f_equal.
  - destruct b as [| | |[]], a2 as [[]|], b2 as [[]|]; cbn in A2, B2; try tauto; try congruence. f_equal. f_equal. apply (map_inj PInt); [congruence|congruence].
  - destruct c, a3, b3; cbn in A3, B3; try tauto; congruence.
  - destruct d, a4, b4; cbn in A4, B4; try tauto; congruence.
Qed.
Lemma origin_repr_inj E pr E' pr' o o' t : pystr_origin o -> pystr_origin o' -> origin_repr E pr o = Ok t -> origin_repr E' pr' o' = Ok t -> o = o'.
Proof.
  intros P P' H H'. destruct (origin_read _ _ _ _ P H) as (a & R & V). destruct (origin_read _ _ _ _ P' H') as (a' & R' & V'). rewrite (call_fun _ _ _ _ R' R) in V'. eapply origin_value_fun; eauto.
Qed.

(** the record that has the origin's host and port *)
Definition origin_rec (o : origin) : urlrec := mkurl (og_scheme o) [] [] (og_host o) (og_port o) (POpaque []) (og_domain o) None.
Lemma origin_repr_cases E pr o :
  (exists t, origin_repr E pr o = Ok t) /\ (exists t, record_repr E pr (origin_rec o) = Ok t) \/
  origin_repr E pr o = Err EValue /\ record_repr E pr (origin_rec o) = Err EValue.
Proof.
  unfold origin_repr, record_repr, repr_call, origin_rec. cbn [map scheme username password uhost port path query fragment]. unfold repr_item. cbn [fst snd].
  assert (T : forall d, exists t, py_repr E pr (text_obj d) = Ok t) by (intros [d|]; eexists; reflexivity). destruct (T (og_domain o)) as (td & ->).
  change (py_repr E pr (path_obj (POpaque []))) with (Ok (repr_str pr [])). change (py_repr E pr (text_obj None)) with (@Ok str $"None").
  change (py_repr E pr (PStr (og_scheme o))) with (Ok (repr_str pr (og_scheme o))). change (py_repr E pr (PStr [])) with (Ok (repr_str pr [])).
  destruct (py_repr E pr (host_obj (og_host o))) as [th|e] eqn:H.
  - destruct (py_repr E pr (port_obj (og_port o))) as [tp|e] eqn:Q.
    + left. split; eexists; reflexivity.
    + right. apply repr_err in Q as (-> & _). split; reflexivity.
  - right. apply repr_err in H as (-> & _). split; reflexivity.
Qed.
Lemma origin_repr_ok E pr o : limit_ok E -> ((exists t, origin_repr E pr o = Ok t) <-> Forall (printable (int_limit E)) (origin_ints o)) /\
  ((exists t, origin_repr E pr o = Ok t) \/ origin_repr E pr o = Err EValue).
Proof.
  intros HL. pose proof (record_repr_ok E pr (origin_rec o) HL) as R. change (record_ints (origin_rec o)) with (origin_ints o) in R.
  destruct (origin_repr_cases E pr o) as [[A B]|[A B]]; split; try tauto. rewrite <- R. rewrite A, B. split; intros (t & H); discriminate H.
Qed.

(* ---------- equality of origins ---------- *)
Lemma origin_eqb_eq a b : origin_eqb a b = true <-> a = b.
Proof.
  unfold origin_eqb. change (str_eqb (og_scheme a) (og_scheme b) && ohost_eqb (og_host a) (og_host b) && on_eqb (og_port a) (og_port b)) with (is_same_origin a b).
  rewrite andb_true_iff, same_origin_spec. unfold std_same_origin. destruct a as [a1 a2 a3 a4], b as [b1 b2 b3 b4]. cbn [og_scheme og_host og_port og_domain].
  assert (O : ostr_eqb a4 b4 = true <-> a4 = b4). { destruct a4, b4; cbn [ostr_eqb]; rewrite ?str_eqb_eq; split; congruence. }
  rewrite O. split; [intros ((-> & -> & ->) & ->); reflexivity|]. intros H. injection H as -> -> -> ->. now repeat split.
Qed.
Lemma record_origin_domain E u o : record_origin E u = Ok (Some o) -> og_domain o = None.
Proof.
  assert (T : forall v o', tuple_origin v = Some o' -> og_domain o' = None).
  { intros v o'. unfold tuple_origin. destruct (str_in _ _); [intros H; injection H as <-; reflexivity|discriminate]. }
  unfold record_origin. destruct (str_eqb _ _); [|intros H; injection H as H; eauto].
  destruct (match path u with POpaque s => _ | PList l => _ end); [|discriminate]. destruct (snd _) as [p|e]; [|destruct (is_url_error e); discriminate].
  destruct (str_in _ _); [|discriminate]. intros H. injection H as H. eauto.
Qed.
Lemma origins_equal E E' u u' a b : record_origin E u = Ok (Some a) -> record_origin E' u' = Ok (Some b) ->
  (origin_eqb a b = true <-> std_same_origin a b) /\ (is_same_origin_domain a b = true <-> std_same_origin a b).
Proof.
  intros HA HB. apply record_origin_domain in HA, HB. split.
  - rewrite origin_eqb_eq. unfold std_same_origin. destruct a as [a1 a2 a3 a4], b as [b1 b2 b3 b4]. cbn [og_scheme og_host og_port og_domain] in *. subst. split; [intros H; injection H as -> -> ->; now repeat split|intros (-> & -> & ->); reflexivity].
  - unfold is_same_origin_domain. rewrite HA, HB. rewrite andb_false_r. cbn [andb orb]. rewrite !andb_true_r. apply same_origin_spec.
Qed.

(* ---------- ValidityState ---------- *)
Lemma Ok_inj {A} (x y : A) : Ok x = Ok y -> x = y.
Proof. congruence. Qed.
Lemma strs_pystr l : Forall is_pystr l -> pystr_obj (PSeq false (map PStr l)).
Proof. intros H. constructor. apply Forall_map. eapply Forall_impl; [|exact H]. intros s. now constructor. Qed.
Lemma read_bool_repr b rest : read_bool (bool_repr b ++ rest) = Some (b, rest).
Proof. destruct b; reflexivity. Qed.
Lemma validity_read E pr s quiet t : pystr_state s -> validity_repr E pr s quiet = Ok t ->
  validity_text t (ms_valid s) (PSeq false (map PStr (ms_types s))) (PSeq false (map PStr (ms_descs s))) (PInt (N.of_nat (ms_count s))) quiet.
Proof.
  intros [P1 P2] H. unfold validity_repr in H.
  destruct (py_repr E pr (PSeq false (map PStr (ms_types s)))) as [t1|] eqn:R1; [|discriminate H]. destruct (py_repr E pr (PSeq false (map PStr (ms_descs s)))) as [t2|] eqn:R2; [|discriminate H].
  destruct (py_repr E pr (PInt (N.of_nat (ms_count s)))) as [t3|] eqn:R3; [|discriminate H]. apply Ok_inj in H. rewrite <- H. clear H t.
  apply repr_readable in R1; [|now apply strs_pystr]. apply repr_readable in R2; [|now apply strs_pystr]. apply repr_readable in R3; [|constructor].
  set (x5 := bool_repr quiet ++ $")"). set (x4 := $", disable_logging=" ++ x5). set (x3 := $", validation_errors=" ++ t3 ++ x4). set (x2 := $", descriptions=" ++ t2 ++ x3).
  destruct (R1 x2) as (n1 & Q1); [reflexivity|]. destruct (R2 x3) as (n2 & Q2); [reflexivity|]. destruct (R3 x4) as (n3 & Q3); [reflexivity|].
  apply (proj1 (lit_more n1)) with (m := (n1 + n2 + n3)%nat) in Q1; [|lia]. apply (proj1 (lit_more n2)) with (m := (n1 + n2 + n3)%nat) in Q2; [|lia]. apply (proj1 (lit_more n3)) with (m := (n1 + n2 + n3)%nat) in Q3; [|lia].
  exists (n1 + n2 + n3)%nat. do 10 eexists.
  repeat match goal with |- _ /\ _ => split end;
    [apply expect_app|apply read_bool_repr|apply expect_app|exact Q1|apply expect_app|exact Q2|apply expect_app|exact Q3|apply expect_app|apply read_bool_repr|reflexivity].
Qed.
Lemma validity_text_fun t a b c d e a' b' c' d' e' : validity_text t a b c d e -> validity_text t a' b' c' d' e' -> (a, b, c, d, e) = (a', b', c', d', e').
Proof.
  intros (n & r1 & r2 & r3 & r4 & r5 & r6 & r7 & r8 & r9 & r10 & H1 & H2 & H3 & H4 & H5 & H6 & H7 & H8 & H9 & H10 & _)
    (m & q1 & q2 & q3 & q4 & q5 & q6 & q7 & q8 & q9 & q10 & K1 & K2 & K3 & K4 & K5 & K6 & K7 & K8 & K9 & K10 & _).
  assert (L : forall i x y, read_lit n i = Some x -> read_lit m i = Some y -> x = y).
  { intros i x y HA HB. apply (proj1 (lit_more n)) with (m := Nat.max n m) in HA; [|lia]. apply (proj1 (lit_more m)) with (m := Nat.max n m) in HB; [|lia]. congruence. }
  rewrite H1 in K1. injection K1 as <-. rewrite H2 in K2. injection K2 as <- <-. rewrite H3 in K3. injection K3 as <-. pose proof (L _ _ _ H4 K4) as X. injection X as <- <-.
  rewrite H5 in K5. injection K5 as <-. pose proof (L _ _ _ H6 K6) as X. injection X as <- <-. rewrite H7 in K7. injection K7 as <-. pose proof (L _ _ _ H8 K8) as X. injection X as <- <-.
  rewrite H9 in K9. injection K9 as <-. rewrite H10 in K10. injection K10 as <- <-. reflexivity.
Qed.
Lemma validity_repr_inj E pr E' pr' s s' q q' t : pystr_state s -> pystr_state s' -> validity_repr E pr s q = Ok t -> validity_repr E' pr' s' q' = Ok t -> s = s' /\ q = q'.
Proof.
  intros P P' H H'. apply validity_read in H, H'; try assumption. pose proof (validity_text_fun _ _ _ _ _ _ _ _ _ _ _ H H') as X. injection X as X1 X2 X3 X4 X5.
  split; [|exact X5]. destruct s as [a b c d], s' as [a' b' c' d']. cbn [ms_valid ms_types ms_descs ms_count] in *. f_equal; [exact X1|apply (map_inj PStr); [congruence|exact X2]|apply (map_inj PStr); [congruence|exact X3]|lia].
Qed.
Lemma validity_repr_ok E pr s q : limit_ok E -> ((exists t, validity_repr E pr s q = Ok t) <-> printable (int_limit E) (N.of_nat (ms_count s))) /\
  ((exists t, validity_repr E pr s q = Ok t) \/ validity_repr E pr s q = Err EValue).
Proof.
  intros HL. unfold validity_repr.
  assert (T : forall l, exists t, py_repr E pr (PSeq false (map PStr l)) = Ok t).
  { intros l. apply repr_total. cbn [obj_ints]. intros n Hn. apply in_flat_map in Hn as (o & Ho & Hn). apply in_map_iff in Ho as (x & <- & _). destruct Hn. }
  destruct (T (ms_types s)) as (t1 & ->). destruct (T (ms_descs s)) as (t2 & ->). pose proof (printable_eq E (N.of_nat (ms_count s)) HL) as PE. cbn [py_repr].
  destruct (repr_fails E (N.of_nat (ms_count s))); (split; [|auto; left; eexists; reflexivity]); rewrite PE; split; intros H; try discriminate H; try (destruct H as (t & H); discriminate H); try reflexivity. eexists; reflexivity.
Qed.
