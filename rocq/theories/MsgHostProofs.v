(** Lemmas on the messages of the host parsers (C109, C110). *)
From Coq Require Import Ascii String.
From Coq Require Import NArith ZArith Bool Arith Lia ZifyBool ZifyN ZifyNat List.
From Verif Require Import PyStr PyInt Codec Env HostModel UrlRecord Parser SearchParams UrlApi Repr Idna Message MsgHost MsgParser SpecText SpecHost.
From Verif Require Import Lemmas CodecProofs QuoteProofs PyIntProofs IPv4Proofs IPv6Proofs IPv6Conf HostProofs WfProofs ParamProofs ReprProofs IdnaProofs IntGrammar ValidatorProofs MsgProofs.
From Verif Require StandardProofs.
From Verif Require Import SpecPyInt SpecUrl SpecParser SpecReports SpecRepr SpecIdna SpecMessages.
Import ListNotations.
Open Scope N_scope.

Lemma pystr_app (a b : str) : is_pystr (a ++ b) <-> is_pystr a /\ is_pystr b.
Proof. unfold is_pystr. apply Forall_app. Qed.
Lemma pystr_skipn n (s : str) : is_pystr s -> is_pystr (skipn n s).
Proof. intros H. rewrite <- (firstn_skipn n s) in H. now apply pystr_app in H as [_ H]. Qed.
Lemma pystr_firstn n (s : str) : is_pystr s -> is_pystr (firstn n s).
Proof. intros H. rewrite <- (firstn_skipn n s) in H. now apply pystr_app in H as [H _]. Qed.
Lemma pystr_occurs (p s : str) : occurs p s -> is_pystr s -> is_pystr p.
Proof. intros (a & b & ->) H. apply pystr_app in H as [_ H]. now apply pystr_app in H as [H _]. Qed.
Lemma pystr_field c p s : field c p s -> is_pystr s -> is_pystr p.
Proof. intros (a & b & -> & _) H. apply pystr_app in H as [_ H]. now apply pystr_app in H as [H _]. Qed.
Lemma pystr_split c (s : str) : is_pystr s -> Forall is_pystr (split c s).
Proof.
  intros H. apply Forall_forall. intros p Hp. apply Forall_forall. intros x Hx. unfold is_pystr in H. rewrite Forall_forall in H. apply H. revert p Hp x Hx. clear H. induction s as [|y s IH]; intros p Hp x Hx; cbn [split] in Hp.
  - destruct Hp as [<-|[]]. destruct Hx.
  - destruct (y =? c); [destruct Hp as [<-|Hp]; [destruct Hx|]; right; eapply IH; eassumption|]. destruct (split c s) as [|q ps]; [destruct Hp as [<-|[]]; destruct Hx as [<-|[]]; now left|].
    destruct Hp as [<-|Hp]; [destruct Hx as [<-|Hx]; [now left|right; apply (IH q (or_introl eq_refl) x Hx)]|right; apply (IH p (or_intror Hp) x Hx)].
Qed.

Lemma join_eq sep l : join sep l = std_join sep l.
Proof. induction l as [|x [|y l] IH]; [reflexivity|reflexivity|]. cbn [join std_join] in *. now rewrite IH. Qed.

Lemma split_last_empty c (s : str) : last (split c s) [] = [] -> s <> [] -> exists b, s = b ++ [c].
Proof.
  induction s as [|y s IH]; [contradiction|]. intros L _. cbn [split] in L. destruct (list_eq_dec N.eq_dec s []) as [->|NS].
  - cbn [split] in L. destruct (y =? c) eqn:Q; [exists []; cbn [app]; f_equal; lia|discriminate L].
  - pose proof (split_not_nil c s) as SN. destruct (split c s) as [|p ps] eqn:SP; [contradiction|].
    assert (LL : last (p :: ps) [] = []).
    { destruct (y =? c); [exact L|]. destruct ps as [|q ps]; [discriminate L|exact L]. }
    destruct (IH LL NS) as (b & ->). now exists (y :: b).
Qed.
Lemma drop_last_in (p : str) l : In p (drop_last_empty l) -> In p l.
Proof.
  unfold drop_last_empty. destruct (last l []); [|auto]. destruct (1 <? length l)%nat; [|auto]. intros H. destruct l as [|x l]; [destruct H|]. rewrite (app_removelast_last (l := x :: l) []) by discriminate. apply in_or_app. now left.
Qed.

Lemma split_head_field c (s p : str) ps : split c s = p :: ps -> exists b, s = p ++ b /\ ~ In c p /\ (b = [] \/ exists b', b = c :: b').
Proof.
  revert p ps. induction s as [|y s IH]; intros p ps; cbn [split].
  - intros H. injection H as <- <-. exists []. split; [reflexivity|]. split; [intros []|now left].
  - destruct (y =? c) eqn:Q.
    + intros H. injection H as <- _. exists (y :: s). split; [reflexivity|]. split; [intros []|]. right. exists s. f_equal. lia.
    + pose proof (split_not_nil c s) as SN. destruct (split c s) as [|q qs]; [contradiction|]. intros H. injection H as <- <-. destruct (IH q qs eq_refl) as (b & -> & N0 & HB). exists b. split; [reflexivity|]. split; [|exact HB]. intros [K|K]; [lia|now apply N0].
Qed.
Lemma tl_split_field c (s p : str) : In p (tl (split c s)) -> exists a b, s = a ++ c :: p ++ b /\ ~ In c p /\ (b = [] \/ exists b', b = c :: b').
Proof.
  induction s as [|y s IH]; [intros []|]. cbn [split]. pose proof (split_not_nil c s) as SN. destruct (y =? c) eqn:Q.
  - cbn [tl]. destruct (split c s) as [|q qs] eqn:SP; [contradiction|]. intros [<-|H].
    + destruct (split_head_field c s q qs SP) as (b & -> & N0 & HB). exists [], b. split; [cbn [app]; f_equal; lia|]. now split.
    + destruct (IH H) as (a & b & -> & K). exists (y :: a), b. now split.
  - destruct (split c s) as [|q qs]; [contradiction|]. cbn [tl] in *. intros H. destruct (IH H) as (a & b & -> & K). exists (y :: a), b. now split.
Qed.

Section Host.
Context (X : menv).
Local Notation E := (m_env X).
Context (HL : limit_ok E).

Lemma ok_str s : is_pystr s -> okbit X (Lit (PStr s)).
Proof. intros H. split; [now constructor|]. cbn [py_repr]. eexists. reflexivity. Qed.
Lemma small_prints n : n < 10 ^ 640 -> repr_fails E n = false.
Proof.
  intros H. apply printable_eq; [exact HL|]. unfold printable. unfold limit_ok in HL. destruct (int_limit E) as [l|]; [|exact I]. apply (N.lt_le_trans _ _ _ H). apply N.pow_le_mono_r; lia.
Qed.
Lemma all_ints ns : Forall (fun n => repr_fails E n = false) ns -> exists ts, all_ok (map (py_repr E (m_print X)) (map PInt ns)) = Ok ts.
Proof. induction 1 as [|n ns H F (ts & IH)]; [now exists []|]. cbn [map all_ok py_repr]. rewrite H, IH. now eexists. Qed.
Lemma ok_ints ns : Forall (fun n => repr_fails E n = false) ns -> okbit X (Lit (int_list ns)).
Proof.
  intros H. split; [constructor; apply Forall_map; apply Forall_forall; intros x _; constructor|]. unfold int_list. cbn [py_repr]. destruct (all_ints ns H) as (ts & ->). now eexists.
Qed.
Lemma fail_ints ns : existsb (repr_fails E) ns = true -> failbit X (Lit (int_list ns)).
Proof.
  intros H. unfold failbit, int_list. cbn [py_repr]. assert (G : all_ok (map (py_repr E (m_print X)) (map PInt ns)) = Err EValue); [|now rewrite G].
  induction ns as [|n ns IH]; [discriminate H|]. cbn [existsb] in H. cbn [map all_ok py_repr]. destruct (repr_fails E n); [reflexivity|]. cbn [orb] in H. now rewrite (IH H).
Qed.

Ltac bits := repeat (constructor; [first [exact I | (apply ok_str; assumption)]|]); try constructor.
Ltac wfail_by t := eapply ws_fail; [vm_compute; reflexivity|discriminate| | |t| |reflexivity]; [reflexivity|bits|reflexivity].
Ltac wnote_by t := eapply ws_note; [vm_compute; reflexivity|discriminate| | |t]; [reflexivity|bits].

Ltac bad_ok := repeat (constructor; [first [exact I | (apply ok_str; assumption) | assumption]|]); try constructor.

(* ---------- IPv6 ---------- *)
Section V6.
Context (a : str) (U : verr -> Prop) (ovr : list bit -> Prop) (HA : is_pystr a).
Local Notation sim := (wsim (v6_message a) U ovr).

Definition st_clear (x y : v6state) : Prop := x = y /\ v6_piece x = [].
Lemma v6_piece_sim c st : field 58 (v6_piece st) a -> sim (fun x y => x = y /\ v6_piece x = [] /\ v6_prev x = c) (m_ipv6_piece X a c st) (ipv6_piece E c st).
Proof.
  intros HF. pose proof (pystr_field _ _ _ HF HA) as HP. unfold m_ipv6_piece, ipv6_piece. cbv zeta. set (p := v6_piece st) in *. apply ws_if; intros D.
  - assert (ND : ~ In 46 p) by (intros K; apply mem_In in K; rewrite K in D; discriminate D).
    apply ws_if; intros B.
    + assert (C : (4 < length p)%nat \/ (exists c, In c p /\ std_hex c = None)).
      { apply orb_true_iff in B as [B|B]; [left; lia|right]. apply existsb_exists in B as (x & Hx & B). exists x. split; [exact Hx|]. rewrite hex_mem in B. now destruct (std_hex x). }
      wfail_by ltac:(apply m6_piece; eassumption).
    + eapply ws_bind; [now apply ws_opt|]. intros v ? <-. eapply ws_bind; [now apply ws_opt|]. intros l ? <-. now apply ws_ret.
  - assert (ID : In 46 p) by (apply mem_In; destruct (mem 46 p); [reflexivity|discriminate D]).
    apply ws_if; intros I6.
    { wfail_by ltac:(eapply m6_v4_many; eassumption). }
    apply ws_if; intros B.
    { assert (C : (4 < length (std_strict_split 46 p []))%nat \/ Exists bad_octet (std_strict_split 46 p [])).
      { rewrite std_split_eq. apply orb_true_iff in B as [B|B]; [left; lia|right]. apply Exists_exists. apply existsb_exists in B as (x & Hx & B). exists x. split; [exact Hx|].
        unfold bad_ipv4_piece in B. apply orb_true_iff in B as [B|B]; [apply orb_true_iff in B as [B|B]|].
        - left. destruct x; [reflexivity|discriminate B].
        - right. left. apply existsb_exists in B as (y & Hy & B). exists y. split; [exact Hy|]. rewrite StandardProofs.digit_eq in B. now destruct (std_digit y).
        - right. right. destruct x as [|z [|y x]]; try discriminate B. cbn [length] in B. apply andb_true_iff in B as [_ B]. apply N.eqb_eq in B. subst z. now exists y, x. }
      wfail_by ltac:(eapply m6_v4_cp; eassumption). }
    apply orb_false_iff in B as [B1 B2].
    assert (BP : Forall (fun x => bad_ipv4_piece x = false) (split 46 p)) by (apply Forall_forall; intros x Hx; rewrite existsb_false in B2; now apply B2).
    destruct (ints E (split 46 p)) as [ns|] eqn:NI; [|apply (ws_exc (v6_message a) U ovr); reflexivity].
    change (mw_opt EValue (Some ns)) with (mw_ret ns). change (of_opt EValue (Some ns)) with (wret ns).
    eapply ws_bind with (Q := fun x y => x = ns /\ y = ns); [now apply ws_ret|]. intros ? ? (-> & ->).
    apply ws_if; intros R.
    { assert (C : Exists (fun x => 255 < std_decimal x) (std_strict_split 46 p [])).
      { rewrite std_split_eq. apply (ints_some E _ HL BP) in NI. clear - NI R BP. induction NI as [|x v xs vs H F IH]; [discriminate R|]. cbn [existsb] in R. inversion BP; subst. apply orb_true_iff in R as [R|R]; [left|right; now apply IH].
        rewrite StandardProofs.decimal_eq in H; [injection H as <-; lia|]. apply forallb_forall. intros y Hy. unfold bad_ipv4_piece in H2. apply orb_false_iff in H2 as [H2 _]. apply orb_false_iff in H2 as [_ H2]. rewrite existsb_false in H2. specialize (H2 y Hy).
        rewrite StandardProofs.digit_eq in H2. now destruct (std_digit y). }
      wfail_by ltac:(eapply m6_v4_range; eassumption). }
    apply ws_if; intros L.
    { assert (C : (length (std_strict_split 46 p []) < 4)%nat) by (rewrite std_split_eq; lia). wfail_by ltac:(eapply m6_v4_few; eassumption). }
    eapply ws_bind; [now apply ws_opt|]. intros l ? <-. eapply ws_bind; [now apply ws_opt|]. intros l' ? <-. now apply ws_ret.
Qed.

(* where the loop is *)
Definition v6_at (rest : str) (st : v6state) : Prop :=
  exists pre, a = pre ++ v6_piece st ++ rest /\ ~ In 58 (v6_piece st) /\ (pre = [] \/ exists q, pre = q ++ [58]) /\
    (isc (v6_prev st) 58 = true -> v6_piece st = [] /\ exists q, pre = q ++ [58]).

Lemma v6_sep_sim c rest st : v6_at rest st -> (c = None /\ rest = [] \/ exists t, c = Some 58 /\ rest = 58 :: t) ->
  sim (fun x y => x = y /\ forall t, rest = 58 :: t -> v6_at t (fst x)) (m_ipv6_sep X a c st) (ipv6_sep E c st).
Proof.
  intros (pre & EA & NC & PE & PC) HC. unfold m_ipv6_sep, ipv6_sep. cbv zeta.
  assert (NEXT : forall st', v6_piece st' = [] -> v6_piece st' = v6_piece st \/ True -> forall t, rest = 58 :: t -> forall q, a = q ++ [58] ++ t -> v6_at t st').
  { intros st' E1 _ t _ q Q. exists (q ++ [58]). rewrite E1. split; [cbn [app]; now rewrite <- app_assoc|]. split; [intros []|]. split; [right; now exists q|]. intros _. split; [reflexivity|now exists q]. }
  destruct (isc (v6_prev st) 58) eqn:PV; cbn [andb].
  - destruct (PC eq_refl) as (P0 & q & Hq). rewrite P0 in *. cbn [app] in EA. apply ws_if; intros C58.
    + destruct HC as [(-> & _)|(t & -> & ->)]; [discriminate C58|]. destruct (v6_compress st) as [k|].
      * assert (OC : occurs $"::" a) by (exists q, t; rewrite EA, Hq, <- app_assoc; reflexivity). wfail_by ltac:(apply m6_twice; eassumption).
      * apply ws_ret. split; [reflexivity|]. intros t' T. injection T as <-. cbn [fst]. eapply NEXT; [cbn [v6_piece]; first [exact P0 | reflexivity]|now right|reflexivity|]. rewrite EA. reflexivity.
    + apply ws_if; intros CE.
      * destruct HC as [(-> & ->)|(t & -> & ->)]; [|discriminate CE]. rewrite app_nil_r in EA.
        assert (EN : a = q ++ [58]) by now rewrite EA.
        assert (FA : sim (fun x y : v6state * bool => x = y /\ forall t, [] = 58 :: t -> v6_at t (fst x)) (m_ipv6_ends X a) (wfail VIPv6InvalidCP EIPv6)) by (unfold m_ipv6_ends; wfail_by ltac:(eapply m6_ends; eassumption)).
        destruct (v6_compress st) as [k|]; [|exact FA]. apply ws_if; intros K; [|exact FA]. apply ws_ret. split; [reflexivity|discriminate].
      * exfalso. destruct HC as [(-> & ->)|(t & -> & ->)]; [discriminate CE|discriminate C58].
  - destruct (v6_piece st) as [|x p] eqn:PP.
    + apply ws_ret. split; [reflexivity|]. intros t T. cbn [fst]. eapply NEXT; [reflexivity|now right|exact T|]. rewrite EA, T. reflexivity.
    + assert (HF : field 58 (v6_piece st) a).
      { exists pre, rest. rewrite PP. split; [exact EA|]. split; [exact NC|]. split; [exact PE|]. destruct HC as [(_ & ->)|(t & _ & ->)]; [now left|right; now exists t]. }
      eapply ws_bind; [apply v6_piece_sim; exact HF|]. cbv beta. intros s1 s2 (<- & K1 & K2). apply ws_ret. split; [reflexivity|]. intros t T. cbn [fst]. eapply NEXT; [exact K1|now right|exact T|]. rewrite EA, T. now rewrite <- app_assoc.
Qed.
Lemma v6_loop_sim rest : forall st, v6_at rest st -> sim eq (m_ipv6_loop X a rest st) (ipv6_loop E rest st).
Proof.
  induction rest as [|c t IH]; intros st HI; cbn [m_ipv6_loop ipv6_loop].
  - apply ws_if; intros I8; [wfail_by ltac:(apply m6_many)|]. eapply ws_bind; [apply (v6_sep_sim None [] st HI); now left|]. cbv beta. intros x y (<- & _). now apply ws_ret.
  - apply ws_if; intros I8; [wfail_by ltac:(apply m6_many)|]. apply ws_if; intros C.
    + apply IH. destruct HI as (pre & EA & NC & PE & PC). exists pre. cbn [v6_piece v6_prev]. split; [rewrite EA; now rewrite <- !app_assoc|]. split; [intros K; apply in_app_or in K as [K|[K|[]]]; [now apply NC|lia]|]. split; [exact PE|].
      unfold isc. intros K. lia.
    + assert (c = 58) by lia. subst c. eapply ws_bind; [apply (v6_sep_sim (Some 58) (58 :: t) st HI); right; now exists t|]. cbv beta. intros x y (<- & K). apply IH. now apply K.
Qed.
Lemma v6_sim : sim eq (m_ipv6_parse X a) (ipv6_parse E a).
Proof.
  unfold m_ipv6_parse, ipv6_parse. cbv zeta.
  eapply ws_bind with (Q := fun x y => x = y /\ v6_at (fst x) (snd x)).
  - apply ws_if; intros S1.
    + apply ws_if; intros S2.
      * apply ws_ret. split; [reflexivity|]. cbn [fst snd]. exists $"::". cbn [v6_piece v6_prev app]. split; [|split; [intros []|split; [right; now exists [58]|discriminate]]].
        apply starts_with_iff in S2 as (r & ->). reflexivity.
      * assert (ST : exists t, a = 58 :: t /\ forall r, t <> 58 :: r).
        { apply starts_with_iff in S1 as (t & S1). exists t. split; [exact S1|]. rewrite S1 in S2. intros r ->. assert (Q : starts_with $"::" (58 :: 58 :: r) = true) by (apply starts_with_iff; now exists r). change ($":" ++ 58 :: r) with (58 :: 58 :: r) in S2. rewrite Q in S2. discriminate S2. }
        destruct ST as (t & ST1 & ST2). wfail_by ltac:(eapply m6_start; eassumption).
    + apply ws_ret. split; [reflexivity|]. cbn [fst snd]. exists []. cbn [v6_piece v6_prev app]. repeat split; auto; discriminate.
  - intros x y (<- & HI). eapply ws_bind; [apply v6_loop_sim; exact HI|]. intros st ? <-. destruct (v6_compress st) as [k|]; [now apply ws_opt|]. apply ws_if; intros K; [now apply ws_ret|]. wfail_by ltac:(apply m6_few).
Qed.
End V6.

(* ---------- IPv4 ---------- *)
Section V4.
Context (d : str) (ovr : list bit -> Prop) (HD : is_pystr d) (HN : d <> []).
Local Notation num := (read_number E).
Definition v4_unquotable : Prop := exists ns, Forall2 num (address_parts d) ns /\ ~ Forall (printable (int_limit E)) ns.
Local Notation sim := (wsim (v4_message num d) (unquoted (has_validity E) v4_unquotable) ovr).

Lemma v4_nondecimal p : (0 <= fst (parse_ipv4_number E p))%Z -> snd (parse_ipv4_number E p) = true -> exists t, p = 48 :: t /\ t <> [].
Proof.
  unfold parse_ipv4_number. destruct p as [|z [|x t]]; [cbn; lia| |].
  - cbv iota beta zeta. destruct (e_int E [z] 10); [discriminate|cbn; lia].
  - destruct (z =? 48) eqn:Z48; [intros _ _; exists (x :: t); split; [f_equal; lia|discriminate]|]. cbv iota beta zeta. destruct (e_int E (z :: x :: t) 10); [discriminate|cbn; lia].
Qed.
Lemma v4_numbers_sim parts : (forall p, In p parts -> In p (address_parts d) /\ is_pystr p) ->
  sim (fun x y => x = y /\ Forall2 num parts y) (m_ipv4_numbers X d parts) (ipv4_numbers E parts).
Proof.
  induction parts as [|p t IH]; intros HP; cbn [m_ipv4_numbers ipv4_numbers].
  - apply ws_ret. split; [reflexivity|constructor].
  - cbv zeta. destruct (HP p (or_introl eq_refl)) as (IN & PS). apply ws_if; intros NG.
    + assert (NN : forall n, ~ num p n) by (intros n K; apply (proj1 (number_exact E p n)) in K; lia).
      wfail_by ltac:(eapply m4_text; eassumption).
    + assert (NP : num p (Z.to_N (fst (parse_ipv4_number E p)))) by (apply (proj2 (number_exact E p _)); lia).
      eapply ws_bind with (Q := eq).
      * apply ws_if; intros ND; [|now apply ws_ret]. destruct (v4_nondecimal p) as (r & -> & R); [lia|exact ND|].
        assert (EX : exists n, num (48 :: r) n) by now eexists; exact NP.
        wnote_by ltac:(eapply m4_radix; eassumption).
      * intros [] [] _. eapply ws_bind; [apply IH; intros q Hq; apply HP; now right|]. cbv beta. intros x y (<- & F). apply ws_ret. split; [reflexivity|]. now constructor.
Qed.
Lemma int_cases ns : (existsb (repr_fails E) ns = false /\ okbit X (Lit (int_list ns))) \/
  (existsb (repr_fails E) ns = true /\ failbit X (Lit (int_list ns)) /\ (Forall2 num (address_parts d) ns -> v4_unquotable)).
Proof.
  destruct (existsb (repr_fails E) ns) eqn:Q; [right|left]; (split; [reflexivity|]).
  - split; [now apply fail_ints|]. intros F. exists ns. split; [exact F|]. intros K. apply existsb_exists in Q as (x & Hx & Q). rewrite Forall_forall in K. specialize (K x Hx). apply printable_eq in K; [congruence|exact HL].
  - apply ok_ints. apply Forall_forall. rewrite existsb_false in Q. exact Q.
Qed.
Ltac bad_bits := repeat (constructor; [first [left; exact I | (left; apply ok_str; assumption) | (right; assumption) | (left; assumption)]|]); try constructor.
Ltac bad_here := repeat (first [apply Exists_cons_hd; assumption | apply Exists_cons_tl]).
Lemma v4_sim : sim eq (m_ipv4_parse X d) (ipv4_parse E d).
Proof.
  unfold m_ipv4_parse, ipv4_parse. cbv zeta. eapply ws_bind with (Q := eq).
  { destruct (last (split 46 d) []) as [|c l] eqn:L; [|now apply ws_ret]. destruct (split_last_empty 46 d L HN) as (b & DB). wnote_by ltac:(eapply m4_empty; exact DB). }
  intros [] [] _. rewrite <- parts_eq. apply ws_if; intros L4.
  { assert (C : (4 < length (address_parts d))%nat) by lia. wfail_by ltac:(apply m4_many; exact C). }
  eapply ws_bind; [apply v4_numbers_sim|].
  { intros p Hp. split; [exact Hp|]. rewrite parts_eq in Hp. apply drop_last_in in Hp. pose proof (pystr_split 46 d HD) as F. rewrite Forall_forall in F. now apply F. }
  cbv beta. intros ns ? (<- & F).
  assert (NE : ns <> []). { intros ->. inversion F as [Q|]. symmetry in Q. now apply parts_ne in Q. }
  change (PSeq false (map PInt ns)) with (int_list ns).
  assert (SP : ns = removelast ns ++ [last ns 0]) by (now apply app_removelast_last).
  assert (LN : length ns = S (length (removelast ns))) by (rewrite SP at 1; rewrite app_length; cbn [length]; lia).
  assert (F' : Forall2 num (address_parts d) (removelast ns ++ [last ns 0])) by (rewrite <- SP; exact F).
  assert (RANGE : existsb (fun x => 255 <? x) ns = true -> Exists (fun n => 255 < n) ns).
  { intros K. apply Exists_exists. apply existsb_exists in K as (x & Hx & K). exists x. split; [exact Hx|lia]. }
  assert (LIM : 256 ^ (5 - N.of_nat (length ns)) = 256 ^ (4 - N.of_nat (length (removelast ns)))) by (f_equal; lia).
  assert (LP : okbit X (Dec (256 ^ (5 - N.of_nat (length ns))))).
  { apply small_prints. apply N.le_lt_trans with (256 ^ 5); [apply N.pow_le_mono_r; lia|]. vm_compute. reflexivity. }
  destruct (int_cases ns) as [(Q & OK)|(Q & BAD & UQ)]; rewrite Q.
  - rewrite andb_false_r. eapply ws_bind with (Q := eq).
    { apply ws_if; intros R; [|now apply ws_ret]. apply RANGE in R. eapply ws_note; [vm_compute; reflexivity|discriminate| | |exact (m4_range (read_number E) d ns F R)]; [reflexivity|]. bad_ok. }
    intros [] [] _. apply ws_if; intros R.
    + apply andb_true_iff in R as [R1 R2]. assert (M : v4_message num d VUndefined [Txt $"any part but the last part of the IPv4 address is greater than 255: "; Lit (PStr d); Txt $" ("; Lit (int_list ns); Txt $")"]).
      { rewrite SP. apply m4_lead; [exact F'| |lia]. apply Exists_exists. apply existsb_exists in R1 as (x & Hx & R1). exists x. split; [exact Hx|lia]. }
      eapply ws_fail; [vm_compute; reflexivity|discriminate| | |exact M| |reflexivity]; [reflexivity|bad_ok|reflexivity].
    + apply ws_if; intros LL; [|now apply ws_ret].
      assert (M : v4_message num d VUndefined [Txt $"last part of the IPv4 address is greater than or equal to "; Dec (256 ^ (5 - N.of_nat (length ns))); Txt $": "; Lit (PStr d); Txt $" ("; Lit (int_list ns); Txt $")"]).
      { rewrite SP at 2. apply m4_last; [exact F'|exact LIM|lia]. }
      eapply ws_fail; [vm_compute; reflexivity|discriminate| | |exact M| |reflexivity]; [reflexivity|bad_ok|reflexivity].
  - specialize (UQ F). rewrite andb_true_r. destruct (has_validity E) eqn:HV.
    { assert (R : existsb (fun x => 255 <? x) ns = true).
      { apply existsb_exists in Q as (x & Hx & Q). apply existsb_exists. exists x. split; [exact Hx|]. destruct (255 <? x) eqn:L; [reflexivity|]. exfalso.
        assert (SM : okbit X (Dec x)) by (apply small_prints; apply N.le_lt_trans with 255; [lia|vm_compute; reflexivity]). cbn [okbit] in SM. congruence. }
      rewrite R. eapply ws_bind with (Q := fun _ _ => False); [|contradiction].
      eapply ws_note_raises; [vm_compute; reflexivity|discriminate|reflexivity|bad_bits|bad_here|split; [exact UQ|reflexivity]|exact HV]. }
    eapply ws_bind with (Q := eq).
    { apply ws_if; intros R; [|now apply ws_ret].
      eapply ws_note_bad; [vm_compute; reflexivity|discriminate|reflexivity|bad_bits|bad_here|split; [exact UQ|now left]|exact HV]. }
    intros [] [] _. apply ws_if; intros R.
    + eapply ws_fail_bad; [vm_compute; reflexivity|discriminate|reflexivity|bad_bits|bad_here|split; [exact UQ|now right]|reflexivity].
    + apply ws_if; intros LL; [|now apply ws_ret].
      eapply ws_fail_bad; [vm_compute; reflexivity|discriminate|reflexivity|bad_bits|bad_here|split; [exact UQ|now right]|reflexivity].
Qed.
End V4.

(* ---------- opaque hosts and domains ---------- *)
Section OneHost.
Context (HI : forall d errors o, icu_to_ascii E 28 d = IcuOk errors o -> counted errors = 0 -> o <> [] -> is_pystr o).
Context (h : str) (ovr : list bit -> Prop) (HH : is_pystr h).
Local Notation code := (m_icu_code X).
Definition host_unquotable : Prop := exists errors d ns, icu_to_ascii E 28 (decoded h) = IcuOk errors d /\
  Forall2 (read_number E) (address_parts d) ns /\ ~ Forall (printable (int_limit E)) ns.
Local Notation sim := (wsim (host_message E code h) (unquoted (has_validity E) host_unquotable) ovr).

Lemma cps_some inc exc s c : is_url_code_points inc exc s = Some c -> In c s /\ is_url_cp inc exc c = false.
Proof.
  induction s as [|x t IH]; [discriminate|]. cbn [is_url_code_points]. destruct (is_url_cp inc exc x) eqn:Q; [intros K; destruct (IH K); split; [now right|assumption]|].
  intros K. injection K as <-. split; [now left|exact Q].
Qed.
Lemma opaque_sim : sim eq (m_parse_opaque_host X h) (parse_opaque_host h).
Proof.
  unfold m_parse_opaque_host, parse_opaque_host. apply ws_if; intros FB.
  { apply existsb_exists in FB as (c & Hc & FB). rewrite forbidden_host_eq in FB. wfail_by ltac:(eapply mh_forbidden; eassumption). }
  eapply ws_bind with (Q := eq); [|intros [] [] _; now apply ws_ret].
  unfold is_url_units. destruct (is_url_code_points $"%" [] h) as [c|] eqn:CP.
  - apply cps_some in CP as (IN & CP). rewrite url_cp_eq in CP. cbn [mem existsb negb andb] in CP. change (mem c $"%") with ((c =? 37) || false) in CP. rewrite orb_false_r in CP. apply orb_false_iff in CP as [C37 CU].
    assert (G : (length [c] =? 1)%nat && negb (str_eqb [c] $"%") = true).
    { cbn [length Nat.eqb andb]. destruct (str_eqb [c] $"%") eqn:Q; [|reflexivity]. apply str_eqb_eq in Q. injection Q as ->. discriminate C37. }
    rewrite G. cbn [hd]. assert (c <> 37) by lia. assert (PC : is_pystr [c]) by (constructor; [|constructor]; unfold is_pystr in HH; rewrite Forall_forall in HH; now apply HH).
    unfold shown_char. rewrite utf8_round_trip by exact PC. wnote_by ltac:(eapply mh_unit; eassumption).
  - destruct (find bad_percent_part (percent_parts h)) as [q|] eqn:FQ; [|now apply ws_ret].
    apply find_some in FQ as (IN & BP). unfold percent_parts in IN. apply in_map_iff in IN as (p & <- & IN).
    destruct (tl_split_field 37 h p IN) as (a & b & HE & NP & HB).
    assert (G : (length (firstn 3 (37%N :: p)) =? 1)%nat && negb (str_eqb (firstn 3 (37 :: p)) $"%") = false).
    { destruct p as [|x [|y p]]; reflexivity. }
    rewrite G. change (firstn 3 (37 :: p)) with (37 :: firstn 2 p).
    assert (E1 : h = a ++ 37 :: firstn 2 p ++ (skipn 2 p ++ b)) by (rewrite app_assoc, firstn_skipn; exact HE).
    assert (E2 : std_two_hex (firstn 2 p ++ (skipn 2 p ++ b)) = false).
    { rewrite app_assoc, firstn_skipn. unfold bad_percent_part in BP. destruct p as [|x [|y p]].
      - destruct HB as [->|(b' & ->)]; [reflexivity|]. cbn. destruct b'; reflexivity.
      - destruct HB as [->|(b' & ->)]; [reflexivity|]. cbn [app std_two_hex]. now rewrite andb_false_r.
      - cbn [length Nat.ltb Nat.leb skipn firstn existsb orb] in BP. rewrite !hex_mem in BP. cbn [app std_two_hex]. unfold std_hex_digit. destruct (std_hex x); [|reflexivity]. destruct (std_hex y); [discriminate BP|reflexivity]. }
    assert (E3 : ~ In 37 (firstn 2 p)) by (intros K; apply NP; rewrite <- (firstn_skipn 2 p); apply in_or_app; now left).
    assert (E4 : length (firstn 2 p) = 2%nat \/ (length (firstn 2 p) < 2)%nat /\ (skipn 2 p ++ b = [] \/ exists b', skipn 2 p ++ b = 37 :: b')).
    { destruct p as [|x [|y p]]; [right|right|now left]; cbn; (split; [lia|exact HB]). }
    assert (PP : is_pystr (37 :: firstn 2 p)).
    { rewrite E1 in HH. apply pystr_app in HH as [_ HH']. change (37 :: firstn 2 p ++ skipn 2 p ++ b) with ((37 :: firstn 2 p) ++ (skipn 2 p ++ b)) in HH'. now apply pystr_app in HH' as [HH' _]. }
    wnote_by ltac:(eapply mh_percent; eassumption).
Qed.

Lemma decoded_eq : utf8_decode (string_percent_decode h) = decoded h.
Proof. unfold decoded. rewrite utf8_decode_spec, string_percent_decode_spec by exact HH. reflexivity. Qed.
Lemma decoded_pystr : is_pystr (decoded h).
Proof. rewrite <- decoded_eq. apply utf8_decode_le. Qed.
Lemma idna_sim : sim (fun x y => x = y /\ x <> [] /\ exists errors, icu_to_ascii E 28 (decoded h) = IcuOk errors x /\ counted errors = 0)
  (m_domain_to_ascii X false (decoded h)) (domain_to_ascii E false (decoded h)).
Proof.
  pose proof decoded_pystr as DP. unfold m_domain_to_ascii, domain_to_ascii. cbv zeta. cbv iota. change (4 + 8 + 16 + 0) with 28. change (N.lor CHECK_HYPHENS_ERRORS VERIFY_DNS_LENGTH_ERRORS) with 63.
  destruct (icu_to_ascii E 28 (decoded h)) as [errors dest|errors] eqn:IC.
  2: { eapply ws_fail; [vm_compute; reflexivity|discriminate| | |eapply mh_icu; eassumption| |reflexivity]; [reflexivity|bad_ok|reflexivity]. }
  change (N.ldiff errors 63) with (counted errors). apply ws_if; intros CE.
  - assert (CN : counted errors <> 0) by lia. rewrite errors_closed, join_eq. eapply ws_fail; [vm_compute; reflexivity|discriminate| | |eapply mh_idna; eassumption| |reflexivity]; [reflexivity|bad_ok|reflexivity].
  - assert (CN : counted errors = 0) by lia. destruct dest as [|c t].
    + wfail_by ltac:(eapply mh_empty; eassumption).
    + apply ws_ret. split; [reflexivity|]. split; [discriminate|]. exists errors. now split.
Qed.
Lemma host_sim ns : sim eq (m_host_parse X h ns) (host_parse E h ns).
Proof.
  unfold m_host_parse, host_parse. destruct h as [|c t] eqn:Hh; [now apply ws_ret|]. rewrite <- Hh in *. apply ws_if; intros C91.
  - apply ws_if; intros EW.
    + assert (HA : h = 91 :: removelast t ++ [93]).
      { rewrite Hh. f_equal; [lia|]. unfold ends_with_char in EW. rewrite Hh in EW. cbn [rev] in EW. destruct (rev t) as [|x r] eqn:RT; [cbn [app] in EW; assert (c = 93) by lia; lia|]. cbn [app] in EW.
        apply (f_equal (@rev N)) in RT. rewrite rev_involutive in RT. cbn [rev] in RT. rewrite RT. rewrite removelast_last. f_equal. f_equal. lia. }
      eapply ws_bind; [|intros x ? <-; now apply ws_ret]. eapply wsim_weak; [| |apply (v6_sim (removelast t) (unquoted (has_validity E) host_unquotable) ovr)].
      * intros v b K. eapply mh_v6; eassumption.
      * auto.
      * rewrite HA in HH. inversion HH as [|? ? _ K]; subst. now apply pystr_app in K as [K _].
    + assert (HA : h = 91 :: t) by (rewrite Hh; f_equal; lia).
      assert (HB : forall r, t <> r ++ [93]). { intros r K. enough (ends_with_char h 93 = true) by congruence. rewrite HA, K. change (91 :: r ++ [93]) with ((91 :: r) ++ [93]). apply ends_with_snoc. }
      wfail_by ltac:(eapply mh_open; eassumption).
  - apply ws_if; intros NS.
    + eapply ws_bind; [apply opaque_sim|]. intros x ? <-. now apply ws_ret.
    + cbv zeta. rewrite decoded_eq. eapply ws_bind; [apply idna_sim|]. cbv beta. intros d ? (<- & DN & errors & IC & CE). pose proof (HI _ _ _ IC CE DN) as DP.
      apply ws_if; intros FB.
      { apply existsb_exists in FB as (x & Hx & FB). rewrite forbidden_domain_eq in FB. wfail_by ltac:(eapply mh_domain; eassumption). }
      apply ws_if; intros EN; [|now apply ws_ret]. eapply ws_bind; [|intros x ? <-; now apply ws_ret]. eapply wsim_weak; [| |apply (v4_sim d ovr DP DN)].
      * intros v b K. eapply mh_v4; eassumption.
      * intros v ((l & K1 & K2) & K3). split; [exists errors, d, l; auto|exact K3].
Qed.
End OneHost.
End Host.
