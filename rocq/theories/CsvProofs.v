(** Proofs about the reader of Csv.v. *)
From Coq Require Import Ascii String.
From Coq Require Import NArith ZArith Bool Arith Lia ZifyBool ZifyN ZifyNat List.
From Verif Require Import PyStr Lemmas Csv SpecCsv.
Import ListNotations.
Open Scope N_scope.

Section Reading.
Context (nul : bool).

(** the records of a text, read from a state of the reader on *)
Definition from (s : str) (r : reader) : list (list str) * option load_error := records nul (split 10 s) r.

Lemma split_some s : exists p ps, split 10 s = p :: ps.
Proof.
  destruct s as [|c t]; cbn [split]; [eauto|]. destruct (c =? 10); [eauto|]. destruct (split 10 t); eauto.
Qed.
Lemma from_char c s r r' : c <> 10 -> c <> 0 -> process_char c r = Got r' -> from (c :: s) r = from s r'.
Proof.
  intros H10 H0 P. unfold from. cbn [split]. apply N.eqb_neq in H10, H0. rewrite H10.
  destruct (split_some s) as (p & ps & ->). cbn [records process_line]. rewrite H0. cbn [andb]. rewrite P. reflexivity.
Qed.
Lemma from_break s r :
  from (10 :: s) r =
  match r_state (process_eol r) with
  | START_RECORD => let (rs, e) := from s r_reset in (r_fields (process_eol r) :: rs, e)
  | _ => from s (process_eol r)
  end.
Proof. reflexivity. Qed.
Lemma from_end r :
  from [] r =
  match r_state (process_eol r) with
  | START_RECORD => ([r_fields (process_eol r)], None)
  | _ => records nul [] (process_eol r)
  end.
Proof. reflexivity. Qed.

Lemma universal_char c s : c <> 13 -> universal (c :: s) = c :: universal s.
Proof. intros H. apply N.eqb_neq in H. cbn [universal]. rewrite H. reflexivity. Qed.
Lemma universal_crlf s : universal (13 :: 10 :: s) = 10 :: universal s.
Proof. reflexivity. Qed.
Lemma universal_cr s : hd_error s <> Some 10 -> universal (13 :: s) = 10 :: universal s.
Proof.
  intros H. destruct s as [|d s]; [reflexivity|]. change (universal (13 :: d :: s)) with (if d =? 10 then 10 :: universal s else 10 :: universal (d :: s)).
  destruct (d =? 10) eqn:D; [|reflexivity]. apply N.eqb_eq in D. subst d. now elim H.
Qed.

Lemma in_quotes_break s field fs : from (universal (10 :: s)) (mkr IN_QUOTED field fs) = from (universal s) (mkr IN_QUOTED field fs).
Proof. rewrite universal_char by discriminate. rewrite from_break. reflexivity. Qed.
Lemma in_quotes_cr s field fs : from (universal (13 :: s)) (mkr IN_QUOTED field fs) = from (universal s) (mkr IN_QUOTED field fs).
Proof.
  destruct (N.eq_dec (hd 0 s) 10) as [H|H].
  - destruct s as [|d s]; [discriminate H|]. cbn [hd] in H. subst d. rewrite universal_crlf. rewrite in_quotes_break. rewrite from_break. reflexivity.
  - rewrite universal_cr; [rewrite from_break; reflexivity|]. intros K. apply H. destruct s; [discriminate K|]. cbn [hd_error] in K. now injection K.
Qed.

Lemma add_ok c st st0 field fs : N.of_nat (length field) < 131072 -> add_char c st (mkr st0 field fs) = Got (mkr st (field ++ [c]) fs).
Proof. intros H. unfold add_char, FIELD_LIMIT. cbn [r_field r_fields]. destruct (131072 <=? N.of_nat (length field)) eqn:K; [lia|reflexivity]. Qed.

(** the inside of a quoted field *)
Lemma quoted_run rest fs f : forall field,
  ~ In 0 f -> N.of_nat (length field + length f) <= 131072 ->
  from (universal (flat_map (fun c => if c =? 34 then [34; 34] else [c]) f ++ 34 :: rest)) (mkr IN_QUOTED field fs)
  = from (universal rest) (mkr QUOTE_IN_QUOTED (field ++ unbroken f) fs).
Proof.
  induction f as [|c f IH]; intros field Z L.
  - cbn [flat_map app unbroken filter]. rewrite app_nil_r. rewrite universal_char by discriminate.
    apply from_char; [discriminate|discriminate|reflexivity].
  - assert (Zc : c <> 0) by (intros ->; apply Z; now left). assert (Zf : ~ In 0 f) by (intros K; apply Z; now right).
    cbn [length] in L. cbn [flat_map]. destruct (c =? 34) eqn:Q.
    + apply N.eqb_eq in Q. subst c. cbn [app]. rewrite !universal_char by discriminate.
      rewrite from_char with (r' := mkr QUOTE_IN_QUOTED field fs) by (discriminate || reflexivity).
      rewrite from_char with (r' := mkr IN_QUOTED (field ++ [34]) fs);
        [|discriminate|discriminate|exact (add_ok 34 IN_QUOTED QUOTE_IN_QUOTED field fs ltac:(lia))].
      rewrite IH by (rewrite ?app_length; cbn [length]; auto; lia). unfold unbroken. cbn [filter N.eqb Pos.eqb orb negb].
      rewrite <- app_assoc. reflexivity.
    + cbn [app]. unfold unbroken. cbn [filter]. destruct (c =? 13) eqn:C; [|destruct (c =? 10) eqn:D]; cbn [orb negb].
      * apply N.eqb_eq in C. subst c. rewrite in_quotes_cr. apply IH; [exact Zf|lia].
      * apply N.eqb_eq in D. subst c. rewrite in_quotes_break. apply IH; [exact Zf|lia].
      * apply N.eqb_neq in C, D. rewrite universal_char by exact C.
        rewrite from_char with (r' := mkr IN_QUOTED (field ++ [c]) fs);
          [|exact D|exact Zc|cbn [process_char r_state]; rewrite Q; apply add_ok; lia].
        rewrite IH by (rewrite ?app_length; cbn [length]; auto; lia). rewrite <- app_assoc. reflexivity.
Qed.
(** the rest of a bare field *)
Lemma bare_run rest fs f : forall field,
  Forall (fun c => ~ In c [44; 34; 13; 10]) f -> ~ In 0 f -> N.of_nat (length field + length f) <= 131072 ->
  from (universal (f ++ rest)) (mkr IN_FIELD field fs) = from (universal rest) (mkr IN_FIELD (field ++ f) fs).
Proof.
  induction f as [|c f IH]; intros field B Z L; [cbn [app]; now rewrite app_nil_r|].
  assert (Zc : c <> 0) by (intros ->; apply Z; now left). assert (Zf : ~ In 0 f) by (intros K; apply Z; now right).
  inversion B as [|? ? Bc Bf]; subst. cbn [In] in Bc. cbn [length] in L. cbn [app]. rewrite universal_char by (intros ->; tauto).
  rewrite from_char with (r' := mkr IN_FIELD (field ++ [c]) fs).
  - rewrite IH by (rewrite ?app_length; cbn [length]; auto; lia). rewrite <- app_assoc. reflexivity.
  - intros ->; tauto.
  - exact Zc.
  - cbn [process_char r_state]. unfold is_nl.
    assert (c =? 10 = false) as -> by (apply N.eqb_neq; intros ->; tauto). assert (c =? 13 = false) as -> by (apply N.eqb_neq; intros ->; tauto).
    assert (c =? 44 = false) as -> by (apply N.eqb_neq; intros ->; tauto). apply add_ok. lia.
Qed.

Lemma bare_unbroken f : Forall (fun c => ~ In c [44; 34; 13; 10]) f -> unbroken f = f.
Proof.
  induction 1 as [|c f Bc Bf IH]; [reflexivity|]. unfold unbroken in *. cbn [filter In] in *.
  assert (c =? 13 = false) as -> by (apply N.eqb_neq; intros ->; tauto). assert (c =? 10 = false) as -> by (apply N.eqb_neq; intros ->; tauto).
  cbn [orb negb]. now rewrite IH.
Qed.

Definition opened (st : cstate) : Prop := st = START_RECORD \/ st = START_FIELD.
(** a state after a field; START_RECORD only when nothing was read *)
Definition closed (st0 : cstate) (t : str) (st : cstate) : Prop :=
  st = START_FIELD \/ st = IN_FIELD \/ st = QUOTE_IN_QUOTED \/ ((t = [] /\ st0 = START_RECORD) /\ st = START_RECORD).

Lemma field_run f t rest st fs :
  field_text f t -> readable f -> opened st ->
  exists st', from (universal (t ++ rest)) (mkr st [] fs) = from (universal rest) (mkr st' (unbroken f) fs) /\ closed st t st'.
Proof.
  intros T (Z & L) O. destruct T as [f B|f].
  - rewrite (bare_unbroken f B). destruct f as [|c f].
    + exists st. split; [reflexivity|]. destruct O as [-> | ->]; unfold closed; auto 6.
    + exists IN_FIELD. split; [|unfold closed; auto].
      assert (Zc : c <> 0) by (intros ->; apply Z; now left). assert (Zf : ~ In 0 f) by (intros K; apply Z; now right).
      inversion B as [|? ? Bc Bf]; subst. cbn [In] in Bc. cbn [length] in L. cbn [app]. rewrite universal_char by (intros ->; tauto).
      rewrite from_char with (r' := mkr IN_FIELD [c] fs).
      * apply (bare_run rest fs f [c] Bf Zf). cbn [length]. lia.
      * intros ->; tauto.
      * exact Zc.
      * assert (SF : start_field c (mkr st [] fs) = Got (mkr IN_FIELD [c] fs)).
        { unfold start_field, is_nl. assert (c =? 10 = false) as -> by (apply N.eqb_neq; intros ->; tauto). assert (c =? 13 = false) as -> by (apply N.eqb_neq; intros ->; tauto).
          assert (c =? 34 = false) as -> by (apply N.eqb_neq; intros ->; tauto). assert (c =? 44 = false) as -> by (apply N.eqb_neq; intros ->; tauto). reflexivity. }
        destruct O as [-> | ->]; cbn [process_char r_state]; [|exact SF]. unfold is_nl in *.
        assert (c =? 10 = false) as -> by (apply N.eqb_neq; intros ->; tauto). assert (c =? 13 = false) as -> by (apply N.eqb_neq; intros ->; tauto). exact SF.
  - exists QUOTE_IN_QUOTED. split; [|unfold closed; auto]. cbn [app]. rewrite <- app_assoc. cbn [app].
    rewrite universal_char by discriminate. rewrite from_char with (r' := mkr IN_QUOTED [] fs); [|discriminate|discriminate|destruct O as [-> | ->]; reflexivity].
    rewrite (quoted_run rest fs f []) by (cbn [length plus]; auto). reflexivity.
Qed.

Lemma comma_run st0 t s st field fs : closed st0 t st -> from (universal (44 :: s)) (mkr st field fs) = from (universal s) (mkr START_FIELD [] (fs ++ [field])).
Proof.
  intros C. rewrite universal_char by discriminate. apply from_char; [discriminate|discriminate|].
  destruct C as [-> | [-> | [-> | (_ & ->)]]]; reflexivity.
Qed.

Lemma record_run fl t : record_text fl t -> forall rest st fs, Forall readable fl -> opened st ->
  exists st' field fs',
    from (universal (t ++ rest)) (mkr st [] fs) = from (universal rest) (mkr st' field fs')
    /\ fs' ++ [field] = fs ++ map unbroken fl /\ closed st t st'.
Proof.
  induction 1 as [f t T|f t fl ts T R IH]; intros rest st fs A O; inversion A as [|? ? Af Afl]; subst.
  - destruct (field_run f t rest st fs T Af O) as (st' & E & C). exists st', (unbroken f), fs. auto.
  - destruct (field_run f t (44 :: ts ++ rest) st fs T Af O) as (st1 & E & C).
    destruct (IH rest START_FIELD (fs ++ [unbroken f]) Afl (or_intror eq_refl)) as (st' & field & fs' & E' & F & C').
    exists st', field, fs'. rewrite <- app_assoc. cbn [app]. rewrite E, (comma_run st t _ _ _ _ C), E'. split; [reflexivity|]. split.
    + rewrite F, <- app_assoc. reflexivity.
    + unfold closed in *. destruct C' as [? | [? | [? | ((_ & K) & _)]]]; auto. discriminate K.
Qed.

Lemma record_start fl t s : record_text fl t -> t <> [] -> hd_error (t ++ s) <> Some 10.
Proof.
  intros R NE. assert (F : forall f t', field_text f t' -> hd_error t' <> Some 10).
  { intros f t' T. destruct T as [f B|f]; [|discriminate]. destruct B as [|c f Bc]; [discriminate|]. cbn [hd_error In] in *. intros K. injection K as ->. tauto. }
  destruct R as [f t T|f t fl ts T R].
  - specialize (F f t T). destruct t; [now elim NE|exact F].
  - specialize (F f t T). destruct t; [discriminate|exact F].
Qed.
Lemma table_start rs ts : table_text rs ts -> hd_error ts <> Some 10.
Proof.
  intros T. destruct T as [|r t R NE|r t e rs ts R NE _ _]; [discriminate| |].
  - rewrite <- (app_nil_r t). apply (record_start r); assumption.
  - apply (record_start r); assumption.
Qed.
Lemma line_end_run e rs ts : line_end e -> table_text rs ts -> universal (e ++ ts) = 10 :: universal ts.
Proof.
  intros [-> | [-> | ->]] T; [reflexivity|reflexivity|]. apply universal_cr, (table_start rs), T.
Qed.

Lemma table_run rs t : table_text rs t -> Forall (Forall readable) rs ->
  exists tail, from (universal t) r_reset = (map (map unbroken) rs ++ tail, None) /\ Forall (fun r => r = []) tail.
Proof.
  induction 1 as [|r t R NE|r t e rs ts R NE EN T IH]; intros A.
  - exists [[]]. split; [reflexivity|]. auto.
  - inversion A as [|? ? Ar _]; subst. exists []. split; [|constructor]. rewrite <- (app_nil_r t).
    destruct (record_run r t R [] START_RECORD [] Ar (or_introl eq_refl)) as (st & field & fs & E & F & C). unfold r_reset. rewrite E.
    cbn [universal]. rewrite from_end. cbn [app] in F.
    destruct C as [-> | [-> | [-> | ((K & _) & _)]]]; [| | |now elim NE]; cbn [process_eol r_state save_field r_fields r_field]; rewrite F; reflexivity.
  - inversion A as [|? ? Ar Ars]; subst. destruct (IH Ars) as (tail & E' & TL). exists tail. split; [|exact TL].
    destruct (record_run r t R (e ++ ts) START_RECORD [] Ar (or_introl eq_refl)) as (st & field & fs & E & F & C). unfold r_reset at 1. rewrite E.
    rewrite (line_end_run e rs ts EN T), from_break. cbn [app] in F. cbn [map].
    destruct C as [-> | [-> | [-> | ((K & _) & _)]]]; [| | |now elim NE]; cbn [process_eol r_state save_field r_fields r_field]; rewrite F, E'; reflexivity.
Qed.
End Reading.

Lemma dict_last names1 names2 key : ~ In key names2 -> forall row, dict_get (names1 ++ key :: names2) row key = Some (nth_error row (length names1)).
Proof.
  intros NI. assert (NO : forall row, dict_get names2 row key = None).
  { induction names2 as [|n l IH]; intros row; [reflexivity|]. cbn [dict_get]. cbn [In] in NI. rewrite IH by tauto.
    destruct (str_eqb n key) eqn:K; [|reflexivity]. apply str_eqb_eq in K. tauto. }
  induction names1 as [|n l IH]; intros row; cbn [app dict_get length].
  - rewrite NO. assert (str_eqb key key = true) as -> by now apply str_eqb_eq. destruct row; reflexivity.
  - rewrite IH. destruct row; [|reflexivity]. cbn [tl nth_error]. now destruct (length l).
Qed.
Lemma dict_none names key : ~ In key names -> forall row, dict_get names row key = None.
Proof.
  intros NI. induction names as [|n l IH]; intros row; [reflexivity|]. cbn [dict_get]. cbn [In] in NI. rewrite IH by tauto.
  destruct (str_eqb n key) eqn:K; [|reflexivity]. apply str_eqb_eq in K. tauto.
Qed.
Lemma record_some fl t : record_text fl t -> fl <> [].
Proof. now destruct 1. Qed.
Lemma table_some rs t : table_text rs t -> Forall (fun r => r <> []) rs.
Proof. induction 1; constructor; try constructor; try assumption; now apply (record_some _ t). Qed.

Lemma column_blank names tail : Forall (fun r => r = []) tail -> column names tail None = Got [].
Proof. induction 1 as [|r l -> _ IH]; [reflexivity|exact IH]. Qed.
Lemma column_run a b rows tail :
  ~ In $"URI Scheme" b -> Forall (fun r => r <> []) rows -> Forall (fun r => r = []) tail ->
  column (a ++ $"URI Scheme" :: b) (rows ++ tail) None = Got (map (fun row => nth_error row (length a)) rows).
Proof.
  intros NI NE TL. induction NE as [|r rows Nr NE IH]; [now apply column_blank|]. cbn [app map column].
  destruct r as [|f r]; [now elim Nr|]. rewrite dict_last by exact NI. rewrite IH. reflexivity.
Qed.

Lemma column_exact nul header rows text a b :
  table_text (header :: rows) text -> Forall (Forall readable) (header :: rows) ->
  map unbroken header = a ++ $"URI Scheme" :: b -> ~ In $"URI Scheme" b ->
  scheme_column nul (universal text) = Got (map (fun row => nth_error (map unbroken row) (length a)) rows).
Proof.
  intros T A H NI. destruct (table_run nul _ _ T A) as (tail & E & TL). unfold scheme_column. unfold from in E. rewrite E. cbn [map app].
  rewrite H. rewrite column_run; [now rewrite map_map|exact NI| |exact TL].
  pose proof (table_some _ _ T) as TS. inversion TS as [|? ? _ TR]; subst. apply Forall_map. refine (Forall_impl _ _ TR). intros r Nr K. apply Nr. now destruct r.
Qed.
Lemma unbroken_same f : no_break f -> unbroken f = f.
Proof.
  intros (A & B). unfold unbroken. induction f as [|c f IH]; [reflexivity|]. cbn [filter In] in *.
  assert (c =? 13 = false) as -> by (apply N.eqb_neq; tauto). assert (c =? 10 = false) as -> by (apply N.eqb_neq; tauto).
  cbn [orb negb]. rewrite IH; tauto.
Qed.
Lemma no_column nul header rows text :
  table_text (header :: rows) text -> Forall (Forall readable) (header :: rows) ->
  ~ In $"URI Scheme" (map unbroken header) -> rows <> [] -> scheme_column nul (universal text) = Bad NoColumn.
Proof.
  intros T A NI NE. destruct (table_run nul _ _ T A) as (tail & E & TL). unfold scheme_column. unfold from in E. rewrite E. cbn [map app].
  destruct rows as [|r rows]; [now elim NE|]. cbn [map app column]. pose proof (table_some _ _ T) as TS. inversion TS as [|? ? _ TR]; subst. inversion TR; subst.
  destruct r as [|f r]; [congruence|]. cbn [map]. rewrite dict_none by exact NI. reflexivity.
Qed.
Lemma remove_exact x l1 l2 : ~ In (Some x) l1 -> remove_first x (l1 ++ Some x :: l2) = Got (l1 ++ l2).
Proof.
  induction l1 as [|v l1 IH]; intros NI; cbn [app remove_first In] in *.
  - assert (str_eqb x x = true) as -> by now apply str_eqb_eq. reflexivity.
  - rewrite IH by tauto. destruct v as [s|]; [|reflexivity]. destruct (str_eqb s x) eqn:K; [|reflexivity]. apply str_eqb_eq in K. subst. tauto.
Qed.
Lemma remove_none x l : ~ In (Some x) l -> remove_first x l = Bad NotListed.
Proof.
  induction l as [|v l1 IH]; intros NI; cbn [remove_first In] in *; [reflexivity|].
  rewrite IH by tauto. destruct v as [s|]; [|reflexivity]. destruct (str_eqb s x) eqn:K; [|reflexivity]. apply str_eqb_eq in K. subst. tauto.
Qed.

(** * Characters outside ASCII *)
Section Mapped.
Context (f : N -> N) (same : forall b, b < 128 -> f b = b) (high : forall b, 128 <= b -> 128 <= f b).
Lemma f_eqb b c : c < 128 -> (f b =? c) = (b =? c).
Proof. intros C. destruct (N.lt_ge_cases b 128) as [L|L]; [now rewrite same|]. specialize (high b L). lia. Qed.
Lemma field_map g t : field_text g t -> field_text (map f g) (map f t).
Proof.
  intros T. destruct T as [g B|g].
  - apply bare. apply Forall_map. refine (Forall_impl _ _ B). intros b NB K. apply NB. cbn [In] in *.
    destruct (N.lt_ge_cases b 128) as [L|L]; [now rewrite same in K|]. specialize (high b L). exfalso. lia.
  - cbn [map]. rewrite (same 34) by reflexivity. rewrite map_app. cbn [map]. rewrite (same 34) by reflexivity.
    replace (map f (flat_map (fun c => if c =? 34 then [34; 34] else [c]) g)) with (flat_map (fun c => if c =? 34 then [34; 34] else [c]) (map f g)); [apply quoted|].
    induction g as [|c g IH]; [reflexivity|]. cbn [map flat_map]. rewrite map_app, IH. f_equal. rewrite f_eqb by reflexivity.
    destruct (c =? 34); [cbn [map]; now rewrite (same 34)|reflexivity].
Qed.
Lemma record_map fl t : record_text fl t -> record_text (map (map f) fl) (map f t).
Proof.
  induction 1 as [g t T|g t fl ts T R IH]; cbn [map].
  - apply one_field, field_map, T.
  - rewrite map_app. cbn [map]. rewrite (same 44) by reflexivity. apply more_fields; [apply field_map, T|exact IH].
Qed.
Lemma map_some (t : str) : t <> [] -> map f t <> [].
Proof. now destruct t. Qed.
Lemma table_map rs t : table_text rs t -> table_text (map (map (map f)) rs) (map f t).
Proof.
  induction 1 as [|r t R NE|r t e rs ts R NE EN T IH]; cbn [map].
  - constructor.
  - apply last_record; [apply record_map, R|apply map_some, NE].
  - rewrite !map_app. apply more_records; [apply record_map, R|apply map_some, NE| |exact IH].
    replace (map f e) with e; [exact EN|]. destruct EN as [-> | [-> | ->]]; cbn [map]; now rewrite ?same.
Qed.
Lemma readable_map g : readable g -> readable (map f g).
Proof.
  intros (Z & L). split; [|now rewrite map_length]. intros K. apply in_map_iff in K. destruct K as (b & E & I'). apply Z.
  assert (b = 0); [|now subst]. apply N.eqb_eq. rewrite <- (f_eqb b 0) by reflexivity. now apply N.eqb_eq.
Qed.
Lemma ascii_map g : forallb (fun c => c <? 128) g = true -> map f g = g.
Proof.
  clear high. induction g as [|c g IH]; [reflexivity|]. cbn [forallb map]. intros K. apply andb_true_iff in K. destruct K as (K1 & K2).
  rewrite same by lia. now rewrite IH.
Qed.
End Mapped.

Lemma column_unbroken nul header rows text a b :
  table_text (header :: rows) text -> Forall (Forall readable) (header :: rows) ->
  Forall (Forall no_break) (header :: rows) -> header = a ++ $"URI Scheme" :: b -> ~ In $"URI Scheme" b ->
  scheme_column nul (universal text) = Got (map (fun row => nth_error row (length a)) rows).
Proof.
  intros T A NB H NI. assert (SM : forall r, Forall no_break r -> map unbroken r = r).
  { intros r F. rewrite <- (map_id r) at 2. apply map_ext_in. intros f I'. apply unbroken_same. rewrite Forall_forall in F. now apply F. }
  inversion NB as [|? ? NH NR]; subst. rewrite (column_exact nul _ _ _ a b T A); [|now apply SM|exact NI].
  f_equal. apply map_ext_in. intros r I'. rewrite SM; [reflexivity|]. rewrite Forall_forall in NR. now apply NR.
Qed.
Lemma load_exact nul dec file text l :
  dec file = Some text -> scheme_column nul (universal text) = Got l ->
  (forall l1 l2, l = l1 ++ Some $"shttp (OBSOLETE)" :: l2 -> ~ In (Some $"shttp (OBSOLETE)") l1 -> load_schemes nul dec file = Got (l1 ++ l2))
  /\ (~ In (Some $"shttp (OBSOLETE)") l -> load_schemes nul dec file = Bad NotListed).
Proof.
  intros D C. unfold load_schemes. rewrite D, C. split.
  - intros l1 l2 E NI. subst l. exact (remove_exact _ l1 l2 NI).
  - exact (remove_none _ l).
Qed.
