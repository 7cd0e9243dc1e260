(** The table shipped with the package, read by Csv.v. *)
From Coq Require Import Ascii String.
From Coq Require Import NArith ZArith Bool Arith Lia ZifyBool ZifyN ZifyNat List.
From Verif Require Import PyStr Lemmas Codec Csv CsvProofs SchemeFile Schemes SpecCsv.
Import ListNotations.
Open Scope N_scope.

Definition special_in (f : str) : bool := existsb (fun c => mem c [44; 34; 13; 10]) f.
Definition wfield (f : str) : str :=
  if special_in f then 34 :: flat_map (fun c => if c =? 34 then [34; 34] else [c]) f ++ [34] else f.
Fixpoint wrecord (r : list str) : str :=
  match r with [] => [] | [f] => wfield f | f :: fs => wfield f ++ 44 :: wrecord fs end.
Definition wtable (rs : list (list str)) : str := flat_map (fun r => wrecord r ++ [13; 10]) rs.
Definition filled {A} (l : list A) : bool := match l with [] => false | _ => true end.

Lemma wfield_ok f : field_text f (wfield f).
Proof.
  unfold wfield. destruct (special_in f) eqn:S'; [apply quoted|apply bare]. apply Forall_forall. intros c I' K.
  assert (special_in f = true); [|congruence]. apply existsb_exists. exists c. split; [exact I'|]. unfold mem. apply existsb_exists. exists c. split; [exact K|apply N.eqb_refl].
Qed.
Lemma wrecord_ok r : filled r = true -> record_text r (wrecord r).
Proof.
  induction r as [|f r IH]; [discriminate|]. intros _. destruct r as [|g r]; [apply one_field, wfield_ok|].
  change (wrecord (f :: g :: r)) with (wfield f ++ 44 :: wrecord (g :: r)). apply more_fields; [apply wfield_ok|now apply IH].
Qed.
Lemma wtable_ok rs : forallb (fun r => filled r && filled (wrecord r)) rs = true -> table_text rs (wtable rs).
Proof.
  induction rs as [|r rs IH]; [constructor|]. cbn [forallb]. intros K. apply andb_true_iff in K. destruct K as (K & K2). apply andb_true_iff in K. destruct K as (K0 & K1).
  unfold wtable. cbn [flat_map]. rewrite <- app_assoc. apply more_records; [now apply wrecord_ok| |now left|now apply IH]. intros E. now rewrite E in K1.
Qed.

Definition ROWS : list (list str) := removelast (fst (records true (split 10 (universal SHIPPED)) r_reset)).
Definition ODD : list N := [161; 169; 173; 179; 195].
Definition plain_text (f : str) : bool := forallb (fun c => (c <? 128) && negb ((c =? 13) || (c =? 10))) f.
Definition opt_eqb (a b : option str) : bool :=
  match a, b with Some x, Some y => str_eqb x y | None, None => true | _, _ => false end.
Fixpoint cells_eqb (a b : list (option str)) : bool :=
  match a, b with [], [] => true | x :: a, y :: b => opt_eqb x y && cells_eqb a b | _, _ => false end.
Definition sound (file : list N) (rows : list (list str)) : bool :=
  str_eqb (wtable rows) file
  && forallb (fun r => filled r && filled (wrecord r)) rows
  && forallb (forallb (fun f => negb (mem 0 f) && (N.of_nat (length f) <=? 131072))) rows
  && forallb (fun b => (b <? 128) || mem b ODD) file
  && forallb (fun b => mem b file) ODD
  && forallb (fun r => match r with f :: _ => plain_text f | [] => false end) rows
  && match rows with
     | (n :: names) :: rows =>
         str_eqb n $"URI Scheme" && forallb plain_text names && negb (str_in $"URI Scheme" names)
         && match remove_first $"shttp (OBSOLETE)" (map (fun r => hd_error r) rows) with
            | Got l => cells_eqb l (map Some REGISTERED_SCHEMES)
            | Bad _ => false
            end
     | _ => false
     end.
Lemma shipped_sound : sound SHIPPED ROWS = true.
Proof. vm_compute. reflexivity. Qed.
Lemma cells_eq a : forall b, cells_eqb a b = true -> a = b.
Proof.
  induction a as [|x a IH]; intros [|y b]; cbn [cells_eqb]; try discriminate; [reflexivity|]. intros K. apply andb_true_iff in K. destruct K as (K1 & K2).
  rewrite (IH b K2). f_equal. destruct x as [x|], y as [y|]; cbn [opt_eqb] in K1; try discriminate; [|reflexivity]. apply str_eqb_eq in K1. now subst.
Qed.

Lemma plain_same f g : (forall b, b < 128 -> f b = b) -> plain_text g = true -> unbroken (map f g) = g.
Proof.
  intros S' K. unfold plain_text in K. rewrite forallb_forall in K. rewrite (ascii_map f S').
  - apply unbroken_same. split; intros I'; specialize (K _ I'); discriminate K.
  - apply forallb_forall. intros c I'. specialize (K c I'). apply andb_true_iff in K. tauto.
Qed.

Lemma sound_load file rows nul f :
  sound file rows = true -> (forall b, b < 128 -> f b = b) -> (forall b, 128 <= b -> 128 <= f b) ->
  match scheme_column nul (universal (map f file)) with Bad e => Bad e | Got l => remove_first $"shttp (OBSOLETE)" l end
  = Got (map Some REGISTERED_SCHEMES).
Proof.
  intros K S' H. unfold sound in K. do 6 (apply andb_true_iff in K; destruct K as (K & ?)).
  apply str_eqb_eq in K. rename H5 into FI, H4 into RD, H1 into PL, H0 into HD.
  pose proof (table_map f S' H _ _ (wtable_ok rows FI)) as T. rewrite K in T.
  destruct rows as [|[|n names] rows]; [discriminate HD|discriminate HD|].
  do 3 (apply andb_true_iff in HD; destruct HD as (HD & ?)). apply str_eqb_eq in HD. rename H0 into RM, H1 into NI, H4 into PN.
  cbn [map] in T. rewrite (column_exact nul _ _ _ [] names T).
  - cbn [length]. destruct (remove_first $"shttp (OBSOLETE)" (map (fun r => hd_error r) rows)) as [l|] eqn:R; [|discriminate RM].
    apply cells_eq in RM. subst l. rewrite <- R. f_equal. rewrite map_map. apply map_ext_in. intros r I'.
    cbn [forallb] in PL. apply andb_true_iff in PL. destruct PL as (_ & PL). rewrite forallb_forall in PL. specialize (PL r I').
    destruct r as [|g r]; [reflexivity|]. cbn [map nth_error hd_error]. rewrite (plain_same f g S' PL). reflexivity.
  - change (Forall (Forall readable) (map (map (map f)) ((n :: names) :: rows))). apply Forall_map, Forall_forall. intros r I'. apply Forall_map, Forall_forall. intros g J.
    rewrite forallb_forall in RD. specialize (RD r I'). rewrite forallb_forall in RD. specialize (RD g J). apply andb_true_iff in RD. destruct RD as (Z & L).
    apply (readable_map f S' H). split; [|lia]. intros Q. assert (M0 : mem 0 g = true) by (apply existsb_exists; exists 0; exact (conj Q eq_refl)). rewrite M0 in Z. discriminate Z.
  - cbn [map app]. cbn [forallb] in PL. apply andb_true_iff in PL. destruct PL as (Pn & _). rewrite (plain_same f n S' Pn). rewrite HD. f_equal.
    rewrite map_map. rewrite forallb_forall in PN. rewrite <- (map_id names) at 2. apply map_ext_in. intros g J. apply (plain_same f g S'), PN, J.
  - intros Q. apply str_in_In in Q. rewrite Q in NI. discriminate NI.
Qed.

Lemma bytewise_map dec file :
  Forall (fun b => dec b <> None) file -> bytewise dec file = Some (map (fun b => match dec b with Some c => c | None => b end) file).
Proof.
  induction 1 as [|b l B _ IH]; [reflexivity|]. cbn [bytewise map]. rewrite IH. destruct (dec b); [reflexivity|now elim B].
Qed.
Lemma bytewise_none dec file b : In b file -> dec b = None -> bytewise dec file = None.
Proof.
  intros I' B. induction file as [|x l IH]; [elim I'|]. cbn [bytewise]. destruct I' as [-> | I']; [now rewrite B|].
  destruct (dec x); [now rewrite (IH I')|reflexivity].
Qed.
Lemma sound_bytes file rows b : sound file rows = true -> In b file -> b < 128 \/ In b ODD.
Proof.
  intros K I'. unfold sound in K. do 6 (apply andb_true_iff in K; destruct K as (K & ?)).
  rewrite forallb_forall in H2. specialize (H2 b I'). apply orb_true_iff in H2. destruct H2 as [L|M]; [left; lia|right].
  unfold mem in M. apply existsb_exists in M. destruct M as (c & J & E). apply N.eqb_eq in E. subst c. exact J.
Qed.
Lemma sound_odd file rows b : sound file rows = true -> In b ODD -> In b file.
Proof.
  intros K I'. unfold sound in K. do 6 (apply andb_true_iff in K; destruct K as (K & ?)).
  rewrite forallb_forall in H1. specialize (H1 b I'). unfold mem in H1. apply existsb_exists in H1. destruct H1 as (c & J & E). apply N.eqb_eq in E. subst c. exact J.
Qed.
Lemma sound_decoded file rows nul dec : sound file rows = true -> extends_ascii dec -> (forall b, In b ODD -> dec b <> None) ->
  load_schemes nul (bytewise dec) file = Got (map Some REGISTERED_SCHEMES).
Proof.
  intros S' (A & H) O. unfold load_schemes. rewrite bytewise_map.
  - apply (sound_load file rows); [exact S'| |].
    + intros b L. rewrite (A b L). reflexivity.
    + intros b L. destruct (dec b) as [c|] eqn:D; [apply (H b); assumption|exact L].
  - apply Forall_forall. intros b I'. destruct (sound_bytes file rows b S' I') as [L|J]; [rewrite (A b L); discriminate|apply O; exact J].
Qed.
Lemma sound_fails file rows nul dec b : sound file rows = true -> In b ODD -> dec b = None -> load_schemes nul (bytewise dec) file = Bad Undecodable.
Proof. intros S' I' D. unfold load_schemes. rewrite (bytewise_none dec file b (sound_odd file rows b S' I') D). reflexivity. Qed.
Lemma shipped_load nul dec : extends_ascii dec -> (forall b, In b ODD -> dec b <> None) ->
  load_schemes nul (bytewise dec) SHIPPED = Got (map Some REGISTERED_SCHEMES).
Proof. exact (sound_decoded SHIPPED ROWS nul dec shipped_sound). Qed.
Lemma shipped_fails nul dec b : In b ODD -> dec b = None -> load_schemes nul (bytewise dec) SHIPPED = Bad Undecodable.
Proof. exact (sound_fails SHIPPED ROWS nul dec b shipped_sound). Qed.

Definition scalar_chars (t : str) : bool := forallb (fun c => (c <? 1114112) && negb ((55296 <=? c) && (c <=? 57343))) t.
Definition loads (nul : bool) (t : str) : bool :=
  match (match scheme_column nul (universal t) with Bad e => Bad e | Got l => remove_first $"shttp (OBSOLETE)" l end) with
  | Got l => cells_eqb l (map Some REGISTERED_SCHEMES)
  | Bad _ => false
  end.
Definition text_of (file : list N) (t : str) : bool := scalar_chars t && str_eqb (utf8_encode t) file && loads false t && loads true t.
Lemma text_check : text_of SHIPPED (utf8_decode SHIPPED) = true.
Proof. vm_compute. reflexivity. Qed.
Lemma loads_ok nul t : loads nul t = true ->
  match scheme_column nul (universal t) with Bad e => Bad e | Got l => remove_first $"shttp (OBSOLETE)" l end = Got (map Some REGISTERED_SCHEMES).
Proof.
  unfold loads. destruct (match scheme_column nul (universal t) with Bad e => Bad e | Got l => remove_first $"shttp (OBSOLETE)" l end) as [l|]; [|discriminate].
  intros K. apply cells_eq in K. subst l. reflexivity.
Qed.
Lemma utf8_load file t nul dec : text_of file t = true ->
  (forall t, Forall (fun c => c < 1114112 /\ ~ (55296 <= c <= 57343)) t -> dec (utf8_encode t) = Some t) ->
  load_schemes nul dec file = Got (map Some REGISTERED_SCHEMES).
Proof.
  intros K D. unfold text_of in K. do 3 (apply andb_true_iff in K; destruct K as (K & ?)). apply str_eqb_eq in H1. subst file.
  unfold load_schemes. rewrite D; [|apply Forall_forall; intros c I'; unfold scalar_chars in K; rewrite forallb_forall in K; specialize (K c I'); lia].
  apply loads_ok. destruct nul; assumption.
Qed.
Lemma shipped_utf8 nul dec :
  (forall t, Forall (fun c => c < 1114112 /\ ~ (55296 <= c <= 57343)) t -> dec (utf8_encode t) = Some t) ->
  load_schemes nul dec SHIPPED = Got (map Some REGISTERED_SCHEMES).
Proof. exact (utf8_load SHIPPED (utf8_decode SHIPPED) nul dec text_check). Qed.
