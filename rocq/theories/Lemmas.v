(** Basic facts about the string primitives. *)
From Coq Require Import Ascii String.
From Coq Require Import NArith ZArith Bool Arith Lia List ZifyBool ZifyN ZifyNat.
From Verif Require Import PyStr PyInt.
Import ListNotations.
Open Scope N_scope.

Lemma Some_inj {A} (a b : A) : Some a = Some b -> a = b.
Proof. congruence. Qed.

Lemma str_eqb_eq a b : str_eqb a b = true <-> a = b.
Proof.
  revert b; induction a as [|x a IH]; destruct b as [|y b]; cbn; split; intro H;
    try discriminate; auto.
  - apply andb_prop in H as [H1 H2]. apply N.eqb_eq in H1. apply IH in H2. congruence.
  - inversion H; subst. rewrite N.eqb_refl. cbn. now apply IH.
Qed.
Lemma str_eqb_refl a : str_eqb a a = true.
Proof. now apply str_eqb_eq. Qed.
Lemma str_eqb_neq a b : str_eqb a b = false <-> a <> b.
Proof.
  split; intro H.
  - intros ->. rewrite str_eqb_refl in H. discriminate.
  - destruct (str_eqb a b) eqn:Q; auto. apply str_eqb_eq in Q. contradiction.
Qed.
Lemma str_eqb_sym a b : str_eqb a b = str_eqb b a.
Proof.
  destruct (str_eqb a b) eqn:Q; symmetry.
  - apply str_eqb_eq in Q; subst. apply str_eqb_refl.
  - apply str_eqb_neq in Q. apply str_eqb_neq. congruence.
Qed.
Lemma str_eqb_spec a b : reflect (a = b) (str_eqb a b).
Proof. apply iff_reflect. symmetry. apply str_eqb_eq. Qed.

Definition str_dec (a b : str) : {a = b} + {a <> b} := list_eq_dec N.eq_dec a b.

Lemma mem_In c l : mem c l = true <-> In c l.
Proof.
  unfold mem. rewrite existsb_exists. split.
  - intros (x & Hx & Q). apply N.eqb_eq in Q. now subst.
  - intros H. exists c. split; auto. apply N.eqb_refl.
Qed.
Lemma mem_not_In c l : mem c l = false <-> ~ In c l.
Proof. rewrite <- mem_In. destruct (mem c l); split; congruence. Qed.
Lemma mem_app c a b : mem c (a ++ b) = mem c a || mem c b.
Proof. apply existsb_app. Qed.
Lemma mem_cons c x l : mem c (x :: l) = (c =? x) || mem c l.
Proof. reflexivity. Qed.

Lemma str_in_In x l : str_in x l = true <-> In x l.
Proof.
  unfold str_in. rewrite existsb_exists. split.
  - intros (y & Hy & Q). apply str_eqb_eq in Q. now subst.
  - intros H. exists x. split; auto. apply str_eqb_refl.
Qed.

Lemma forallb_In {A} (f : A -> bool) l : forallb f l = true <-> forall x, In x l -> f x = true.
Proof. apply forallb_forall. Qed.
Lemma existsb_false {A} (f : A -> bool) l : existsb f l = false <-> forall x, In x l -> f x = false.
Proof.
  induction l as [|x l IH]; cbn; [tauto|]. rewrite orb_false_iff, IH.
  split; [intros [? ?] y [<-|?]; auto | intros H; split; auto].
Qed.
Lemma forallb_negb_existsb {A} (f : A -> bool) l : forallb (fun x => negb (f x)) l = negb (existsb f l).
Proof. induction l as [|x l IH]; cbn; auto. rewrite IH, negb_orb. reflexivity. Qed.

Lemma existsb_In {A} (f : A -> bool) l : existsb f l = true <-> exists x, In x l /\ f x = true.
Proof. apply existsb_exists. Qed.

Lemma rev_ind_inv {A} (l : list A) : l = [] \/ exists l' x, l = l' ++ [x].
Proof.
  induction l as [|a l IH] using rev_ind; [now left|]. right. now exists l, a.
Qed.

Lemma starts_with_iff p s : starts_with p s = true <-> exists t, s = p ++ t.
Proof.
  revert s; induction p as [|x p IH]; intros s; cbn.
  - split; eauto.
  - destruct s as [|y s]; [split; [discriminate | intros [t Ht]; discriminate]|].
    rewrite andb_true_iff, IH, N.eqb_eq. split.
    + intros [-> [t ->]]. now exists t.
    + intros [t Ht]. inversion Ht; subst. eauto.
Qed.

(** split / join *)
Lemma split_nil sep : split sep [] = [[]].
Proof. reflexivity. Qed.

Lemma split_not_nil sep s : split sep s <> [].
Proof. destruct s as [|c s]; cbn; [discriminate|]. destruct (c =? sep); [discriminate|].
  destruct (split sep s); discriminate. Qed.

Lemma split_no_sep sep s : mem sep s = false -> split sep s = [s].
Proof.
  induction s as [|c s IH]; cbn; auto.
  rewrite orb_false_iff. intros [H1 H2]. rewrite N.eqb_sym, H1. now rewrite IH.
Qed.

Lemma split_app sep a b : mem sep a = false -> split sep (a ++ sep :: b) = a :: split sep b.
Proof.
  induction a as [|c a IH]; cbn; intros H.
  - now rewrite N.eqb_refl.
  - apply orb_false_iff in H as [H1 H2]. rewrite N.eqb_sym, H1, IH; auto.
Qed.

Lemma split_pieces_no_sep sep s p : In p (split sep s) -> mem sep p = false.
Proof.
  revert p; induction s as [|c s IH]; cbn; intros p H.
  - destruct H as [<-|[]]. reflexivity.
  - destruct (c =? sep) eqn:Q.
    + destruct H as [<-|H]; auto.
    + destruct (split sep s) as [|q qs] eqn:Hs; cbn in H.
      * destruct H as [<-|[]]. cbn. now rewrite N.eqb_sym, Q.
      * destruct H as [<-|H].
        -- cbn. rewrite N.eqb_sym, Q. cbn. apply IH. now left.
        -- apply IH. now right.
Qed.

Lemma join_cons2 sep a b l : join sep (a :: b :: l) = a ++ sep ++ join sep (b :: l).
Proof. reflexivity. Qed.

Lemma join_split sep s : join [sep] (split sep s) = s.
Proof.
  induction s as [|c s IH]; cbn; auto.
  destruct (c =? sep) eqn:Q.
  - apply N.eqb_eq in Q; subst.
    destruct (split sep s) as [|q qs] eqn:Hs; [now apply split_not_nil in Hs|].
    rewrite join_cons2, IH. reflexivity.
  - destruct (split sep s) as [|q qs] eqn:Hs; [now apply split_not_nil in Hs|].
    destruct qs as [|q2 qs]; cbn in *; rewrite <- IH; reflexivity.
Qed.

Lemma split_join sep l :
  l <> [] -> (forall p, In p l -> mem sep p = false) -> split sep (join [sep] l) = l.
Proof.
  induction l as [|a [|b l] IH]; intros Hn H; [congruence| |].
  - cbn. apply split_no_sep. apply H. now left.
  - rewrite join_cons2. cbn [app]. rewrite split_app by (apply H; now left).
    f_equal. apply IH; [discriminate|]. intros p Hp. apply H. now right.
Qed.
