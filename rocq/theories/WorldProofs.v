(** Programs with many objects: the heap of World.v against the separate values of
    SpecWorld.v, and iterators. *)
From Coq Require Import Ascii String.
From Coq Require Import NArith ZArith Bool Arith Lia List.
From Verif Require Import PyStr PyInt Codec Env HostModel UrlRecord Parser SearchParams UrlApi HeapParser HeapProofs World.
From Verif Require Import SpecText SpecApi SpecWorld.
Import ListNotations.
Open Scope N_scope.

(* ---------- lists ---------- *)
Lemma ne_upd_same {A} i (v : A) l : (i < length l)%nat -> nth_error (upd i v l) i = Some v.
Proof. revert i; induction l as [|x l IH]; intros [|i] L; cbn [upd length nth_error] in *; try lia; [reflexivity|]. apply IH. lia. Qed.
Lemma ne_upd_other {A} i j (v : A) l : i <> j -> nth_error (upd i v l) j = nth_error l j.
Proof. revert i j; induction l as [|x l IH]; intros [|i] [|j] L; cbn [upd nth_error]; try reflexivity; try congruence. apply IH. congruence. Qed.
Lemma upd_id {A} i (v : A) l : nth_error l i = Some v -> upd i v l = l.
Proof. revert i; induction l as [|x l IH]; intros [|i] L; cbn [upd nth_error] in *; try discriminate; [congruence|]. f_equal. now apply IH. Qed.
Lemma upd_upd {A} i (v v' : A) l : upd i v (upd i v' l) = upd i v l.
Proof. revert i; induction l as [|x l IH]; intros [|i]; cbn [upd]; try reflexivity. now rewrite IH. Qed.
Lemma ne_lt {A} i (v : A) l : nth_error l i = Some v -> (i < length l)%nat.
Proof. intros H. apply nth_error_Some. congruence. Qed.
Lemma ne_some {A} i (l : list A) : (i < length l)%nat -> exists v, nth_error l i = Some v.
Proof. intros H. apply nth_error_Some in H. destruct (nth_error l i); [eauto|congruence]. Qed.
Lemma ne_snoc {A} (l : list A) x : nth_error (l ++ [x]) (length l) = Some x.
Proof. rewrite nth_error_app2 by lia. now rewrite Nat.sub_diag. Qed.
Lemma ne_old {A} (l : list A) x i : (i < length l)%nat -> nth_error (l ++ [x]) i = nth_error l i.
Proof. intros. now rewrite nth_error_app1. Qed.
Lemma ne_snoc_inv {A} (l : list A) x i y : nth_error (l ++ [x]) i = Some y -> (nth_error l i = Some y /\ (i < length l)%nat) \/ (i = length l /\ y = x).
Proof.
  intros H. destruct (Nat.lt_ge_cases i (length l)) as [L|L]; [rewrite ne_old in H by auto; left; auto|right].
  pose proof (ne_lt _ _ _ H) as K. rewrite app_length in K. cbn [length] in K. assert (i = length l) by lia. subst i. rewrite ne_snoc in H. split; congruence.
Qed.
Lemma ne_upd_inv {A} i j (v : A) l x : (i < length l)%nat -> nth_error (upd i v l) j = Some x -> (j = i /\ x = v) \/ (j <> i /\ nth_error l j = Some x).
Proof.
  intros L H. destruct (Nat.eq_dec j i) as [->|Ne]; [left|right; split; [auto|rewrite ne_upd_other in H by congruence; exact H]].
  rewrite ne_upd_same in H by auto. split; congruence.
Qed.

(* ---------- what the setters do to a record ---------- *)
Definition mrstrip (E : env) : M unit := modify (potentially_rstrip E).
Definition mreparse (E : env) (value : str) (so : pstate) : M unit := parse_into (with_validity E false) value None UTF8 (Some so).
Definition mset_attr (E : env) (s : setter) : M unit :=
  bind get (fun u =>
  match s with
  | SetHash [] => bind (modify (set_fragment None)) (fun _ => mrstrip E)
  | SetHash v => bind (modify (set_fragment (Some []))) (fun _ => mreparse E (strip_char 35 v) FRAGMENT)
  | SetHost v => if has_opaque_path u then ret tt else mreparse E v HOST
  | SetHostname v => if has_opaque_path u then ret tt else mreparse E v HOSTNAME
  | SetHref _ => ret tt
  | SetPassword v =>
      if cannot_have_username_password_port u then ret tt else modify (set_password (utf8_percent_encode v SAFE_USERINFO false))
  | SetPathname v =>
      if has_opaque_path u then ret tt else bind (modify (set_path (PList []))) (fun _ => mreparse E v PATH_START)
  | SetPort v =>
      if cannot_have_username_password_port u then ret tt
      else match v with [] => modify (set_port None) | _ => mreparse E v PORT end
  | SetProtocol v => mreparse E (v ++ $":") SCHEME_START
  | SetSearch [] => bind (modify (set_query None)) (fun _ => mrstrip E)
  | SetSearch v => bind (modify (set_query (Some []))) (fun _ => mreparse E (strip_char 63 v) QUERY)
  | SetUsername v =>
      if cannot_have_username_password_port u then ret tt else modify (set_username (utf8_percent_encode v SAFE_USERINFO false))
  end).
Lemma modify_reparse f E v so u : snd (bind (modify f) (fun _ => mreparse E v so) u) = reparse E v so (f u).
Proof.
  unfold reparse, run, mreparse, bind. cbn [modify fst snd app]. destruct (parse_into _ v None UTF8 (Some so) (f u)) as [l [v' r]]. reflexivity.
Qed.
Lemma get_bind {A} (f : urlrec -> M A) u : snd (bind get f u) = snd (f u u).
Proof. unfold bind, get. destruct (f u u) as [l r]. reflexivity. Qed.
Lemma mset_eq E s o : (forall v, s <> SetHref v) ->
  snd (mset_attr E s (o_url o)) = (o_url (fst (set_attr E s o)), snd (set_attr E s o)).
Proof.
  intros NH. unfold mset_attr. rewrite get_bind. destruct s as [v|v|v|v|v|v|v|v|v|v]; cbn [set_attr]; cbv zeta.
  - destruct v as [|c v]; [reflexivity|]. rewrite modify_reparse. unfold with_url. cbn [fst snd o_url]. now destruct (reparse E _ _ _).
  - destruct (has_opaque_path (o_url o)); [reflexivity|]. unfold with_url. cbn [fst snd o_url]. change (snd (mreparse E v HOST (o_url o))) with (reparse E v HOST (o_url o)). now destruct (reparse E _ _ _).
  - destruct (has_opaque_path (o_url o)); [reflexivity|]. unfold with_url. cbn [fst snd o_url]. change (snd (mreparse E v HOSTNAME (o_url o))) with (reparse E v HOSTNAME (o_url o)). now destruct (reparse E _ _ _).
  - now destruct (NH v).
  - destruct (cannot_have_username_password_port (o_url o)); reflexivity.
  - destruct (has_opaque_path (o_url o)); [reflexivity|]. rewrite modify_reparse. unfold with_url. cbn [fst snd o_url]. now destruct (reparse E _ _ _).
  - destruct (cannot_have_username_password_port (o_url o)); [reflexivity|]. destruct v as [|c v]; [reflexivity|].
    unfold with_url. cbn [fst snd o_url]. change (snd (mreparse E (c :: v) PORT (o_url o))) with (reparse E (c :: v) PORT (o_url o)). now destruct (reparse E _ _ _).
  - unfold with_url. cbn [fst snd o_url]. change (snd (mreparse E (v ++ $":") SCHEME_START (o_url o))) with (reparse E (v ++ $":") SCHEME_START (o_url o)). now destruct (reparse E _ _ _).
  - destruct v as [|c v]; [reflexivity|]. rewrite modify_reparse. destruct (reparse E _ _ _) as [u' [[]|e]]; reflexivity.
  - destruct (cannot_have_username_password_port (o_url o)); reflexivity.
Qed.
Section SetSim.
Variables (h0 : heap) (PO PC : nat -> Prop) (me : nat) (E : env).
Notation sim := (sim h0 PO PC me).
Lemma sim_reparse v so : sim (hreparse E me v so) (mreparse E v so).
Proof. exact (sim_into h0 PO PC me None I (with_validity E false) v UTF8 (Some so)). Qed.
Lemma sim_get_bind {A} (hf : urlrec -> HM A) f : (forall u, sim (hf u) (f u)) -> sim (hbind (hget me) hf) (bind get f).
Proof. intros H. apply sim_bind; [apply sim_get|exact H]. Qed.
Lemma sim_rstrip : sim (hrstrip E me) (mrstrip E).
Proof.
  intros h I. unfold hrstrip, mrstrip. unfold hbind, hget. unfold modify, potentially_rstrip.
  destruct (path (read h me)) as [s|l] eqn:P; [destruct (fragment (read h me)), (query (read h me))|]; try exact (conj eq_refl (conj eq_refl (conj eq_refl I))).
  pose proof (sim_text h0 PO PC me (rstrip_by (is_py_space E) s) h I) as G. unfold modify in G. exact G.
Qed.
Lemma sim_field f : (forall p u, set_path p (f u) = f (set_path p u)) -> sim (hset me f) (modify f).
Proof. apply sim_set. Qed.
Lemma sim_set_attr s : sim (hset_attr E me s) (mset_attr E s).
Proof.
  unfold hset_attr, mset_attr. apply sim_get_bind. intros u.
  destruct s as [v|v|v|v|v|v|v|v|v|v];
    repeat match goal with |- sim (if ?b then _ else _) _ => destruct b end;
    try match goal with |- sim (match ?v with [] => _ | _ :: _ => _ end) _ => destruct v end;
    try apply sim_ret; try apply sim_reparse;
    try (apply sim_bind; [|intros _; first [apply sim_reparse|apply sim_rstrip]]);
    try (apply sim_field; intros ? []; reflexivity).
  apply sim_list.
Qed.
Lemma sim_update l : sim (hupdate E me l) (modify (params_update E l)).
Proof.
  intros h I. unfold hupdate. unfold modify, params_update. destruct (sp_str l) as [|c t].
  - pose proof (sim_bind h0 PO PC me _ _ _ _ (sim_field (set_query None) ltac:(intros ? []; reflexivity)) (fun _ => sim_rstrip) h I) as G. exact G.
  - pose proof (sim_field (set_query (Some (c :: t))) ltac:(intros ? []; reflexivity) h I) as G. exact G.
Qed.
End SetSim.
Lemma set_frame E s h r l : own_ok h -> (r < length (objs h))%nat -> (forall v, s <> SetHref v) ->
  target_only h (fst (snd (hset_attr E r s h))) r /\
  snd (snd (hset_attr E r s h)) = snd (set_attr E s (UrlApi.mkobj (read h r) l)) /\
  read (fst (snd (hset_attr E r s h))) r = o_url (fst (set_attr E s (UrlApi.mkobj (read h r) l))).
Proof.
  intros O L NH. destruct (sim_frame h r _ _ O L (sim_set_attr h _ _ r E s)) as (T & _ & S & R). split; [exact T|].
  pose proof (mset_eq E s (UrlApi.mkobj (read h r) l) NH) as Q. cbn [o_url] in Q. rewrite S, R, Q. auto.
Qed.
Lemma update_frame E h r l : own_ok h -> (r < length (objs h))%nat ->
  target_only h (fst (snd (hupdate E r l h))) r /\ read (fst (snd (hupdate E r l h))) r = params_update E l (read h r).
Proof. intros O L. destruct (sim_frame h r _ _ O L (sim_update h _ _ r E l)) as (T & _ & _ & R). split; [exact T|exact R]. Qed.

(* ---------- the relation ---------- *)
Record rel (w : world) (a : lone) : Prop := {
  r_own : own_ok (w_heap w);
  r_urls : length (a_urls a) = length (w_urls w);
  r_params : length (a_params a) = length (w_params w);
  r_url : forall i u, nth_error (w_urls w) i = Some u -> (u_rec u < length (objs (w_heap w)))%nat /\
    exists q, nth_error (w_params w) (u_params u) = Some q /\ p_rec q = Some (u_rec u) /\
      nth_error (a_params a) (u_params u) = Some (inl i) /\
      nth_error (a_urls a) i = Some (UrlApi.mkobj (read (w_heap w) (u_rec u)) (list_of w q));
  r_rec : forall i j u v, nth_error (w_urls w) i = Some u -> nth_error (w_urls w) j = Some v -> u_rec u = u_rec v -> i = j;
  r_par : forall p q, nth_error (w_params w) p = Some q -> (p_list q < length (w_lists w))%nat /\
    match nth_error (a_params a) p with
    | Some (inl i) => exists u, nth_error (w_urls w) i = Some u /\ u_params u = p
    | Some (inr l) => p_rec q = None /\ list_of w q = l
    | None => False
    end;
  r_lists : forall p p' q q', nth_error (w_params w) p = Some q -> nth_error (w_params w) p' = Some q' -> p_list q = p_list q' -> p = p';
  r_recs : length (a_recs a) = length (w_recs w);
  r_know : forall k r, nth_error (w_recs w) k = Some r -> (r < length (objs (w_heap w)))%nat /\
    nth_error (a_recs a) k = Some (read (w_heap w) r) /\ forall i u, nth_error (w_urls w) i = Some u -> u_rec u <> r }.

Lemma rel_empty : rel empty_world (mklone [] [] []).
Proof.
  assert (Z : forall A i (x : A), nth_error [] i <> Some x) by (intros A [|i] x; discriminate).
  constructor; cbn [empty_world w_heap w_urls w_params w_lists w_recs a_urls a_params a_recs]; auto;
    try (intros; exfalso; eapply Z; eassumption).
  split; [intros i l L|intros i j l L]; cbn [objs length] in L; lia.
Qed.
(** iterators do not matter *)
Lemma rel_iters w a its : rel w a -> rel (mkworld (w_heap w) (w_lists w) (w_params w) (w_urls w) its (w_recs w)) a.
Proof. intros [A B C D F G H RA RB]. constructor; auto. Qed.

(** the heap grows *)
Lemma rel_grow w a h : rel w a -> new_only (w_heap w) h -> rel (with_heap h w) a.
Proof.
  intros [A B C D F G H RA RB] (N1 & N2 & N3). constructor; cbn [with_heap w_heap w_lists w_params w_urls w_iters w_recs]; auto.
  - intros i u Hu. destruct (D i u Hu) as (L & q & Q1 & Q2 & Q3 & Q4). split; [lia|]. exists q. repeat split; auto.
    rewrite (proj2 (N3 _ L)). exact Q4.
  - intros k r Hk. destruct (RB k r Hk) as (K1 & K2 & K3). split; [lia|]. split; [|exact K3]. rewrite (proj2 (N3 _ K1)). exact K2.
Qed.

(** the record and the list of one URL object are replaced *)
Lemma rel_replace w a i u q h lists l' r' : rel w a -> nth_error (w_urls w) i = Some u -> nth_error (w_params w) (u_params u) = Some q ->
  own_ok h -> (r' < length (objs h))%nat -> (length (objs (w_heap w)) <= length (objs h))%nat ->
  (forall j v, j <> i -> nth_error (w_urls w) j = Some v -> read h (u_rec v) = read (w_heap w) (u_rec v) /\ u_rec v <> r') ->
  (l' < length lists)%nat ->
  (forall p q', p <> u_params u -> nth_error (w_params w) p = Some q' -> (p_list q' < length lists)%nat /\ nth (p_list q') lists [] = list_of w q' /\ p_list q' <> l') ->
  (forall k r, nth_error (w_recs w) k = Some r -> read h r = read (w_heap w) r /\ r' <> r) ->
  rel (mkworld h lists (upd (u_params u) (mkpobj l' (Some r')) (w_params w)) (upd i (mkuobj r' (u_params u)) (w_urls w)) (w_iters w) (w_recs w))
      (mklone (upd i (UrlApi.mkobj (read h r') (nth l' lists [])) (a_urls a)) (a_params a) (a_recs a)).
Proof.
  intros [A B C D F G H RA RB] Hu Hq O Lr Lh HR Ll HL HK.
  pose proof (ne_lt _ _ _ Hu) as Li. pose proof (ne_lt _ _ _ Hq) as Lp. destruct (D i u Hu) as (_ & q0 & Q1 & Q2 & Q3 & Q4).
  constructor; cbn [w_heap w_lists w_params w_urls w_iters w_recs a_urls a_params a_recs]; auto.
  - now rewrite !upd_length.
  - now rewrite upd_length.
  - intros j v Hv. apply ne_upd_inv in Hv as [[-> ->]|[Ne Hv]]; [| |exact Li].
    + cbn [u_rec u_params]. split; [exact Lr|]. exists (mkpobj l' (Some r')). rewrite ne_upd_same by exact Lp. repeat split; auto.
      rewrite ne_upd_same by lia. reflexivity.
    + destruct (D j v Hv) as (L & q' & P1 & P2 & P3 & P4). split; [lia|]. exists q'.
      assert (Np : u_params v <> u_params u) by (intros K; rewrite K in P3; congruence).
      rewrite ne_upd_other by congruence. repeat split; auto.
      rewrite ne_upd_other by congruence. rewrite P4. do 2 f_equal.
      * symmetry. apply (HR j v Ne Hv).
      * unfold list_of. cbn [w_lists]. symmetry. apply (HL _ _ Np P1).
  - intros j k v1 v2 H1 H2 K. apply ne_upd_inv in H1; [|exact Li]. apply ne_upd_inv in H2; [|exact Li].
    destruct H1 as [[-> ->]|[N1 H1]], H2 as [[-> ->]|[N2 H2]]; cbn [u_rec] in K; auto.
    + exfalso. apply (proj2 (HR k v2 N2 H2)). auto.
    + exfalso. apply (proj2 (HR j v1 N1 H1)). auto.
    + exact (F j k v1 v2 H1 H2 K).
  - intros p q' Hp. apply ne_upd_inv in Hp; [|exact Lp]. destruct Hp as [[-> ->]|[Np Hp]].
    + cbn [p_list p_rec]. split; [exact Ll|]. rewrite Q3. exists (mkuobj r' (u_params u)). split; [now apply ne_upd_same|reflexivity].
    + destruct (HL p q' Np Hp) as (L1 & L2 & L3). split; [exact L1|]. destruct (G p q' Hp) as [_ G2].
      destruct (nth_error (a_params a) p) as [[j|l]|]; [| |exact G2].
      * destruct G2 as (v & G2 & G3). destruct (Nat.eq_dec j i) as [->|Nj]; [exfalso; apply Np; congruence|].
        exists v. split; [rewrite ne_upd_other by congruence; exact G2|exact G3].
      * destruct G2 as [G2 G3]. split; [exact G2|]. rewrite <- G3. exact L2.
  - intros p p' q1 q2 H1 H2 K. apply ne_upd_inv in H1; [|exact Lp]. apply ne_upd_inv in H2; [|exact Lp].
    destruct H1 as [[-> ->]|[N1 H1]], H2 as [[-> ->]|[N2 H2]]; cbn [p_list] in K; auto.
    + exfalso. apply (proj2 (proj2 (HL p' q2 N2 H2))). auto.
    + exfalso. apply (proj2 (proj2 (HL p q1 N1 H1))). auto.
    + exact (H p p' q1 q2 H1 H2 K).
  - intros k r Hk. destruct (RB k r Hk) as (K1 & K2 & K3). destruct (HK k r Hk) as [K4 K5]. split; [lia|]. split; [now rewrite K4|].
    intros j v Hv. apply ne_upd_inv in Hv as [[-> ->]|[Nj Hv]]; [exact K5|exact (K3 j v Hv)|exact Li].
Qed.

(** a new URLSearchParams object of its own *)
Lemma rel_add w a l : rel w a -> rel (add_params l w) (mklone (a_urls a) (a_params a ++ [inr l]) (a_recs a)).
Proof.
  intros [A B C D F G H RA RB].
  assert (LI : forall p q, nth_error (w_params w) p = Some q -> list_of (add_params l w) q = list_of w q).
  { intros p q Hp. unfold list_of, add_params. cbn [w_lists]. apply nth_add. apply (G p q Hp). }
  constructor; cbn [add_params w_heap w_lists w_params w_urls w_iters w_recs a_urls a_params a_recs]; auto.
  - rewrite !app_length. cbn [length]. lia.
  - intros i u Hu. destruct (D i u Hu) as (L & q & P1 & P2 & P3 & P4). split; [exact L|]. exists q.
    rewrite !ne_old by (eapply ne_lt; eassumption). repeat split; auto.
    rewrite P4. do 2 f_equal. symmetry. exact (LI _ _ P1).
  - intros p q Hp. rewrite app_length. cbn [length]. apply ne_snoc_inv in Hp as [[Hp L]|[-> ->]].
    + destruct (G p q Hp) as [G1 G2]. split; [lia|]. rewrite ne_old by lia. destruct (nth_error (a_params a) p) as [[j|m]|]; auto.
      destruct G2 as [G2 G3]. split; [exact G2|]. rewrite <- G3. exact (LI _ _ Hp).
    + cbn [p_list p_rec]. split; [lia|]. rewrite <- C, ne_snoc. split; [reflexivity|]. unfold list_of. cbn [w_lists p_list add_params]. apply nth_last.
  - intros p p' q q' H1 H2 K. apply ne_snoc_inv in H1 as [[H1 L1]|[-> ->]]; apply ne_snoc_inv in H2 as [[H2 L2]|[-> ->]]; cbn [p_list] in K; auto.
    + exact (H p p' q q' H1 H2 K).
    + destruct (G p q H1). lia.
    + destruct (G p' q' H2). lia.
Qed.
(** a new URL object *)
Lemma rel_new w a h r : rel w a -> new_only (w_heap w) h -> (length (objs (w_heap w)) <= r < length (objs h))%nat ->
  let p := length (w_params w) in let w1 := attach p r (add_params [] (with_heap h w)) in
  rel (mkworld (w_heap w1) (w_lists w1) (w_params w1) (w_urls w ++ [mkuobj r p]) (w_iters w) (w_recs w))
      (mklone (a_urls a ++ [UrlApi.mkobj (read h r) (attach_list (read h r))]) (a_params a ++ [inl (length (a_urls a))]) (a_recs a)).
Proof.
  intros R NO Lr p w1. pose proof (rel_add _ _ [] (rel_grow w a h R NO)) as R1. destruct R as [A B C D F G H RA RB]. destruct NO as (N1 & N2 & N3).
  unfold w1, attach, add_params. cbn [with_heap w_heap w_lists w_params w_urls w_iters w_recs].
  set (lists := (w_lists w ++ [[]]) ++ [attach_list (read h r)]). set (l' := length (w_lists w ++ [[]])).
  set (params := upd p (mkpobj l' (Some r)) (w_params w ++ [mkpobj (length (w_lists w)) None])).
  change (rel (mkworld h lists params (w_urls w ++ [mkuobj r p]) (w_iters w) (w_recs w))
      (mklone (a_urls a ++ [UrlApi.mkobj (read h r) (attach_list (read h r))]) (a_params a ++ [inl (length (a_urls a))]) (a_recs a))).
  assert (LL : l' = S (length (w_lists w))) by (unfold l'; rewrite app_length; cbn [length]; lia).
  assert (LN : length lists = S (S (length (w_lists w)))) by (unfold lists; rewrite !app_length; cbn [length]; lia).
  assert (PN : length params = S p) by (unfold params, p; rewrite upd_length, app_length; cbn [length]; lia).
  assert (PO : forall k, (k < p)%nat -> nth_error params k = nth_error (w_params w) k) by (intros k Hk; unfold params; rewrite ne_upd_other by lia; apply ne_old; exact Hk).
  assert (PL : nth_error params p = Some (mkpobj l' (Some r))) by (unfold params; apply ne_upd_same; rewrite app_length; cbn [length]; unfold p; lia).
  assert (LO : forall k, (k < length (w_lists w))%nat -> nth k lists [] = nth k (w_lists w) []).
  { intros k Hk. unfold lists. rewrite nth_add by (rewrite app_length; lia). now apply nth_add. }
  assert (NL : nth l' lists [] = attach_list (read h r)) by (unfold lists, l'; apply nth_last).
  assert (INV : forall k q, nth_error params k = Some q -> (nth_error (w_params w) k = Some q /\ (k < p)%nat) \/ (k = p /\ q = mkpobj l' (Some r))).
  { intros k q Hk. destruct (Nat.lt_ge_cases k p) as [L|L]; [left; rewrite PO in Hk by auto; auto|right].
    pose proof (ne_lt _ _ _ Hk). assert (k = p) by lia. subst k. rewrite PL in Hk. split; congruence. }
  constructor; cbn [w_heap w_lists w_params w_urls w_iters w_recs a_urls a_params a_recs].
  - exact N1.
  - rewrite !app_length. cbn [length]. lia.
  - rewrite app_length. cbn [length].  rewrite PN. unfold p. lia.
  - intros i u Hu.  apply ne_snoc_inv in Hu as [[Hu L]|[-> ->]].
    + destruct (D i u Hu) as (L1 & q & P1 & P2 & P3 & P4). split; [lia|]. exists q.
      pose proof (ne_lt _ _ _ P1) as LP. rewrite PO by exact LP. rewrite ne_old by (eapply ne_lt; eassumption). rewrite ne_old by lia. repeat split; auto.
      rewrite P4. do 2 f_equal; [symmetry; apply (N3 _ L1)|]. unfold list_of. cbn [w_lists]. symmetry. apply LO. apply (G _ _ P1).
    + cbn [u_rec u_params]. split; [lia|]. exists (mkpobj l' (Some r)). rewrite PL. repeat split; auto.
      * unfold p. rewrite <- C, ne_snoc. now rewrite B.
      * rewrite <- B, ne_snoc. do 2 f_equal. unfold list_of. cbn [w_lists p_list]. symmetry. exact NL.
  - intros i j u v Hu Hv K. apply ne_snoc_inv in Hu as [[Hu L]|[-> ->]]; apply ne_snoc_inv in Hv as [[Hv L2]|[-> ->]]; cbn [u_rec] in K; auto.
    + exact (F i j u v Hu Hv K).
    + destruct (D i u Hu). lia.
    + destruct (D j v Hv). lia.
  - intros k q Hk.  rewrite LN. apply INV in Hk as [[Hk L]|[-> ->]].
    + destruct (G k q Hk) as [G1 G2]. split; [lia|]. rewrite ne_old by lia. destruct (nth_error (a_params a) k) as [[j|m]|]; auto.
      * destruct G2 as (u & G2 & G3). exists u. split; [rewrite ne_old by (eapply ne_lt; eassumption); exact G2|exact G3].
      * destruct G2 as [G2 G3]. split; [exact G2|]. rewrite <- G3. unfold list_of. cbn [w_lists]. now apply LO.
    + cbn [p_list p_rec]. split; [lia|]. assert (AP : nth_error (a_params a ++ [inl (length (a_urls a))]) p = Some (inl (length (a_urls a)))) by (unfold p; rewrite <- C; apply ne_snoc).
      rewrite AP. exists (mkuobj r p). rewrite B, ne_snoc. auto.
  - intros k k' q q' H1 H2 K.  apply INV in H1 as [[H1 L1]|[-> ->]]; apply INV in H2 as [[H2 L2]|[-> ->]]; cbn [p_list] in K; auto.
    + exact (H k k' q q' H1 H2 K).
    + destruct (G k q H1). lia.
    + destruct (G k' q' H2). lia.
  - exact RA.
  - intros k x Hk. destruct (RB k x Hk) as (K1 & K2 & K3). split; [lia|]. split; [now rewrite (proj2 (N3 _ K1))|].
    intros j v Hv. apply ne_snoc_inv in Hv as [[Hv _]|[_ ->]]; [exact (K3 j v Hv)|]. cbn [u_rec]. lia.
Qed.
(** a new record for the program *)
Lemma rel_know w a h r : rel w a -> new_only (w_heap w) h -> (length (objs (w_heap w)) <= r < length (objs h))%nat ->
  rel (mkworld h (w_lists w) (w_params w) (w_urls w) (w_iters w) (w_recs w ++ [r])) (mklone (a_urls a) (a_params a) (a_recs a ++ [read h r])).
Proof.
  intros R NO Lr. pose proof (rel_grow w a h R NO) as [A B C D F G H RA RB]. cbn [with_heap w_heap w_lists w_params w_urls w_iters w_recs] in *.
  constructor; cbn [w_heap w_lists w_params w_urls w_iters w_recs a_urls a_params a_recs]; auto.
  - rewrite !app_length. cbn [length]. lia.
  - intros k x Hk. apply ne_snoc_inv in Hk as [[Hk L]|[-> ->]].
    + destruct (RB k x Hk) as (K1 & K2 & K3). rewrite ne_old by lia. auto.
    + rewrite <- RA, ne_snoc. split; [lia|]. split; [reflexivity|]. intros i u Hu. destruct (r_url _ _ R i u Hu) as [L _]. lia.
Qed.

(** a URLSearchParams object of its own changes *)
Lemma rel_own_list w a p q l l0 : rel w a -> nth_error (w_params w) p = Some q -> nth_error (a_params a) p = Some (inr l0) ->
  rel (mkworld (w_heap w) (upd (p_list q) l (w_lists w)) (w_params w) (w_urls w) (w_iters w) (w_recs w)) (mklone (a_urls a) (upd p (inr l) (a_params a)) (a_recs a)).
Proof.
  intros [A B C D F G H RA RB] Hq Ha. pose proof (ne_lt _ _ _ Ha) as Lp. destruct (G p q Hq) as [Lq Gq]. rewrite Ha in Gq.
  constructor; cbn [w_heap w_lists w_params w_urls w_iters w_recs a_urls a_params a_recs]; auto.
  - now rewrite upd_length.
  - intros i u Hu. destruct (D i u Hu) as (L & q1 & P1 & P2 & P3 & P4). split; [exact L|]. exists q1.
    assert (Np : u_params u <> p) by (intros K; rewrite K in P3; congruence).
    rewrite ne_upd_other by congruence. repeat split; auto. rewrite P4. do 2 f_equal. unfold list_of. cbn [w_lists]. symmetry.
    apply nth_upd_other. intros K. apply Np. exact (H _ _ _ _ P1 Hq (eq_sym K)).
  - intros p1 q1 H1. rewrite upd_length. destruct (G p1 q1 H1) as [G1 G2]. split; [exact G1|].
    destruct (Nat.eq_dec p1 p) as [->|Np].
    + rewrite ne_upd_same by exact Lp. assert (q1 = q) by congruence. subst q1. split; [apply Gq|]. unfold list_of. cbn [w_lists]. now apply nth_upd_same.
    + rewrite ne_upd_other by congruence. destruct (nth_error (a_params a) p1) as [[j|m]|]; auto.
      destruct G2 as [G2 G3]. split; [exact G2|]. rewrite <- G3. unfold list_of. cbn [w_lists]. apply nth_upd_other.
      intros K. apply Np. exact (H _ _ _ _ H1 Hq (eq_sym K)).
Qed.

(** only the record of a URL object changes *)
Lemma rel_record w a i u q h : rel w a -> nth_error (w_urls w) i = Some u -> nth_error (w_params w) (u_params u) = Some q ->
  target_only (w_heap w) h (u_rec u) ->
  rel (with_heap h w) (mklone (upd i (UrlApi.mkobj (read h (u_rec u)) (list_of w q)) (a_urls a)) (a_params a) (a_recs a)).
Proof.
  intros R Hu Hq (T1 & T2 & T3). pose proof R as [A B C D F G H RA RB]. destruct (D i u Hu) as (L & q0 & P1 & P2 & P3 & P4).
  assert (q0 = q) by congruence. subst q0. destruct (G _ _ Hq) as [Lq _].
  pose proof (rel_replace w a i u q h (w_lists w) (p_list q) (u_rec u) R Hu Hq T1 ltac:(lia) ltac:(lia)) as K.
  assert (Q : mkpobj (p_list q) (Some (u_rec u)) = q) by (rewrite <- P2; now destruct q). rewrite Q in K. rewrite (upd_id _ _ _ Hq) in K.
  assert (U : mkuobj (u_rec u) (u_params u) = u) by now destruct u. rewrite U in K. rewrite (upd_id _ _ _ Hu) in K. apply K; auto.
  - intros j v Nj Hv. assert (Ne : u_rec v <> u_rec u) by (intros X; apply Nj; exact (F _ _ _ _ Hv Hu X)).
    split; [|exact Ne]. apply T3; [apply (D j v Hv)|exact Ne].
  - intros p q' Np Hp. split; [apply (G _ _ Hp)|]. split; [reflexivity|]. intros X. apply Np. exact (H _ _ _ _ Hp Hq X).
  - intros k r Hk. destruct (RB k r Hk) as (K1 & K2 & K3). pose proof (K3 i u Hu) as Ne. split; [|exact Ne]. apply T3; [exact K1|congruence].
Qed.
(** the record changes and the list is made again from the query *)
Lemma rel_attach w a i u q h r' : rel w a -> nth_error (w_urls w) i = Some u -> nth_error (w_params w) (u_params u) = Some q ->
  own_ok h -> (r' < length (objs h))%nat -> (length (objs (w_heap w)) <= length (objs h))%nat ->
  (forall j v, j <> i -> nth_error (w_urls w) j = Some v -> read h (u_rec v) = read (w_heap w) (u_rec v) /\ u_rec v <> r') ->
  (forall k r, nth_error (w_recs w) k = Some r -> read h r = read (w_heap w) r /\ r' <> r) ->
  rel (attach (u_params u) r' (mkworld h (w_lists w) (w_params w) (upd i (mkuobj r' (u_params u)) (w_urls w)) (w_iters w) (w_recs w)))
    (mklone (upd i (UrlApi.mkobj (read h r') (attach_list (read h r'))) (a_urls a)) (a_params a) (a_recs a)).
Proof.
  intros R Hu Hq O Lr Lh HR HK. unfold attach. cbn [w_heap w_lists w_params w_urls w_iters w_recs].
  pose proof (rel_replace w a i u q h (w_lists w ++ [attach_list (read h r')]) (length (w_lists w)) r' R Hu Hq O Lr Lh HR) as K.
  rewrite nth_last in K. apply K; [rewrite app_length; cbn [length]; lia| |exact HK].
  intros p q' Np Hp. destruct R as [A B C D F G H RA RB]. destruct (G _ _ Hp) as [Lq _]. rewrite app_length. cbn [length].
  split; [lia|]. split; [now apply nth_add|lia].
Qed.

Lemma set_list E s o : (forall v, s <> SetHref v) -> (forall v, s <> SetSearch v) -> o_list (fst (set_attr E s o)) = o_list o.
Proof.
  intros N1 N2. destruct s as [v|v|v|v|v|v|v|v|v|v]; cbn [set_attr]; cbv zeta; try (now destruct (N1 v)); try (now destruct (N2 v));
    repeat match goal with |- context [if ?b then _ else _] => destruct b end; try destruct v; reflexivity.
Qed.
Lemma search_list E v o : match snd (set_attr E (SetSearch v) o) with
  | Ok _ => o_list (fst (set_attr E (SetSearch v) o)) = attach_list (o_url (fst (set_attr E (SetSearch v) o)))
  | Err _ => o_list (fst (set_attr E (SetSearch v) o)) = o_list o end.
Proof.
  cbn [set_attr]. cbv zeta. set (z := match v with [] => _ | _ => _ end). destruct z as [u' [[]|e]]; reflexivity.
Qed.
Lemma lone_eta a : mklone (a_urls a) (a_params a) (a_recs a) = a. Proof. now destruct a. Qed.
Lemma obj_eta o : UrlApi.mkobj (o_url o) (o_list o) = o. Proof. now destruct o. Qed.

Lemma rel_see_url w a i : rel w a -> see_url w i = nth_error (a_urls a) i.
Proof.
  intros R. unfold see_url. destruct (nth_error (w_urls w) i) as [u|] eqn:Hu.
  - destruct (r_url _ _ R i u Hu) as (L & q & P1 & P2 & P3 & P4). rewrite P4. now rewrite (nth_error_nth _ _ _ P1).
  - symmetry. apply nth_error_None. rewrite (r_urls _ _ R). now apply nth_error_None.
Qed.
Lemma rel_see_params w a p : rel w a -> see_params w p = lone_params a p.
Proof.
  intros R. unfold see_params, lone_params. destruct (nth_error (w_params w) p) as [q|] eqn:Hq.
  - destruct (r_par _ _ R p q Hq) as [L G]. destruct (nth_error (a_params a) p) as [[i|l]|] eqn:Ha; [| |contradiction].
    + destruct G as (u & G1 & G2). subst p. destruct (r_url _ _ R i u G1) as (_ & q' & P1 & _ & _ & P4). rewrite P4. cbn [o_list]. congruence.
    + destruct G. congruence.
  - assert (K : nth_error (a_params a) p = None) by (apply nth_error_None; rewrite (r_params _ _ R); now apply nth_error_None). now rewrite K.
Qed.

Lemma base_same w a b : rel w a ->
  match base_of_url w b with
  | Some v => arg_in (w_heap w) v /\ lone_base a b = Some (arg_val (w_heap w) v)
  | None => lone_base a b = None
  end.
Proof.
  intros R. destruct b as [|s|i]; cbn [base_of_url lone_base]; [split; [exact I|reflexivity]|split; [exact I|reflexivity]|].
  destruct (nth_error (w_urls w) i) as [u|] eqn:Hu.
  - destruct (r_url _ _ R i u Hu) as (L & q & P1 & P2 & P3 & P4). split; [exact L|]. rewrite P4. reflexivity.
  - assert (K : nth_error (a_urls a) i = None) by (apply nth_error_None; rewrite (r_urls _ _ R); now apply nth_error_None). now rewrite K.
Qed.

Lemma rbase_same w a b : rel w a ->
  match base_of_rec w b with
  | Some v => arg_in (w_heap w) v /\ lone_rbase a b = Some (arg_val (w_heap w) v)
  | None => lone_rbase a b = None
  end.
Proof.
  intros R. destruct b as [|s|k]; cbn [base_of_rec lone_rbase]; [split; [exact I|reflexivity]|split; [exact I|reflexivity]|].
  destruct (nth_error (w_recs w) k) as [r|] eqn:Hr.
  - destruct (r_know _ _ R k r Hr) as (K1 & K2 & K3). split; [exact K1|]. rewrite K2. reflexivity.
  - assert (K : nth_error (a_recs a) k = None) by (apply nth_error_None; rewrite (r_recs _ _ R); now apply nth_error_None). now rewrite K.
Qed.
Lemma rel_see_rec w a k : rel w a -> see_rec w k = nth_error (a_recs a) k.
Proof.
  intros R. unfold see_rec. destruct (nth_error (w_recs w) k) as [r|] eqn:Hr.
  - destruct (r_know _ _ R k r Hr) as (K1 & K2 & K3). now rewrite K2.
  - symmetry. apply nth_error_None. rewrite (r_recs _ _ R). now apply nth_error_None.
Qed.

Lemma step_rel E w a o : rel w a -> unattached o ->
  rel (fst (wstep E o w)) (fst (lone_step E o a)) /\ (~ is_next o -> snd (wstep E o w) = snd (lone_step E o a)).
Proof.
  intros R UA. destruct o as [s b|i s|i|p|p op|s b|r|p r|p|p|p|k]; cbn [wstep lone_step unattached is_next] in *; try contradiction.
  - (* URL(s, base) *) pose proof (base_same w a b R) as Q. destruct (base_of_url w b) as [v|]; [|rewrite Q; cbn [fst snd]; auto].
    destruct Q as [B1 B2]. rewrite B2. unfold url_new. destruct (url_frame (with_validity E false) s v UTF8 (w_heap w) (r_own _ _ R) B1) as (N1 & N2 & N3).
    rewrite N3. destruct (hparse_url (with_validity E false) s v UTF8 (w_heap w)) as [l [h [r|e]]]; cbn [fst snd val] in *.
    + split; [|reflexivity]. exact (rel_new w a h r R N1 (N2 r eq_refl)).
    + split; [|reflexivity]. now apply rel_grow.
  - (* setters *) destruct (nth_error (w_urls w) i) as [u|] eqn:Hu.
    2:{ assert (K : nth_error (a_urls a) i = None) by (apply nth_error_None; rewrite (r_urls _ _ R); now apply nth_error_None). rewrite K. auto. }
    destruct (r_url _ _ R i u Hu) as (L & q & P1 & P2 & P3 & P4). rewrite P4.
    set (o := UrlApi.mkobj (read (w_heap w) (u_rec u)) (list_of w q)).
    assert (DEF : (forall v, s <> SetHref v) ->
      rel (with_heap (fst (snd (hset_attr E (u_rec u) s (w_heap w)))) w)
        (mklone (upd i (UrlApi.mkobj (o_url (fst (set_attr E s o))) (o_list o)) (a_urls a)) (a_params a) (a_recs a)) /\
      target_only (w_heap w) (fst (snd (hset_attr E (u_rec u) s (w_heap w)))) (u_rec u) /\
      read (fst (snd (hset_attr E (u_rec u) s (w_heap w)))) (u_rec u) = o_url (fst (set_attr E s o)) /\
      snd (snd (hset_attr E (u_rec u) s (w_heap w))) = snd (set_attr E s o)).
    { intros NH. destruct (set_frame E s (w_heap w) (u_rec u) (list_of w q) (r_own _ _ R) L NH) as (T & S & RD). fold o in S, RD.
      split; [|auto]. rewrite <- RD. exact (rel_record w a i u q _ R Hu P1 T). }
    assert (OTHER : (forall v, s <> SetHref v) -> (forall v, s <> SetSearch v) ->
       rel (with_heap (fst (snd (hset_attr E (u_rec u) s (w_heap w)))) w) (mklone (upd i (fst (set_attr E s o)) (a_urls a)) (a_params a) (a_recs a)) /\
       (~ False -> answer_of (snd (snd (hset_attr E (u_rec u) s (w_heap w)))) = answer_of (snd (set_attr E s o)))).
    { intros NH NS. destruct (DEF NH) as (D1 & D2 & D3 & D4). rewrite <- (set_list E s o NH NS) in D1. rewrite obj_eta in D1. split; [exact D1|]. now rewrite D4. }
    destruct s as [v|v|v|v|v|v|v|v|v|v];
      try (destruct (OTHER ltac:(discriminate) ltac:(discriminate)) as [O1 O2]; destruct (snd (hset_attr E (u_rec u) _ (w_heap w))) as [h r]; cbn [fst snd] in *; split; assumption).
    + (* href *) clear DEF OTHER. pose proof (new_frame (with_validity E false) v None UTF8 (w_heap w) (r_own _ _ R) I) as NF. cbv zeta in NF.
      cbn [option_map] in NF. cbn [set_attr]. destruct NF as (N1 & N2 & N3). rewrite N3.
      destruct (hparse_new (with_validity E false) v None UTF8 (w_heap w)) as [l [h [r|e]]]; cbn [fst snd val answer_of] in *.
      * split; [|reflexivity]. destruct (N2 r eq_refl) as [N4 N5]. destruct N1 as (M1 & M2 & M3). apply (rel_attach w a i u q h r R Hu P1 M1 N5 M2).
        { intros j x Nj Hx. destruct (r_url _ _ R j x Hx) as (Lx & _). split; [apply (M3 _ Lx)|lia]. }
        intros k x Hk. destruct (r_know _ _ R k x Hk) as (Lx & _). split; [apply (M3 _ Lx)|lia].
      * split; [|reflexivity]. rewrite (upd_id i o (a_urls a) P4). rewrite lone_eta. now apply rel_grow.
    + (* search *) destruct (DEF ltac:(discriminate)) as (D1 & D2 & D3 & D4). pose proof (search_list E v o) as SL.
      destruct (snd (hset_attr E (u_rec u) (SetSearch v) (w_heap w))) as [h [x|e]]; cbn [fst snd] in *; rewrite <- D4 in *; cbn [answer_of].
      * split; [|reflexivity]. destruct D2 as (T1 & T2 & T3).
        pose proof (rel_attach w a i u q h (u_rec u) R Hu P1 T1 ltac:(lia) ltac:(lia)) as K. rewrite D3 in K. rewrite <- SL in K. rewrite obj_eta in K.
        assert (U : mkuobj (u_rec u) (u_params u) = u) by now destruct u. rewrite U in K. rewrite (upd_id _ _ _ Hu) in K. apply K.
        { intros j y Nj Hy. assert (Ne : u_rec y <> u_rec u) by (intros X; apply Nj; exact (r_rec _ _ R _ _ _ _ Hy Hu X)).
          split; [|exact Ne]. apply T3; [apply (r_url _ _ R j y Hy)|exact Ne]. }
        intros k y Hk. destruct (r_know _ _ R k y Hk) as (Ly & _ & Ne). specialize (Ne i u Hu). split; [|exact Ne]. apply T3; [exact Ly|congruence].
      * split; [|reflexivity]. rewrite <- SL in D1. rewrite obj_eta in D1. exact D1.
  - split; [|reflexivity]. now apply rel_add.
  - rewrite <- (rel_see_params w a p R). unfold see_params. destruct (nth_error (w_params w) p) as [q|]; [|auto]. split; [|reflexivity]. now apply rel_add.
  - destruct (nth_error (w_params w) p) as [q|] eqn:Hq.
    2:{ assert (K : nth_error (a_params a) p = None) by (apply nth_error_None; rewrite (r_params _ _ R); now apply nth_error_None). rewrite K. auto. }
    destruct (r_par _ _ R p q Hq) as [Lq G]. destruct (nth_error (a_params a) p) as [[i|l]|] eqn:Ha; [| |contradiction].
    + destruct G as (u & G1 & G2). subst p. destruct (r_url _ _ R i u G1) as (L & q' & P1 & P2 & P3 & P4). assert (q' = q) by congruence. subst q'.
      rewrite P4, P2. set (l := sp_apply op (list_of w q)). destruct (update_frame E (w_heap w) (u_rec u) l (r_own _ _ R) L) as [T RD].
      cbn [fst snd]. split; [|reflexivity]. set (h := fst (snd (hupdate E (u_rec u) l (w_heap w)))) in *. destruct T as (T1 & T2 & T3).
      pose proof (rel_replace w a i u q h (upd (p_list q) l (w_lists w)) (p_list q) (u_rec u) R G1 Hq T1 ltac:(lia) ltac:(lia)) as K.
      assert (Q : mkpobj (p_list q) (Some (u_rec u)) = q) by (rewrite <- P2; now destruct q). rewrite Q in K. rewrite (upd_id _ _ _ Hq) in K.
      assert (U : mkuobj (u_rec u) (u_params u) = u) by now destruct u. rewrite U in K. rewrite (upd_id _ _ _ G1) in K.
      rewrite nth_upd_same in K by exact Lq. rewrite RD in K. unfold params_op. cbn [o_list o_url]. cbv zeta. fold l. apply K.
      * intros j v Nj Hv. assert (Ne : u_rec v <> u_rec u) by (intros X; apply Nj; exact (r_rec _ _ R _ _ _ _ Hv G1 X)).
        split; [|exact Ne]. apply T3; [apply (r_url _ _ R j v Hv)|exact Ne].
      * now rewrite upd_length.
      * intros p q' Np Hp. rewrite upd_length. assert (Ne : p_list q' <> p_list q) by (intros X; apply Np; exact (r_lists _ _ R _ _ _ _ Hp Hq X)).
        split; [apply (r_par _ _ R p q' Hp)|]. split; [|exact Ne]. unfold list_of. apply nth_upd_other. congruence.
      * intros k y Hk. destruct (r_know _ _ R k y Hk) as (Ly & _ & Ne). specialize (Ne i u G1). split; [|exact Ne]. apply T3; [exact Ly|congruence].
    + destruct G as [G1 G2]. rewrite G1. cbn [fst snd]. split; [|reflexivity]. rewrite <- G2. exact (rel_own_list w a p q _ l R Hq Ha).
  - pose proof (rbase_same w a b R) as Q. destruct (base_of_rec w b) as [v|]; [|rewrite Q; cbn [fst snd]; auto].
    destruct Q as [B1 B2]. rewrite B2. destruct (url_frame (with_validity E false) s v UTF8 (w_heap w) (r_own _ _ R) B1) as (N1 & N2 & N3).
    rewrite N3. destruct (hparse_url (with_validity E false) s v UTF8 (w_heap w)) as [l [h [r|e]]]; cbn [fst snd val] in *.
    + split; [|reflexivity]. exact (rel_know w a h r R N1 (N2 r eq_refl)).
    + split; [|reflexivity]. now apply rel_grow.
  - destruct (nth_error (w_params w) p) as [q|]; cbn [fst snd]; (split; [|reflexivity]); [now apply rel_iters|exact R].
  - destruct (nth_error (w_params w) p) as [q|]; cbn [fst snd]; (split; [|reflexivity]); [now apply rel_iters|exact R].
  - destruct (nth_error (w_params w) p) as [q|]; cbn [fst snd]; (split; [|reflexivity]); [now apply rel_iters|exact R].
  - split; [|intros X; destruct (X I)].
    destruct (nth_error (w_iters w) k) as [[[l|] j|[|x t]]|]; cbn [fst snd]; try exact R; try (now apply rel_iters).
    destruct (nth_error (nth l (w_lists w) []) j); cbn [fst]; now apply rel_iters.
Qed.

(* ---------- whole programs ---------- *)
Lemma wrun_cons E o t w : fst (wrun E (o :: t) w) = fst (wrun E t (fst (wstep E o w))).
Proof. cbn [wrun]. destruct (wstep E o w) as [w1 a]. cbn [fst]. now destruct (wrun E t w1). Qed.
Lemma run_rel E prog w a : rel w a -> Forall unattached prog -> rel (fst (wrun E prog w)) (lone_run E prog a).
Proof.
  intros R F. revert w a R. induction F as [|o t U F IH]; intros w a R; [exact R|]. rewrite wrun_cons. cbn [lone_run].
  apply IH. apply (step_rel E w a o R U).
Qed.
Lemma programs E prog : Forall unattached prog ->
  let w := fst (wrun E prog empty_world) in let a := lone_run E prog (mklone [] [] []) in
  (forall i, see_url w i = nth_error (a_urls a) i) /\ (forall p, see_params w p = lone_params a p) /\ (forall k, see_rec w k = nth_error (a_recs a) k) /\
  (forall o, unattached o -> ~ is_next o -> snd (wstep E o w) = snd (lone_step E o a)).
Proof.
  intros F w a. assert (R : rel w a) by (apply run_rel; [exact rel_empty|exact F]). split; [|split; [|split]].
  - intros i. now apply rel_see_url.
  - intros p. now apply rel_see_params.
  - intros k. now apply rel_see_rec.
  - intros o U NN. now apply (step_rel E w a o R U).
Qed.
Lemma lone_reached E prog a : Forall wop_ok prog -> (forall i o, nth_error (a_urls a) i = Some o -> reached E o) ->
  forall i o, nth_error (a_urls (lone_run E prog a)) i = Some o -> reached E o.
Proof.
  intros F. revert a. induction F as [|c t K F IH]; intros a R; [exact R|]. cbn [lone_run]. apply IH. clear IH F t.
  destruct c as [s b|i s|i|p|p op|s b|r|p r|p|p|p|k]; cbn [lone_step wop_ok] in *; try exact R.
  - destruct (lone_base a b) as [v|] eqn:B; [|exact R]. destruct (url_new E s v) as [u|e] eqn:U; [|exact R]. cbn [fst a_urls].
    intros j o Hj. apply ne_snoc_inv in Hj as [[Hj _]|[_ ->]]; [exact (R j o Hj)|]. destruct K as [K1 K2].
    destruct b as [|t|i]; cbn [lone_base] in B.
    + injection B as <-. exact (reached_new E s u K1 U).
    + injection B as <-. exact (reached_str E s t u K1 K2 U).
    + destruct (nth_error (a_urls a) i) as [x|] eqn:Hx; [|discriminate]. injection B as <-. exact (reached_join E s x u K1 (R i x Hx) U).
  - destruct (nth_error (a_urls a) i) as [u|] eqn:Hu; [|exact R]. cbn [fst a_urls]. intros j o Hj.
    apply ne_upd_inv in Hj as [[-> ->]|[_ Hj]]; [|exact (R j o Hj)|exact (ne_lt _ _ _ Hu)]. exact (reached_call E (CSet s) u K (R i u Hu)).
  - destruct (lone_params a p); exact R.
  - destruct (nth_error (a_params a) p) as [[i|l]|]; [|exact R|exact R]. destruct (nth_error (a_urls a) i) as [u|] eqn:Hu; [|exact R].
    cbn [fst a_urls]. intros j o Hj. apply ne_upd_inv in Hj as [[-> ->]|[_ Hj]]; [|exact (R j o Hj)|exact (ne_lt _ _ _ Hu)].
    exact (reached_call E (CParams op) u K (R i u Hu)).
  - destruct (lone_rbase a b); [|exact R]. destruct (snd (parse_url _ _ _ _)); exact R.
Qed.
Lemma programs_reached E prog i o : Forall unattached prog -> Forall wop_ok prog ->
  see_url (fst (wrun E prog empty_world)) i = Some o -> reached E o.
Proof.
  intros F K H. destruct (programs E prog F) as (P & _). rewrite P in H. apply (lone_reached E prog (mklone [] [] []) K) with (i := i); [|exact H].
  intros [|j] x Hx; discriminate Hx.
Qed.
Lemma programs_frame E prog c i : Forall unattached prog -> unattached c ->
  let w := fst (wrun E prog empty_world) in
  ~ concerns w c i -> see_url w i <> None -> see_url (fst (wstep E c w)) i = see_url w i.
Proof.
  intros F U w NC SE. set (a := lone_run E prog (mklone [] [] [])). assert (R : rel w a) by (apply run_rel; [exact rel_empty|exact F]).
  destruct (step_rel E w a c R U) as [R' _]. rewrite (rel_see_url _ _ i R'). rewrite (rel_see_url _ _ i R) in *. clearbody a. clear R' U.
  destruct c as [s b|j s|j|p|p op|s b|r|p r|p|p|p|k]; cbn [lone_step concerns] in *; try reflexivity.
  - destruct (lone_base a b); [|reflexivity]. destruct (url_new E s b0); [|reflexivity]. cbn [fst a_urls]. apply ne_old. apply nth_error_Some. exact SE.
  - destruct (nth_error (a_urls a) j) as [u|]; [|reflexivity]. cbn [fst a_urls]. now apply ne_upd_other.
  - destruct (lone_params a p); reflexivity.
  - destruct (nth_error (a_params a) p) as [[j|l]|] eqn:Ha; [|reflexivity|reflexivity]. destruct (nth_error (a_urls a) j) as [u|] eqn:Hu; [|reflexivity].
    cbn [fst a_urls]. apply ne_upd_other. intros ->. apply NC.
    assert (L : (p < length (w_params w))%nat) by (rewrite <- (r_params _ _ R); exact (ne_lt _ _ _ Ha)).
    destruct (ne_some p _ L) as [q Hq]. destruct (r_par _ _ R p q Hq) as [_ G]. rewrite Ha in G. destruct G as (x & G1 & G2). now exists x.
  - destruct (lone_rbase a b); [|reflexivity]. destruct (snd (parse_url _ _ _ _)); reflexivity.
Qed.

(* ---------- iterators ---------- *)
(** a step keeps what [p] and the iterator [k] look at *)
Lemma attach_old p r w x q : p <> x -> nth_error (w_params w) x = Some q -> nth_error (w_params (attach p r w)) x = Some q.
Proof. intros Ne H. unfold attach. cbn [w_params]. rewrite ne_upd_other by auto. exact H. Qed.
Lemma step_params E o w p q : nth_error (w_params w) p = Some q -> ~ rebinds w o p ->
  nth_error (w_params (fst (wstep E o w))) p = Some q.
Proof.
  intros H NR. pose proof (ne_lt _ _ _ H) as L.
  assert (AD : forall l h, nth_error (w_params (add_params l (with_heap h w))) p = Some q) by (intros; cbn [add_params with_heap w_params]; now rewrite ne_old).
  destruct o as [s b|i s|i|x|x op|s b|r|x r|x|x|x|k]; cbn [wstep rebinds] in *.
  - destruct (base_of_url w b); [|exact H]. destruct (hparse_url _ _ _ _ _) as [l [h' [r|e]]]; [|exact H]. cbn [fst w_params]. cbv zeta. apply attach_old; [lia|apply AD].
  - destruct (nth_error (w_urls w) i) as [u|] eqn:Hu; [|exact H].
    assert (NP : (exists x, Some u = Some x /\ u_params x = p) -> u_params u = p) by (intros (x & Q & X); congruence).
    destruct s; try (destruct (snd (hset_attr _ _ _ _)) as [h' r]; exact H).
    + destruct (hparse_new _ _ _ _ _) as [l [h' [r|e]]]; [|exact H]. cbn [fst]. apply attach_old; [|exact H]. intros X. apply NR. now exists u.
    + destruct (snd (hset_attr _ _ _ _)) as [h' [r|e]]; [|exact H]. cbn [fst]. apply attach_old; [|exact H]. intros X. apply NR. now exists u.
  - exact (AD _ (w_heap w)).
  - destruct (nth_error (w_params w) x); [|exact H]. exact (AD _ (w_heap w)).
  - destruct (nth_error (w_params w) x) as [y|]; [|exact H]. cbv zeta. destruct (p_rec y); exact H.
  - destruct (base_of_rec w b); [|exact H]. destruct (hparse_url _ _ _ _ _) as [l [h' [r|e]]]; exact H.
  - destruct (nth_error (w_recs w) r); [|exact H]. cbn [fst]. apply attach_old; [lia|exact (AD _ (w_heap w))].
  - destruct (nth_error (w_recs w) r); [|exact H]. destruct (nth_error (w_params w) x); [|exact H]. cbn [fst]. now apply attach_old.
  - destruct (nth_error (w_params w) x); exact H.
  - destruct (nth_error (w_params w) x); exact H.
  - destruct (nth_error (w_params w) x); exact H.
  - cbv zeta. destruct (nth_error (w_iters w) k) as [[[l|] j|[|y t]]|]; try exact H. destruct (nth_error (nth l (w_lists w) []) j); exact H.
Qed.
Lemma step_iters E o w k it : nth_error (w_iters w) k = Some it -> o <> WNext k -> nth_error (w_iters (fst (wstep E o w))) k = Some it.
Proof.
  intros H NE. pose proof (ne_lt _ _ _ H) as L.
  destruct o as [s b|i s|i|x|x op|s b|r|x r|x|x|x|j]; cbn [wstep].
  - destruct (base_of_url w b); [|exact H]. destruct (hparse_url _ _ _ _ _) as [l [h' [r|e]]]; exact H.
  - destruct (nth_error (w_urls w) i) as [u|]; [|exact H].
    destruct s; try (destruct (snd (hset_attr _ _ _ _)) as [h' [r|e]]; exact H). destruct (hparse_new _ _ _ _ _) as [l [h' [r|e]]]; exact H.
  - exact H.
  - destruct (nth_error (w_params w) x); exact H.
  - destruct (nth_error (w_params w) x) as [y|]; [|exact H]. cbv zeta. destruct (p_rec y); exact H.
  - destruct (base_of_rec w b); [|exact H]. destruct (hparse_url _ _ _ _ _) as [l [h' [r|e]]]; exact H.
  - destruct (nth_error (w_recs w) r); exact H.
  - destruct (nth_error (w_recs w) r); [|exact H]. destruct (nth_error (w_params w) x); exact H.
  - destruct (nth_error (w_params w) x); [|exact H]. cbn [fst w_iters]. now rewrite ne_old.
  - destruct (nth_error (w_params w) x); [|exact H]. cbn [fst w_iters]. now rewrite ne_old.
  - destruct (nth_error (w_params w) x); [|exact H]. cbn [fst w_iters]. now rewrite ne_old.
  - cbv zeta. assert (Nj : j <> k) by congruence.
    destruct (nth_error (w_iters w) j) as [[[l|] n|[|y t]]|]; try exact H; [destruct (nth_error (nth l (w_lists w) []) n)|];
      cbn [fst w_iters]; now rewrite ne_upd_other.
Qed.
Lemma nexts_cons k o t : nexts k (o :: t) = ((if is_next_of k o then 1 else 0) + nexts k t)%nat.
Proof. unfold nexts. cbn [filter]. destruct (is_next_of k o); reflexivity. Qed.
Lemma next_of_eq k o : is_next_of k o = true -> o = WNext k.
Proof. destruct o; cbn [is_next_of]; try discriminate. intros H. apply Nat.eqb_eq in H. congruence. Qed.
Lemma next_of_ne k o : is_next_of k o = false -> o <> WNext k.
Proof. intros H ->. cbn [is_next_of] in H. rewrite Nat.eqb_refl in H. discriminate. Qed.
Lemma live_run E p k prog : forall w q n, nth_error (w_params w) p = Some q -> nth_error (w_iters w) k = Some (ILive (Some (p_list q)) n) ->
  undisturbed E p k prog w ->
  let w' := fst (wrun E prog w) in
  nth_error (w_params w') p = Some q /\ nth_error (w_iters w') k = Some (ILive (Some (p_list q)) (nexts k prog + n)).
Proof.
  induction prog as [|o t IH]; intros w q n Hq Hk U; [auto|]. cbn [undisturbed] in U. destruct U as (U1 & U2 & U3).
  pose proof (step_params E o w p q Hq U1) as Hq'. cbv zeta. rewrite wrun_cons, nexts_cons. destruct (is_next_of k o) eqn:Q.
  - apply next_of_eq in Q. subst o. specialize (U2 eq_refl).
    assert (Hk' : nth_error (w_iters (fst (wstep E (WNext k) w))) k = Some (ILive (Some (p_list q)) (S n))).
    { cbn [wstep] in *. rewrite Hk in *. cbv zeta in *. destruct (nth_error (nth (p_list q) (w_lists w) []) n) as [nv|]; [|now destruct U2].
      cbn [fst w_iters]. apply ne_upd_same. exact (ne_lt _ _ _ Hk). }
    destruct (IH _ q (S n) Hq' Hk' U3) as [I1 I2]. split; [exact I1|]. rewrite I2. do 2 f_equal. lia.
  - exact (IH _ q n Hq' (step_iters E o w k _ Hk (next_of_ne _ _ Q)) U3).
Qed.
Lemma entries_live E w p prog : let k := length (w_iters w) in let w1 := fst (wstep E (WEntries p) w) in let w2 := fst (wrun E prog w1) in
  see_params w p <> None -> undisturbed E p k prog w1 ->
  exists l, see_params w2 p = Some l /\ snd (wstep E (WNext k) w2) = live_next l (nexts k prog).
Proof.
  intros k w1 w2 SP U. unfold see_params in SP. destruct (nth_error (w_params w) p) as [q|] eqn:Hq; [|congruence].
  assert (W1 : w1 = mkworld (w_heap w) (w_lists w) (w_params w) (w_urls w) (w_iters w ++ [ILive (Some (p_list q)) 0]) (w_recs w)) by (unfold w1; cbn [wstep]; now rewrite Hq).
  destruct (live_run E p k prog w1 q 0%nat) as [A B].
  - rewrite W1. exact Hq.
  - rewrite W1. cbn [w_iters]. apply ne_snoc.
  - exact U.
  - fold w2 in A, B. rewrite Nat.add_0_r in B. exists (list_of w2 q). unfold see_params. rewrite A. split; [reflexivity|].
    cbn [wstep]. rewrite B. cbv zeta. unfold live_next, list_of. destruct (nth_error (nth (p_list q) (w_lists w2) []) (nexts k prog)); reflexivity.
Qed.
(** an iterator that has ended has ended for good *)
Lemma ended_run E k prog : forall w n, nth_error (w_iters w) k = Some (ILive None n) ->
  nth_error (w_iters (fst (wrun E prog w))) k = Some (ILive None n).
Proof.
  induction prog as [|o t IH]; intros w n H; [exact H|]. rewrite wrun_cons. apply IH. destruct (is_next_of k o) eqn:Q.
  - apply next_of_eq in Q. subst o. cbn [wstep]. rewrite H. exact H.
  - exact (step_iters E o w k _ H (next_of_ne _ _ Q)).
Qed.
Lemma rest_run E k prog : forall w l, nth_error (w_iters w) k = Some (IRest l) ->
  nth_error (w_iters (fst (wrun E prog w))) k = Some (IRest (skipn (nexts k prog) l)).
Proof.
  induction prog as [|o t IH]; intros w l H; [exact H|]. rewrite wrun_cons, nexts_cons. destruct (is_next_of k o) eqn:Q.
  - apply next_of_eq in Q. subst o. destruct l as [|x l].
    + rewrite (IH _ []); [now rewrite !skipn_nil|]. cbn [wstep]. rewrite H. exact H.
    + rewrite (IH _ l); [reflexivity|]. cbn [wstep]. rewrite H. cbv zeta. cbn [fst w_iters]. apply ne_upd_same. exact (ne_lt _ _ _ H).
  - apply IH. exact (step_iters E o w k _ H (next_of_ne _ _ Q)).
Qed.
Lemma hd_skipn {A} n (l : list A) : match skipn n l with x :: _ => Some x | [] => None end = nth_error l n.
Proof. revert l; induction n as [|n IH]; intros [|x l]; try reflexivity. cbn [skipn nth_error]. apply IH. Qed.
Lemma ended E w k prog : snd (wstep E (WNext k) w) = AStop -> snd (wstep E (WNext k) (fst (wrun E prog (fst (wstep E (WNext k) w))))) = AStop.
Proof.
  intros H. cbn [wstep] in H. destruct (nth_error (w_iters w) k) as [[[l|] n|[|x t]]|] eqn:Hk; cbv zeta in H; try discriminate H.
  - destruct (nth_error (nth l (w_lists w) []) n) eqn:Hn; [discriminate H|].
    assert (K : nth_error (w_iters (fst (wstep E (WNext k) w))) k = Some (ILive None n)).
    { cbn [wstep]. rewrite Hk. cbv zeta. rewrite Hn. cbn [fst w_iters]. apply ne_upd_same. exact (ne_lt _ _ _ Hk). }
    pose proof (ended_run E k prog _ n K) as K2. cbn [wstep] in K2 |- *. now rewrite K2.
  - assert (K : nth_error (w_iters (fst (wstep E (WNext k) w))) k = Some (ILive None n)) by (cbn [wstep]; rewrite Hk; exact Hk).
    pose proof (ended_run E k prog _ n K) as K2. cbn [wstep] in K2 |- *. now rewrite K2.
  - assert (K : nth_error (w_iters (fst (wstep E (WNext k) w))) k = Some (IRest [])) by (cbn [wstep]; rewrite Hk; exact Hk).
    pose proof (rest_run E k prog _ [] K) as K2. rewrite skipn_nil in K2. cbn [wstep] in K2 |- *. now rewrite K2.
Qed.
Lemma rest_next E w k l n : nth_error (w_iters w) k = Some (IRest (skipn n l)) ->
  snd (wstep E (WNext k) w) = match nth_error l n with Some x => AName x | None => AStop end.
Proof. intros H. cbn [wstep]. rewrite H. cbv zeta. rewrite <- (hd_skipn n l). destruct (skipn n l); reflexivity. Qed.
Lemma names_snapshot E w p l prog : see_params w p = Some l -> let k := length (w_iters w) in
  snd (wstep E (WNext k) (fst (wrun E prog (fst (wstep E (WKeys p) w))))) = live_name fst l (nexts k prog) /\
  snd (wstep E (WNext k) (fst (wrun E prog (fst (wstep E (WValues p) w))))) = live_name snd l (nexts k prog).
Proof.
  intros SP k. unfold see_params in SP. destruct (nth_error (w_params w) p) as [q|] eqn:Hq; [|discriminate]. injection SP as <-.
  assert (G : forall f w1, nth_error (w_iters w1) k = Some (IRest (map f (list_of w q))) ->
    snd (wstep E (WNext k) (fst (wrun E prog w1))) = live_name f (list_of w q) (nexts k prog)).
  { intros f w1 H. rewrite (rest_next E _ k (map f (list_of w q)) (nexts k prog)) by (apply rest_run; exact H).
    unfold live_name. rewrite nth_error_map. destruct (nth_error (list_of w q) (nexts k prog)); reflexivity. }
  split; apply G; cbn [wstep]; rewrite Hq; cbn [fst w_iters]; apply ne_snoc.
Qed.
Lemma undisturbed_got E p k prog : forall w, undisturbed E p k prog w -> got E k prog w = nexts k prog.
Proof.
  induction prog as [|o t IH]; intros w U; [reflexivity|]. cbn [undisturbed got] in *. destruct U as (_ & U2 & U3). rewrite nexts_cons, (IH _ U3). f_equal.
  destruct o; try reflexivity. cbn [is_next_of]. destruct (k0 =? k)%nat eqn:Q.
  - apply Nat.eqb_eq in Q. subst k0. specialize (U2 eq_refl). destruct (snd (wstep E (WNext k) w)); congruence.
  - destruct (snd (wstep E (WNext k0) w)); reflexivity.
Qed.
Lemma entries_got E w p prog : let k := length (w_iters w) in let w1 := fst (wstep E (WEntries p) w) in let w2 := fst (wrun E prog w1) in
  see_params w p <> None -> undisturbed E p k prog w1 ->
  exists l, see_params w2 p = Some l /\ snd (wstep E (WNext k) w2) = live_next l (got E k prog w1).
Proof.
  intros k w1 w2 SP U. destruct (entries_live E w p prog SP U) as (l & A & B). exists l. split; [exact A|].
  rewrite (undisturbed_got E p k prog w1 U). exact B.
Qed.
