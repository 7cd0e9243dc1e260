(** URLSearchParams: C59-C64. *)
From Coq Require Import Ascii String.
From Coq Require Import NArith ZArith Bool Arith Lia ZifyBool ZifyN ZifyNat List Permutation Sorted.
From Verif Require Import PyStr PyInt Codec Env SearchParams Lemmas SpecText CodecProofs QuoteProofs SpecParams.
Import ListNotations.
Open Scope N_scope.
Ltac Zify.zify_post_hook ::= Z.div_mod_to_equations.

(* ---------- tests ---------- *)
Lemma named_eqb n t : named n t = str_eqb (fst t) n.
Proof.
  unfold named. destruct (list_eq_dec N.eq_dec (fst t) n) as [->|D].
  - symmetry. apply str_eqb_refl.
  - symmetry. apply not_true_is_false. intros H. apply D. now apply str_eqb_eq in H.
Qed.
Lemma valued_eqb n t : valued n t = str_eqb (snd t) n.
Proof.
  unfold valued. destruct (list_eq_dec N.eq_dec (snd t) n) as [->|D].
  - symmetry. apply str_eqb_refl.
  - symmetry. apply not_true_is_false. intros H. apply D. now apply str_eqb_eq in H.
Qed.

(** A value argument as the library compares it: a str as it is, a number never. *)
Definition value_arg (v : pyval) : option str := match v with PVStr s => Some s | PVNum _ => None end.

(* ---------- get, get_all, has, append ---------- *)
Lemma sp_norm_spec s : is_pystr s -> sp_norm s = std_unescape s.
Proof.
  intros H. unfold sp_norm, std_unescape. rewrite string_percent_decode_spec by auto.
  apply utf8_decode_spec.
Qed.

Lemma get_loop_spec l n : get_loop l n = std_get l n.
Proof.
  unfold std_get. induction l as [|[a b] t IH]; cbn [get_loop find]; auto.
  rewrite named_eqb. cbn [fst]. destruct (str_eqb a n); auto.
Qed.
Lemma has_loop_none l n : has_loop l n None = std_has l n None.
Proof.
  induction l as [|[a b] t IH]; auto. cbn [has_loop std_has existsb]. rewrite named_eqb. cbn [fst value_differs].
  destruct (str_eqb a n); auto.
Qed.
Lemma has_loop_str l n v : has_loop l n (Some (PVStr v)) = std_has l n (Some v).
Proof.
  induction l as [|[a b] t IH]; auto. cbn [has_loop std_has existsb]. rewrite named_eqb, valued_eqb.
  cbn [fst snd value_differs py_eq_str].
  destruct (str_eqb a n), (str_eqb b v); cbn [negb andb orb]; auto.
Qed.
Lemma has_loop_num l n v : has_loop l n (Some (PVNum v)) = false.
Proof.
  induction l as [|[a b] t IH]; auto. cbn [has_loop value_differs py_eq_str negb].
  destruct (str_eqb a n); auto.
Qed.

(* ---------- delete ---------- *)
Lemma enumerate_app {A} i (l l' : list A) :
  enumerate i (l ++ l') = enumerate i l ++ enumerate (i + length l) l'.
Proof.
  revert i; induction l as [|x t IH]; intros i; cbn [enumerate app length].
  - now rewrite Nat.add_0_r.
  - rewrite IH. f_equal. f_equal. f_equal. lia.
Qed.
Lemma pop_mid {A} (p : list A) x r : pop (length p) (p ++ x :: r) = p ++ r.
Proof.
  unfold pop. rewrite firstn_app, firstn_all, Nat.sub_diag. cbn [firstn]. rewrite app_nil_r. f_equal.
  replace (S (length p)) with (length (p ++ [x])) by (rewrite app_length; cbn [length]; lia).
  replace (p ++ x :: r) with ((p ++ [x]) ++ r) by (now rewrite <- app_assoc).
  now rewrite skipn_app, skipn_all, Nat.sub_diag.
Qed.
Lemma delete_fold l n v : forall done,
  fold_left (fun items iv =>
    if str_eqb (fst (snd iv)) n
    then if value_differs v (snd (snd iv)) then items else pop (fst iv) items
    else items) (rev (enumerate 0 l)) (l ++ done)
  = filter (fun t => negb (str_eqb (fst t) n && negb (value_differs v (snd t)))) l ++ done.
Proof.
  induction l as [|x l IH] using rev_ind; intros done; [reflexivity|].
  rewrite enumerate_app. cbn [enumerate Nat.add]. rewrite rev_app_distr. cbn [rev app fold_left fst snd].
  rewrite <- app_assoc. cbn [app]. rewrite filter_app. cbn [filter].
  destruct (str_eqb (fst x) n) eqn:A; [destruct (value_differs v (snd x)) eqn:B|]; cbn [negb andb].
  - rewrite IH. now rewrite <- app_assoc.
  - rewrite pop_mid, IH. now rewrite app_nil_r.
  - rewrite IH. now rewrite <- app_assoc.
Qed.
Lemma sp_delete_filter l n v :
  sp_delete l n v
  = filter (fun t => negb (str_eqb (fst t) (sp_norm n) && negb (value_differs v (snd t)))) l.
Proof.
  unfold sp_delete. rewrite <- (app_nil_r l) at 2. rewrite delete_fold. apply app_nil_r.
Qed.
Lemma sp_delete_none l n : sp_delete l n None = std_delete l (sp_norm n) None.
Proof.
  rewrite sp_delete_filter. unfold std_delete. apply filter_ext. intros t.
  rewrite named_eqb. cbn [value_differs negb]. now rewrite andb_true_r.
Qed.
Lemma sp_delete_str l n v : sp_delete l n (Some (PVStr v)) = std_delete l (sp_norm n) (Some v).
Proof.
  rewrite sp_delete_filter. unfold std_delete. apply filter_ext. intros t.
  rewrite named_eqb, valued_eqb. cbn [value_differs py_eq_str]. now rewrite negb_involutive.
Qed.
Lemma filter_true {A} (l : list A) f : (forall x, f x = true) -> filter f l = l.
Proof. intros H. induction l as [|x t IH]; auto. cbn [filter]. now rewrite H, IH. Qed.
Lemma sp_delete_num l n v : sp_delete l n (Some (PVNum v)) = l.
Proof.
  rewrite sp_delete_filter. apply filter_true. intros x. cbn [value_differs py_eq_str negb].
  now rewrite andb_false_r.
Qed.

(* ---------- set ---------- *)
(** the loop from [index] down to [found]: [p] ends with the item at [found] *)
Lemma set_del_loop_spec n p x : forall r done, set_del_loop (length p + length r) (length p) n (p ++ x :: r ++ done)
  = p ++ x :: filter (fun t => negb (str_eqb (fst t) n)) r ++ done.
Proof.
  induction r as [|y r IH] using rev_ind; intros done.
  - cbn [length filter app]. rewrite Nat.add_0_r. destruct (length p) as [|k]; cbn [set_del_loop]; auto.
    now rewrite Nat.ltb_irrefl.
  - rewrite app_length. cbn [length]. replace (length p + (length r + 1))%nat with (S (length p + length r)) by lia.
    cbn [set_del_loop]. replace (length p <? S (length p + length r))%nat with true by lia.
    rewrite <- app_assoc. cbn [app].
    assert (N1 : nth_error (p ++ x :: r ++ y :: done) (S (length p + length r)) = Some y).
    { replace (p ++ x :: r ++ y :: done) with ((p ++ x :: r) ++ y :: done) by (now rewrite <- app_assoc).
      rewrite nth_error_app2 by (rewrite app_length; cbn [length]; lia).
      replace (S (length p + length r) - length (p ++ x :: r))%nat with O by (rewrite app_length; cbn [length]; lia).
      reflexivity. }
    rewrite N1. rewrite filter_app. cbn [filter].
    destruct (str_eqb (fst y) n) eqn:A; cbn [negb].
    + replace (p ++ x :: r ++ y :: done) with ((p ++ x :: r) ++ y :: done) by (now rewrite <- app_assoc).
      replace (S (length p + length r)) with (length (p ++ x :: r)) by (rewrite app_length; cbn [length]; lia).
      rewrite pop_mid. rewrite <- app_assoc. cbn [app]. rewrite IH. now rewrite app_nil_r.
    + rewrite IH. now rewrite <- app_assoc.
Qed.
Lemma find_name_none l n i : find_name l n i = None -> Forall (fun t => str_eqb (fst t) n = false) l.
Proof.
  revert i; induction l as [|[a b] t IH]; intros i H; constructor; cbn [find_name] in H.
  - cbn [fst]. destruct (str_eqb a n); [discriminate|reflexivity].
  - destruct (str_eqb a n); [discriminate|eauto].
Qed.
Lemma find_name_some l n i k : find_name l n i = Some k ->
  exists p x r, l = p ++ x :: r /\ k = (i + length p)%nat /\ str_eqb (fst x) n = true /\
    Forall (fun t => str_eqb (fst t) n = false) p.
Proof.
  revert i; induction l as [|[a b] t IH]; intros i H; cbn [find_name] in H; [discriminate|].
  destruct (str_eqb a n) eqn:A.
  - injection H as <-. exists [], (a, b), t. repeat split; auto.
  - apply IH in H as (p & x & r & -> & -> & X & F). exists ((a, b) :: p), x, r. repeat split; auto; try (constructor; auto).
    cbn [length]. lia.
Qed.
Lemma set_item_mid {A} (p : list A) x y r : set_item (length p) y (p ++ x :: r) = p ++ y :: r.
Proof.
  unfold set_item. rewrite firstn_app, firstn_all, Nat.sub_diag. cbn [firstn]. rewrite app_nil_r. f_equal. f_equal.
  replace (S (length p)) with (length (p ++ [x])) by (rewrite app_length; cbn [length]; lia).
  replace (p ++ x :: r) with ((p ++ [x]) ++ r) by (now rewrite <- app_assoc).
  now rewrite skipn_app, skipn_all, Nat.sub_diag.
Qed.
Lemma std_set_none l n v : Forall (fun t => str_eqb (fst t) n = false) l -> std_set l n v = l ++ [(n, v)].
Proof.
  induction l as [|t r IH]; intros F; [reflexivity|]. inversion F; subst. cbn [std_set app].
  rewrite named_eqb. rewrite H1. now rewrite IH.
Qed.
Lemma std_set_some p x r n v : Forall (fun t => str_eqb (fst t) n = false) p -> str_eqb (fst x) n = true ->
  std_set (p ++ x :: r) n v = p ++ (n, v) :: std_delete r n None.
Proof.
  induction p as [|t p IH]; intros F X; cbn [std_set app]; rewrite named_eqb.
  - now rewrite X.
  - inversion F; subst. rewrite H1. now rewrite IH.
Qed.
Lemma sp_set_spec l n v : sp_set l n v = std_set l (sp_norm n) (sp_norm (py_str v)).
Proof.
  unfold sp_set. destruct (find_name l (sp_norm n) 0) as [k|] eqn:F.
  - apply find_name_some in F as (p & x & r & -> & -> & X & F). cbn [Nat.add].
    rewrite set_item_mid. rewrite std_set_some by auto.
    replace (length (p ++ (sp_norm n, sp_norm (py_str v)) :: r) - 1)%nat with (length p + length r)%nat
      by (rewrite app_length; cbn [length]; lia).
    pose proof (set_del_loop_spec (sp_norm n) p (sp_norm n, sp_norm (py_str v)) r []) as Q.
    rewrite !app_nil_r in Q. rewrite Q. unfold std_delete. do 2 f_equal. apply filter_ext. intros t.
    now rewrite named_eqb.
  - apply find_name_none in F. now rewrite std_set_none.
Qed.

(* ---------- strings without escapes ---------- *)
Lemma enc1_big c : c <= 1114111 -> 128 <= c -> Forall (fun b => 128 <= b) (std_utf8_encode1 c).
Proof.
  intros H H1. unfold std_utf8_encode1. replace (c <=? 127) with false by lia.
  assert (L : forall y, 128 <= N.lor 128 (N.land y 63)).
  { intros y. rewrite land63, lor128 by lia. lia. }
  destruct (c <=? 2047); [|destruct (c <=? 65535)]; cbn [N.mul N.leb]; rewrite ?shiftr_div;
    repeat (constructor; [first [apply L | lia]|]); constructor.
Qed.
Lemma spd_big b t : Forall (fun x => 128 <= x) b -> std_percent_decode (b ++ t) = b ++ std_percent_decode t.
Proof.
  induction b as [|x b IH]; intros F; [reflexivity|]. inversion F; subst. cbn [app std_percent_decode].
  replace (x =? 37) with false by lia. now rewrite IH.
Qed.
Lemma has_escape_cons c t : has_escape (c :: t) = false -> has_escape t = false.
Proof.
  cbn [has_escape]. destruct t as [|x [|y t]]; auto. intros H. now apply orb_false_iff in H.
Qed.
Lemma is_hex_small x : is_hex x = true -> x < 128.
Proof.
  unfold is_hex, std_hex. destruct ((48 <=? x) && (x <=? 57)) eqn:A; [lia|].
  destruct ((65 <=? x) && (x <=? 70)) eqn:B; [lia|]. destruct ((97 <=? x) && (x <=? 102)) eqn:C; [lia|discriminate].
Qed.
Lemma enc_small c : c < 128 -> std_utf8_encode1 c = [c].
Proof. intros H. unfold std_utf8_encode1. now replace (c <=? 127) with true by lia. Qed.
Lemma enc_head c t x r : c <= 1114111 -> std_utf8_encode (c :: t) = x :: r -> x < 128 ->
  c = x /\ r = std_utf8_encode t.
Proof.
  intros Hc. unfold std_utf8_encode. cbn [flat_map]. destruct (c <? 128) eqn:Q.
  - rewrite enc_small by lia. cbn [app]. intros H _. now inversion H.
  - pose proof (enc1_big c Hc ltac:(lia)) as F. intros H Hx.
    assert (NE : std_utf8_encode1 c <> []).
    { unfold std_utf8_encode1. replace (c <=? 127) with false by lia.
      destruct (c <=? 2047); [|destruct (c <=? 65535)]; discriminate. }
    destruct (std_utf8_encode1 c) as [|z zs]; [congruence|]. cbn [app] in H. inversion H; subst. inversion F; subst. lia.
Qed.
Lemma spd_no_escape s : is_pystr s -> has_escape s = false ->
  std_percent_decode (std_utf8_encode s) = std_utf8_encode s.
Proof.
  induction s as [|c t IH]; intros P H; [reflexivity|]. inversion P as [|? ? Pc Pt]; subst.
  pose proof (has_escape_cons _ _ H) as Ht. specialize (IH Pt Ht).
  unfold std_utf8_encode in *. cbn [flat_map]. destruct (c <? 128) eqn:Q.
  2:{ rewrite spd_big by (apply enc1_big; lia). now rewrite IH. }
  rewrite enc_small by lia. cbn [app std_percent_decode]. destruct (c =? 37) eqn:C.
  2:{ now rewrite IH. }
  destruct (flat_map std_utf8_encode1 t) as [|x [|y r]] eqn:T.
  - apply N.eqb_eq in C. now subst.
  - rewrite IH. apply N.eqb_eq in C. now subst.
  - assert (G : is_hex x && is_hex y = false).
    { apply not_true_is_false. intros G. apply andb_true_iff in G as [G1 G2].
      pose proof (is_hex_small _ G1). pose proof (is_hex_small _ G2).
      destruct t as [|a t]; [discriminate|]. inversion Pt as [|? ? Pa Pt']; subst.
      destruct (enc_head a t x (y :: r) Pa T ltac:(lia)) as [-> T2]. unfold std_utf8_encode in T2.
      destruct t as [|a t]; [discriminate|]. inversion Pt' as [|? ? Pa' Pt'']; subst.
      destruct (enc_head a t y r Pa' (eq_sym T2) ltac:(lia)) as [-> T3].
      cbn [has_escape] in H. rewrite C, G1, G2 in H. discriminate. }
    unfold is_hex in G. apply N.eqb_eq in C. subst c.
    destruct (std_hex x), (std_hex y); try discriminate; now rewrite IH.
Qed.
Lemma cons_eq {A} (x y : A) a b : x :: a = y :: b -> x = y /\ a = b.
Proof. intros H. now inversion H. Qed.
Lemma svs_head s x r : scalar_value_string s = x :: r -> x < 128 ->
  exists t, s = x :: t /\ r = scalar_value_string t.
Proof.
  destruct s as [|c [|d t]]; [discriminate| |].
  - cbn [scalar_value_string]. destruct (leading c || trailing c); intros H Hx; inversion H; subst; [lia|].
    exists []. auto.
  - rewrite svs_cons2. destruct (leading c && trailing d) eqn:L.
    + intros H Hx. apply cons_eq in H as [H _]. lia.
    + destruct (leading c || trailing c); intros H Hx; inversion H; subst; [lia|]. exists (d :: t). auto.
Qed.
Lemma svs_no_escape s : has_escape s = false -> has_escape (scalar_value_string s) = false.
Proof.
  enough (G : forall n s, (length s <= n)%nat -> has_escape s = false -> has_escape (scalar_value_string s) = false)
    by (apply (G (length s)); auto).
  clear s. induction n as [|n IH]; intros s Hn H.
  - destruct s; [reflexivity|cbn in Hn; lia].
  - destruct s as [|c t]; [reflexivity|]. cbn [length] in Hn.
    assert (K : exists c' t', scalar_value_string (c :: t) = c' :: scalar_value_string t' /\
                has_escape t' = false /\ (length t' <= n)%nat /\ (c' < 128 -> c' = c /\ t' = t)).
    { pose proof (has_escape_cons _ _ H) as Ht. destruct t as [|d t].
      - exists (if leading c || trailing c then 65533 else c), []. repeat split; auto; cbn [length]; try lia.
        destruct (leading c || trailing c); lia.
      - rewrite svs_cons2. destruct (leading c && trailing d) eqn:L.
        + eexists _, t. repeat split; auto; cbn [length] in Hn; try lia. now apply has_escape_cons in Ht.
        + eexists _, (d :: t). repeat split; auto; cbn [length] in *; try lia.
          destruct (leading c || trailing c); lia. }
    destruct K as (c' & t' & -> & Ht & Hl & K). specialize (IH t' Hl Ht).
    cbn [has_escape]. destruct (scalar_value_string t') as [|x [|y r]] eqn:T; auto.
    rewrite IH, orb_false_r. apply not_true_is_false. intros G.
    apply andb_true_iff in G as [G G2]. apply andb_true_iff in G as [G0 G1].
    pose proof (is_hex_small _ G1). pose proof (is_hex_small _ G2).
    destruct (K ltac:(lia)) as [-> ->].
    apply svs_head in T as (t1 & -> & T); [|lia]. symmetry in T. apply svs_head in T as (t2 & -> & T); [|lia].
    cbn [has_escape] in H. rewrite G0, G1, G2 in H. discriminate.
Qed.
Lemma no_escape_unescape s : is_pystr s -> has_escape s = false -> std_unescape s = scalar_value_string s.
Proof.
  intros P H. unfold std_unescape. rewrite spd_no_escape by (auto using svs_le, svs_no_escape).
  rewrite <- utf8_decode_spec, <- utf8_encode_spec by auto. now apply utf8_round_trip.
Qed.
Lemma no_escape_norm s : is_pystr s -> has_escape s = false -> sp_norm s = scalar_value_string s.
Proof. intros P H. rewrite sp_norm_spec by auto. now apply no_escape_unescape. Qed.

(* ---------- scalar values: what the list can hold ---------- *)
Definition usv_ok (s : str) : Prop := is_pystr s /\ surrogate_free s.
Definition usv_pairs (l : pairs) : Prop := Forall (fun p => usv_ok (fst p) /\ usv_ok (snd p)) l.

Lemma utf8_decode_le b : is_pystr (utf8_decode b).
Proof.
  enough (G : forall n b, (length b <= n)%nat -> is_pystr (utf8_decode b)) by (eapply G; reflexivity).
  clear b. unfold is_pystr. induction n as [|n IH]; intros b Hl.
  { destruct b; [constructor|cbn in Hl; lia]. }
  destruct b as [|b0 t]; [constructor|]. cbn [length] in Hl. cbn [utf8_decode].
  destruct (b0 <? 128) eqn:Q0.
  { constructor; [lia|apply IH; lia]. }
  destruct (b0 <? 194) eqn:Q1; [constructor; [lia|apply IH; lia]|].
  destruct (b0 <? 224) eqn:Q2.
  { destruct t as [|b1 t1]; [repeat constructor; lia|]. cbn [length] in Hl.
    destruct (is_cont b1) eqn:C1; unfold is_cont in C1; constructor; try lia; apply IH; cbn; lia. }
  destruct (b0 <? 240) eqn:Q3.
  { destruct t as [|b1 t1]; [repeat constructor; lia|]. cbn [length] in Hl.
    destruct (ok2_of3 b0 b1) eqn:C1; unfold ok2_of3, is_cont in C1.
    - destruct t1 as [|b2 t2]; [repeat constructor; lia|]. cbn [length] in Hl.
      destruct (is_cont b2) eqn:C2; unfold is_cont in C2; constructor; try lia; apply IH; cbn; lia.
    - constructor; [lia|apply IH; cbn; lia]. }
  destruct (b0 <? 245) eqn:Q4.
  { destruct t as [|b1 t1]; [repeat constructor; lia|]. cbn [length] in Hl.
    destruct (ok2_of4 b0 b1) eqn:C1; unfold ok2_of4, is_cont in C1.
    - destruct t1 as [|b2 t2]; [repeat constructor; lia|]. cbn [length] in Hl.
      destruct (is_cont b2) eqn:C2; unfold is_cont in C2.
      + destruct t2 as [|b3 t3]; [repeat constructor; lia|]. cbn [length] in Hl.
        destruct (is_cont b3) eqn:C3; unfold is_cont in C3.
        * constructor; [|apply IH; cbn; lia]. destruct (b0 =? 244) eqn:B, (144 <=? b1) eqn:B1; lia.
        * constructor; [lia|apply IH; cbn; lia].
      + constructor; [lia|apply IH; cbn; lia].
    - constructor; [lia|apply IH; cbn; lia]. }
  constructor; [lia|apply IH; lia].
Qed.
Lemma decode_usv b : is_bytes b -> usv_ok (utf8_decode b).
Proof. intros H. split; [apply utf8_decode_le|now apply utf8_decode_nosur]. Qed.

Lemma std_hex_lt x d : std_hex x = Some d -> d < 16.
Proof.
  unfold std_hex. destruct ((48 <=? x) && (x <=? 57)) eqn:A; [intros H; apply Some_inj in H; lia|].
  destruct ((65 <=? x) && (x <=? 70)) eqn:B; [intros H; apply Some_inj in H; lia|].
  destruct ((97 <=? x) && (x <=? 102)) eqn:C; [intros H; apply Some_inj in H; lia|discriminate].
Qed.
Lemma spd_bytes b : is_bytes b -> is_bytes (std_percent_decode b).
Proof.
  unfold is_bytes. enough (G : forall n b, (length b <= n)%nat -> Forall (fun c => c < 256) b ->
    Forall (fun c => c < 256) (std_percent_decode b)) by (eapply G; reflexivity).
  clear b. induction n as [|n IH]; intros b Hl H.
  { destruct b; [constructor|cbn in Hl; lia]. }
  destruct b as [|c t]; [constructor|]. cbn [length] in Hl. inversion H as [|? ? Hc Ht]; subst.
  cbn [std_percent_decode]. destruct (c =? 37).
  2:{ constructor; [lia|apply IH; auto; lia]. }
  destruct t as [|x [|y t2]].
  - repeat constructor; lia.
  - constructor; [lia|]. apply IH; auto. lia.
  - destruct (std_hex x) as [h|] eqn:X; [destruct (std_hex y) as [l|] eqn:Y|].
    + apply std_hex_lt in X, Y. constructor; [lia|]. inversion Ht as [|? ? ? Ht1]; subst. inversion Ht1; subst.
      apply IH; auto. cbn [length] in Hl. lia.
    + constructor; [lia|]. apply IH; auto. lia.
    + constructor; [lia|]. apply IH; auto. lia.
Qed.
Lemma percent_decode_bytes b : is_bytes b -> is_bytes (percent_decode b).
Proof. rewrite percent_decode_spec. apply spd_bytes. Qed.
Lemma sp_norm_usv s : is_pystr s -> usv_ok (sp_norm s).
Proof. intros H. apply decode_usv, percent_decode_bytes, utf8_encode_bytes, H. Qed.
Lemma sp_usv_ok v : is_pystr (py_str v) -> usv_ok (sp_usv v).
Proof. intros H. apply decode_usv, utf8_encode_bytes, H. Qed.
Lemma replace_bytes b : is_bytes b -> is_bytes (replace_char 43 32 b).
Proof.
  unfold is_bytes, replace_char. intros H. apply Forall_map. eapply Forall_impl; [|exact H].
  cbv beta. intros a Ha. destruct (a =? 43); lia.
Qed.
Lemma split_bytes sep b : is_bytes b -> Forall is_bytes (split sep b).
Proof.
  unfold is_bytes. induction 1 as [|c t Hc Ht IH]; cbn [split]; [repeat constructor|].
  destruct (c =? sep); [repeat constructor; auto|].
  destruct (split sep t) as [|p ps]; [repeat constructor; auto|]. inversion IH; subst. repeat constructor; auto.
Qed.
Lemma split1_bytes sep b : is_bytes b -> is_bytes (fst (split1 sep b)) /\ is_bytes (snd (split1 sep b)).
Proof.
  unfold is_bytes. induction 1 as [|c t Hc Ht IH]; cbn [split1]; [split; constructor|].
  destruct (c =? sep); [split; cbn [fst snd]; auto; constructor|].
  destruct (split1 sep t) as [a b]. cbn [fst snd] in *. destruct IH. split; [constructor|]; auto.
Qed.
Lemma qsl_field_ok b : is_bytes b -> usv_ok (qsl_field b).
Proof. intros H. apply decode_usv, percent_decode_bytes, replace_bytes, H. Qed.
Lemma parse_qsl_ok b : is_bytes b -> usv_pairs (parse_qsl b).
Proof.
  intros H. unfold parse_qsl. pose proof (split_bytes 38 b H) as F. clear H. induction F as [|s t Hs Ht IH]; [constructor|].
  cbn [qsl_items]. destruct s as [|c s]; [exact IH|].
  pose proof (split1_bytes 61 _ Hs) as [A B]. destruct (split1 61 (c :: s)) as [n v]. cbn [fst snd] in A, B.
  constructor; [|exact IH]. cbn [fst snd]. split; now apply qsl_field_ok.
Qed.

(* ---------- reachable lists ---------- *)
Definition op_ok (op : sp_op) : Prop :=
  match op with
  | OpAppend n v | OpSet n v => is_pystr n /\ is_pystr (py_str v)
  | OpDelete n _ => is_pystr n
  | OpSort => True
  end.
Definition items_ok (l : list (pyval * pyval)) : Prop :=
  Forall (fun nv => is_pystr (py_str (fst nv)) /\ is_pystr (py_str (snd nv))) l.
(** Lists a URLSearchParams can hold: every constructor, [attach] to a record
    (whose query is any string) and every mutation. *)
Inductive reachable : pairs -> Prop :=
| reach_empty : reachable []
| reach_str s : is_pystr s -> reachable (sp_init_str s)
| reach_pairs l : items_ok l -> reachable (sp_init_pairs l)
| reach_dict l : items_ok l -> reachable (sp_init_dict l)
| reach_copy l : reachable l -> reachable (sp_copy l)
| reach_attach q : is_pystr q -> reachable (parse_qsl (utf8_encode q))
| reach_op l op : op_ok op -> reachable l -> reachable (sp_apply op l).

Lemma insert_perm x l : Permutation (x :: l) (insert_pair x l).
Proof.
  induction l as [|y t IH]; cbn [insert_pair]; [reflexivity|]. destruct (name_ltb y x); [|reflexivity].
  rewrite perm_swap. now apply perm_skip.
Qed.
Lemma sort_perm l : Permutation l (sp_sort l).
Proof.
  induction l as [|x t IH]; cbn [sp_sort]; [constructor|]. rewrite <- insert_perm. now apply perm_skip.
Qed.
Lemma usv_append l n v : usv_pairs l -> is_pystr n -> is_pystr v -> usv_pairs (l ++ [(sp_norm n, sp_norm v)]).
Proof.
  intros H A B. apply Forall_app. split; auto. repeat constructor; cbn [fst snd]; now apply sp_norm_usv.
Qed.
Lemma usv_filter f l : usv_pairs l -> usv_pairs (filter f l).
Proof. apply incl_Forall, incl_filter. Qed.
Lemma usv_set l n v : usv_pairs l -> usv_ok n -> usv_ok v -> usv_pairs (std_set l n v).
Proof.
  intros H A B. induction H as [|t r Ht Hr IH]; cbn [std_set]; [repeat constructor; apply A || apply B|].
  destruct (named n t); constructor; auto. unfold std_delete. now apply usv_filter.
Qed.
Lemma usv_apply op l : op_ok op -> usv_pairs l -> usv_pairs (sp_apply op l).
Proof.
  destruct op as [n v|n v|n v|]; cbn [op_ok sp_apply]; intros P H.
  - destruct P. now apply usv_append.
  - rewrite sp_delete_filter. now apply usv_filter.
  - rewrite sp_set_spec. destruct P. now apply usv_set; [|apply sp_norm_usv|apply sp_norm_usv].
  - unfold usv_pairs. eapply Permutation_Forall; [apply sort_perm|exact H].
Qed.
Lemma dict_set_ok k v d : usv_ok k -> usv_ok v -> usv_pairs d -> usv_pairs (dict_set k v d).
Proof.
  intros K V H. induction H as [|[a b] t [Ha Hb] Ht IH]; cbn [dict_set fst snd] in *; [repeat constructor; apply K || apply V|].
  destruct (str_eqb a k); constructor; cbn [fst snd]; auto.
Qed.
Lemma usv_pystr l : usv_pairs l -> pystr_pairs l.
Proof. apply Forall_impl. intros p [[A _] [B _]]. auto. Qed.
Lemma usv_id l : usv_pairs l -> Forall (fun p => surrogate_free (fst p) /\ surrogate_free (snd p)) l.
Proof. apply Forall_impl. intros p [[_ A] [_ B]]. auto. Qed.
Lemma init_str_ok s : is_pystr s -> usv_pairs (sp_init_str s).
Proof.
  intros H. apply parse_qsl_ok, utf8_encode_bytes. destruct (starts_with $"?" s); auto.
  unfold is_pystr in *. destruct s; cbn [skipn]; auto. now inversion H.
Qed.
Lemma urlencode_pystr l : pystr_pairs l -> is_pystr (urlencode l).
Proof. intros H. eapply Forall_impl; [|now apply urlencode_ascii]. cbv beta. intros; lia. Qed.
Lemma reachable_ok l : reachable l -> usv_pairs l.
Proof.
  induction 1 as [|s Hs|l Hl|l Hl|l Hr IH|q Hq|l op Ho Hr IH].
  - constructor.
  - now apply init_str_ok.
  - unfold sp_init_pairs. apply Forall_map. eapply Forall_impl; [|exact Hl]. cbv beta. intros a [A B]. cbn [fst snd].
    split; now apply sp_usv_ok.
  - unfold sp_init_dict. assert (G : usv_pairs []) by constructor. revert G. generalize (@nil (str * str)).
    induction Hl as [|[n v] t [Hn Hv] Ht IH]; intros d Hd; cbn [fold_left fst snd] in *; [auto|].
    apply IH. apply dict_set_ok; auto; now apply sp_usv_ok.
  - apply init_str_ok. now apply urlencode_pystr, usv_pystr.
  - now apply parse_qsl_ok, utf8_encode_bytes.
  - now apply usv_apply.
Qed.

(* ---------- copies (C62) ---------- *)
Lemma no_qmark l : pystr_pairs l -> starts_with $"?" (urlencode l) = false.
Proof.
  intros H. destruct (urlencode l) as [|c t] eqn:U; [reflexivity|].
  assert (C : c <> 63).
  { intros ->. destruct l as [|[n v] l]; [discriminate|]. inversion H as [|? ? [Hn Hv] Hl]; subst. cbn [fst snd] in *.
    pose proof (urlencode_cons n v l) as Q. rewrite U in Q. revert Q.
    pose proof (utf8_percent_encode_alphabet n SAFE_URLENCODED true Hn) as P.
    destruct (utf8_percent_encode n SAFE_URLENCODED true) as [|c r]; cbn [app]; intros Q; apply cons_eq in Q as [Q _]; [discriminate|].
    subst c. inversion P as [|? ? A _|]; subst. destruct A as [_ [A|[_ A]]]; [|discriminate].
    vm_compute in A. intuition discriminate. }
  change $"?" with [63]. cbn [starts_with]. destruct (63 =? c) eqn:Q; [|reflexivity]. apply N.eqb_eq in Q. congruence.
Qed.
Lemma copy_id l : usv_pairs l -> sp_copy l = l.
Proof.
  intros H. pose proof (usv_pystr l H) as P. unfold sp_copy, sp_init_str, sp_str. rewrite no_qmark by auto.
  rewrite utf8_encode_ascii by (now apply urlencode_ascii). apply parse_qsl_urlencode_id; auto. now apply usv_id.
Qed.
Lemma str_copy_id l : usv_pairs l -> sp_init_str (sp_str l) = l.
Proof. exact (copy_id l). Qed.
(** the parsed query of a list's own text *)
Lemma qsl_str_id l : usv_pairs l -> parse_qsl (utf8_encode (sp_str l)) = l.
Proof.
  intros H. pose proof (usv_pystr l H) as P. unfold sp_str.
  rewrite utf8_encode_ascii by (now apply urlencode_ascii). apply parse_qsl_urlencode_id; auto. now apply usv_id.
Qed.
Lemma sp_str_nil l : sp_str l = [] -> l = [].
Proof.
  destruct l as [|[n v] t]; auto. unfold sp_str. rewrite urlencode_cons. intros H. apply (f_equal (@length N)) in H.
  rewrite !app_length in H. cbn [length] in H. lia.
Qed.

(* ---------- order of code units ---------- *)
Lemma lor_add_small a b n : b < 2 ^ n -> N.lor (N.shiftl a n) b = N.shiftl a n + b.
Proof.
  intros H. symmetry. rewrite N.add_nocarry_lxor; [rewrite N.lxor_lor; auto|]; apply N.bits_inj; intros i;
    rewrite N.land_spec, N.bits_0; destruct (i <? n) eqn:Q.
  all: try (rewrite N.shiftl_spec_low by lia; reflexivity).
  all: replace (N.testbit b i) with false; [now rewrite andb_false_r|].
  all: symmetry; destruct b as [|p]; [apply N.bits_0|]; apply N.bits_above_log2;
    apply N.log2_lt_pow2; [lia|]; eapply N.lt_le_trans; [exact H|]; apply N.pow_le_mono_r; lia.
Qed.
Lemma utf16_std s : is_pystr s -> to_utf16 s = std_utf16 s.
Proof.
  induction 1 as [|c t Hc Ht IH]; [reflexivity|]. unfold to_utf16, std_utf16 in *. cbn [flat_map]. rewrite IH. f_equal.
  unfold utf16_units. destruct (c <? 65536) eqn:Q; [reflexivity|].
  set (k := c - 65536). assert (K : k < 1048576) by (unfold k; lia). clearbody k.
  rewrite (shiftr_div k 10). change 1023 with (N.ones 10). rewrite N.land_ones. change (2 ^ 10) with 1024.
  change 55296 with (N.shiftl 54 10). change 56320 with (N.shiftl 55 10).
  rewrite !lor_add_small; [reflexivity| |]; change (2 ^ 10) with 1024; lia.
Qed.

Lemma units_ltb_spec a b : units_ltb a b = true <-> code_unit_less a b.
Proof.
  revert b; induction a as [|x a IH]; intros b.
  - destruct b as [|y b]; cbn [units_ltb]; split; try discriminate; auto.
    + intros [(x & t & H)|(p & x & y & a' & b' & H & _)]; [destruct t|destruct p]; discriminate.
    + intros _. left. exists y, b. reflexivity.
  - destruct b as [|y b]; cbn [units_ltb].
    + split; [discriminate|]. intros [(z & t & H)|(p & z & y & a' & b' & _ & H & _)]; [discriminate|destruct p; discriminate].
    + rewrite orb_true_iff, andb_true_iff, IH. split.
      * intros [H|[H1 [(z & t & ->)|(p & z & w & a' & b' & -> & -> & L)]]].
        -- right. exists [], x, y, a, b. repeat split. lia.
        -- left. apply N.eqb_eq in H1. subst. now exists z, t.
        -- right. apply N.eqb_eq in H1. subst. now exists (y :: p), z, w, a', b'.
      * intros [(z & t & H)|(p & z & w & a' & b' & H1 & H2 & L)].
        -- cbn [app] in H. apply cons_eq in H as [-> ->]. right. split; [apply N.eqb_refl|]. left. now exists z, t.
        -- destruct p as [|q p]; cbn [app] in H1, H2; apply cons_eq in H1 as [-> ->]; apply cons_eq in H2 as [-> ->].
           ++ left. lia.
           ++ right. split; [apply N.eqb_refl|]. right. now exists p, z, w, a', b'.
Qed.
Lemma units_irrefl a : units_ltb a a = false.
Proof. induction a as [|x a IH]; [reflexivity|]. cbn [units_ltb]. rewrite IH. lia. Qed.
Lemma units_antisym a b : units_ltb a b = false -> units_ltb b a = false -> a = b.
Proof.
  revert b; induction a as [|x a IH]; intros [|y b]; cbn [units_ltb]; try discriminate; auto. intros H1 H2.
  assert (x = y) by lia. subst. rewrite N.eqb_refl, N.ltb_irrefl in *. cbn [orb andb] in *. f_equal. now apply IH.
Qed.
Lemma units_trans a b c : units_ltb b a = false -> units_ltb c b = false -> units_ltb c a = false.
Proof.
  revert b c; induction a as [|x a IH]; intros [|y b] [|z c]; cbn [units_ltb]; try discriminate; auto. intros H1 H2.
  destruct (x =? z) eqn:XZ.
  - assert (y = x) by lia. assert (y = z) by lia. subst. rewrite !N.eqb_refl, !N.ltb_irrefl in *. cbn [orb andb] in *. now apply (IH b c).
  - lia.
Qed.
Lemma units_total a b : units_ltb a b = true -> units_ltb b a = false.
Proof.
  intros H. destruct (units_ltb b a) eqn:Q; auto. revert b H Q. induction a as [|x a IH]; intros [|y b]; cbn [units_ltb]; try discriminate.
  intros H1 H2. assert (x = y) by lia. subst. rewrite N.eqb_refl, N.ltb_irrefl in *. cbn [orb andb] in *. now apply (IH b).
Qed.

(* ---------- sort (C61) ---------- *)
Definition tle (a b : str * str) : Prop := name_ltb b a = false.
Lemma insert_sorted x l : StronglySorted tle l -> StronglySorted tle (insert_pair x l).
Proof.
  induction 1 as [|y t Ht IH F]; cbn [insert_pair]; [repeat constructor|]. destruct (name_ltb y x) eqn:L.
  - constructor; auto. eapply Permutation_Forall; [apply insert_perm|]. constructor; auto.
    unfold tle, name_ltb in *. now apply units_total.
  - constructor; [now constructor|]. constructor; [exact L|]. eapply Forall_impl; [|exact F]. cbv beta.
    unfold tle, name_ltb in *. intros a Ha. eapply units_trans; eauto.
Qed.
Lemma sort_sorted l : StronglySorted tle (sp_sort l).
Proof. induction l as [|x t IH]; cbn [sp_sort]; [constructor|]. now apply insert_sorted. Qed.
Definition same_key (n : str) (t : str * str) : bool := str_eqb (to_utf16 (fst t)) n.
Lemma insert_filter n x l : filter (same_key n) (insert_pair x l) = filter (same_key n) (x :: l).
Proof.
  induction l as [|y t IH]; cbn [insert_pair]; [reflexivity|]. destruct (name_ltb y x) eqn:L; [|reflexivity].
  cbn [filter] in *. rewrite IH. unfold same_key.
  destruct (str_eqb (to_utf16 (fst y)) n) eqn:Y; destruct (str_eqb (to_utf16 (fst x)) n) eqn:X; auto.
  apply str_eqb_eq in X, Y. unfold name_ltb in L. rewrite X, Y, units_irrefl in L. discriminate.
Qed.
Lemma sort_filter n l : filter (same_key n) (sp_sort l) = filter (same_key n) l.
Proof.
  induction l as [|x t IH]; [reflexivity|]. cbn [sp_sort]. rewrite insert_filter. cbn [filter]. now rewrite IH.
Qed.
Definition pystr_names (l : list tuple) : Prop := Forall (fun t => is_pystr (fst t)) l.
Lemma sorted_unique l1 l2 : StronglySorted tle l1 -> StronglySorted tle l2 -> Permutation l1 l2 ->
  pystr_names l1 ->
  (forall n, is_pystr n -> filter (same_key (to_utf16 n)) l1 = filter (same_key (to_utf16 n)) l2) -> l1 = l2.
Proof.
  intros S1. revert l2. induction S1 as [|x t1 S1 IH F1]; intros l2 S2 P Q F.
  - apply Permutation_nil in P. now subst.
  - destruct S2 as [|y t2 S2 F2].
    { symmetry in P. now apply Permutation_nil in P. }
    assert (K : to_utf16 (fst x) = to_utf16 (fst y)).
    { assert (X : x = y \/ tle y x).
      { assert (I : In x (y :: t2)) by (rewrite <- P; now left). destruct I as [->|I]; auto.
        right. rewrite Forall_forall in F2. auto. }
      assert (Y : x = y \/ tle x y).
      { assert (I : In y (x :: t1)) by (rewrite P; now left). destruct I as [->|I]; auto.
        right. rewrite Forall_forall in F1. auto. }
      destruct X as [->|X]; auto. destruct Y as [->|Y]; auto. unfold tle, name_ltb in X, Y. now apply units_antisym. }
    assert (x = y).
    { inversion Q as [|? ? Qx Qt]; subst. specialize (F (fst x) Qx). cbn [filter] in F. unfold same_key in F. rewrite <- K, str_eqb_refl in F. now apply cons_eq in F. }
    subst y. f_equal. apply IH; auto.
    + now apply Permutation_cons_inv in P.
    + now inversion Q.
    + intros n Hn. specialize (F n Hn). cbn [filter] in F. destruct (same_key (to_utf16 n) x); auto. now apply cons_eq in F.
Qed.

Lemma same_units_key n t : is_pystr (fst t) -> same_units n t = same_key (std_utf16 n) t.
Proof.
  intros Ht. unfold same_units, same_key. rewrite <- (utf16_std (fst t)) by auto.
  destruct (list_eq_dec N.eq_dec (to_utf16 (fst t)) (std_utf16 n)) as [->|D].
  - symmetry. apply str_eqb_refl.
  - symmetry. apply not_true_is_false. intros H. apply D. now apply str_eqb_eq in H.
Qed.
Lemma filter_ext_Forall {A} (f g : A -> bool) l : Forall (fun x => f x = g x) l -> filter f l = filter g l.
Proof. induction 1 as [|x t Hx Ht IH]; [reflexivity|]. cbn [filter]. now rewrite Hx, IH. Qed.
Lemma units_filter n l : pystr_names l -> filter (same_units n) l = filter (same_key (std_utf16 n)) l.
Proof. intros H. apply filter_ext_Forall. eapply Forall_impl; [|exact H]. intros a Ha. now apply same_units_key. Qed.
Lemma tle_name_le a b : is_pystr (fst a) -> is_pystr (fst b) -> tle a b <-> name_le a b.
Proof.
  intros A B. unfold tle, name_le, name_ltb. rewrite <- !utf16_std, <- units_ltb_spec by auto.
  destruct (units_ltb _ _); split; intros H; congruence.
Qed.
Lemma SS_impl l : pystr_names l -> StronglySorted tle l <-> StronglySorted name_le l.
Proof.
  intros H. induction H as [|x t Hx Ht IH]; [split; constructor|].
  split; intros S1; inversion S1 as [|? ? S2 F]; subst; constructor; try (now apply IH).
  all: rewrite Forall_forall in *; intros y Hy; apply tle_name_le; auto.
Qed.
Lemma sort_spec l : pystr_names l -> stable_sort_of l (sp_sort l).
Proof.
  intros H. assert (H' : pystr_names (sp_sort l)) by (eapply Permutation_Forall; [apply sort_perm|exact H]).
  split; [apply sort_perm|split].
  - apply SS_impl; auto. apply sort_sorted.
  - intros n. rewrite !units_filter by auto. apply sort_filter.
Qed.
Lemma sort_unique l l' : pystr_names l -> stable_sort_of l l' -> l' = sp_sort l.
Proof.
  intros H (P & S1 & F). assert (H' : pystr_names l') by (eapply Permutation_Forall; eauto).
  apply sorted_unique; [now apply SS_impl|apply sort_sorted| | |].
  - rewrite <- P. apply sort_perm.
  - auto.
  - intros n Hn. rewrite sort_filter. rewrite utf16_std by auto. rewrite <- !units_filter by auto. apply F.
Qed.
Lemma sort_idem l : pystr_names l -> sp_sort (sp_sort l) = sp_sort l.
Proof.
  intros H. assert (H' : pystr_names (sp_sort l)) by (eapply Permutation_Forall; [apply sort_perm|exact H]).
  symmetry. apply sort_unique; auto. split; [reflexivity|split; auto]. apply SS_impl; auto. apply sort_sorted.
Qed.

(* ---------- the statements of C59, C60, C63, C64 ---------- *)
Lemma ops_unescape l n : is_pystr n ->
  (forall v, is_pystr (py_str v) -> sp_append l n v = std_append l (std_unescape n) (std_unescape (py_str v))) /\
  (forall v, is_pystr (py_str v) -> sp_set l n v = std_set l (std_unescape n) (std_unescape (py_str v))) /\
  sp_get l n = std_get l (std_unescape n) /\
  sp_get_all l n = std_get_all l (std_unescape n) /\
  sp_contains l n = std_has l (std_unescape n) None /\
  sp_has l n None = std_has l (std_unescape n) None /\
  sp_delete l n None = std_delete l (std_unescape n) None /\
  (forall s, sp_has l n (Some (PVStr s)) = std_has l (std_unescape n) (Some s)) /\
  (forall s, sp_delete l n (Some (PVStr s)) = std_delete l (std_unescape n) (Some s)) /\
  (forall s, sp_has l n (Some (PVNum s)) = false) /\
  (forall s, sp_delete l n (Some (PVNum s)) = l).
Proof.
  intros H. rewrite <- (sp_norm_spec n) by auto.
  split. { intros v Hv. unfold sp_append, std_append. now rewrite <- sp_norm_spec by auto. }
  split. { intros v Hv. rewrite sp_set_spec. now rewrite <- (sp_norm_spec (py_str v)) by auto. }
  split. { apply get_loop_spec. }
  split. { unfold sp_get_all, std_get_all. f_equal. apply filter_ext. intros t. now rewrite named_eqb. }
  split. { unfold sp_contains, sp_get. rewrite get_loop_spec. unfold std_get, std_has.
           induction l as [|t r IH]; [reflexivity|]. cbn [find existsb]. destruct (named (sp_norm n) t); auto. }
  split. { apply has_loop_none. }
  split. { apply sp_delete_none. }
  split. { intros s. apply has_loop_str. }
  split. { intros s. apply sp_delete_str. }
  split. { intros s. apply has_loop_num. }
  intros s. apply sp_delete_num.
Qed.
Lemma svs_free s : surrogate_free s -> scalar_value_string s = s.
Proof. intros H. apply svs_id. now apply surrogate_free_iff. Qed.
Lemma ops_conform l n : is_pystr n -> has_escape n = false ->
  let n' := scalar_value_string n in
  (forall v, is_pystr (py_str v) -> has_escape (py_str v) = false ->
     sp_append l n v = std_append l n' (scalar_value_string (py_str v)) /\
     sp_set l n v = std_set l n' (scalar_value_string (py_str v))) /\
  sp_get l n = std_get l n' /\
  sp_get_all l n = std_get_all l n' /\
  sp_has l n None = std_has l n' None /\
  sp_delete l n None = std_delete l n' None /\
  (forall s, surrogate_free s ->
     sp_has l n (Some (PVStr s)) = std_has l n' (Some (scalar_value_string s)) /\
     sp_delete l n (Some (PVStr s)) = std_delete l n' (Some (scalar_value_string s))).
Proof.
  intros H1 H2 n'. destruct (ops_unescape l n H1) as (A & B & C & D & _ & F & G & I & J & _).
  rewrite (no_escape_unescape n) in * by auto. fold n' in A, B, C, D, F, G, I, J.
  repeat match goal with |- _ /\ _ => split end; auto.
  - intros v Hv Ev. rewrite A, B by auto. now rewrite no_escape_unescape.
  - intros s Hs. rewrite svs_free by auto. auto.
Qed.
Lemma ops_differ :
  (exists l n, is_pystr n /\ sp_get l n <> std_get l (scalar_value_string n)) /\
  (exists l n v, is_pystr n /\ is_pystr v /\
     sp_append l n (PVStr v) <> std_append l (scalar_value_string n) (scalar_value_string v)) /\
  (exists l n v, is_pystr n /\ sp_has l n (Some (PVNum v)) <> std_has l (scalar_value_string n) (Some v)).
Proof.
  assert (P : is_pystr $"%41") by (apply Forall_forall; intros x Hx; vm_compute in Hx; intuition (subst; lia)).
  assert (P1 : is_pystr $"n") by (apply Forall_forall; intros x Hx; vm_compute in Hx; intuition (subst; lia)).
  split; [|split].
  - exists [($"%41", $"x")], $"%41". split; auto. vm_compute. discriminate.
  - exists [], $"n", $"%41". split; [|split]; auto. vm_compute. discriminate.
  - exists [($"n", $"1")], $"n", $"1". split; auto. vm_compute. discriminate.
Qed.

Lemma set_exactly_one l n v : is_pystr n -> is_pystr (py_str v) ->
  let n' := std_unescape n in let v' := std_unescape (py_str v) in
  filter (named n') (sp_set l n v) = [(n', v')] /\
  filter (fun t => negb (named n' t)) (sp_set l n v) = filter (fun t => negb (named n' t)) l /\
  (existsb (named n') l = false -> sp_set l n v = l ++ [(n', v')]) /\
  (forall p x r, l = p ++ x :: r -> existsb (named n') p = false -> named n' x = true ->
     firstn (length p) (sp_set l n v) = p /\ nth_error (sp_set l n v) (length p) = Some (n', v')).
Proof.
  intros Hn Hv n' v'. destruct (ops_unescape l n Hn) as (_ & B & _). rewrite B by auto. fold n' v'. clear B.
  assert (NN : named n' (n', v') = true) by (rewrite named_eqb; apply str_eqb_refl).
  assert (Z : forall r, filter (named n') (filter (fun t => negb (named n' t)) r) = []).
  { induction r as [|t r IH]; [reflexivity|]. cbn [filter]. destruct (named n' t) eqn:Q; cbn [negb]; auto.
    cbn [filter]. now rewrite Q. }
  assert (ZZ : forall r, filter (fun t => negb (named n' t)) (filter (fun t => negb (named n' t)) r)
                = filter (fun t => negb (named n' t)) r).
  { induction r as [|t r IH]; [reflexivity|]. cbn [filter]. destruct (named n' t) eqn:Q; cbn [negb]; auto.
    cbn [filter]. rewrite Q. cbn [negb]. now rewrite IH. }
  assert (FE : forall p, existsb (named n') p = false -> Forall (fun t => str_eqb (fst t) n' = false) p).
  { induction p as [|t p IH]; intros H; constructor; cbn [existsb] in H; apply orb_false_iff in H as [H1 H2].
    - now rewrite <- named_eqb.
    - auto. }
  split; [|split; [|split]].
  - induction l as [|t r IH]; cbn [std_set filter]; [now rewrite NN|].
    destruct (named n' t) eqn:Q; cbn [filter].
    + rewrite NN. unfold std_delete. now rewrite Z.
    + rewrite Q. apply IH.
  - induction l as [|t r IH]; cbn [std_set filter]; [now rewrite NN|].
    destruct (named n' t) eqn:Q; cbn [filter negb].
    + rewrite NN. cbn [negb]. unfold std_delete. apply ZZ.
    + rewrite Q. cbn [negb]. f_equal. apply IH.
  - intros H. apply std_set_none. auto.
  - intros p x r -> Hp Hx. rewrite std_set_some; auto; [|now rewrite <- named_eqb]. split.
    + rewrite firstn_app, firstn_all, Nat.sub_diag. cbn [firstn]. apply app_nil_r.
    + rewrite nth_error_app2, Nat.sub_diag by lia. reflexivity.
Qed.

Lemma has_after_append l n v : is_pystr n -> is_pystr (py_str v) ->
  sp_has (sp_append l n v) n (Some v)
  = sp_has l n (Some v) || match v with PVStr s => if list_eq_dec N.eq_dec (std_unescape s) s then true else false
                                      | PVNum _ => false end.
Proof.
  intros Hn Hv. destruct (ops_unescape l n Hn) as (A & _ & _ & _ & _ & _ & _ & I & _ & J & _).
  destruct (ops_unescape (sp_append l n v) n Hn) as (_ & _ & _ & _ & _ & _ & _ & I' & _ & J' & _).
  destruct v as [s|s]; cbn [py_str] in *.
  - rewrite I', I, A by auto. cbn [py_str]. unfold std_append, std_has. rewrite existsb_app. cbn [existsb].
    rewrite orb_false_r. f_equal. unfold named, valued. cbn [fst snd].
    destruct (list_eq_dec N.eq_dec (std_unescape n) (std_unescape n)); [reflexivity|contradiction].
  - now rewrite J', J.
Qed.
Lemma has_after_append_ok l n s : is_pystr n -> is_pystr s -> surrogate_free s -> has_escape s = false ->
  sp_has (sp_append l n (PVStr s)) n (Some (PVStr s)) = true.
Proof.
  intros Hn Hs F X. rewrite has_after_append by auto. rewrite no_escape_unescape, svs_free by auto.
  destruct (list_eq_dec N.eq_dec s s); [apply orb_true_r|contradiction].
Qed.
Lemma has_after_append_bad :
  (exists n v, is_pystr n /\ is_pystr v /\ sp_has (sp_append [] n (PVNum v)) n (Some (PVNum v)) = false) /\
  (exists n v, is_pystr n /\ is_pystr v /\ surrogate_free v /\
     sp_has (sp_append [] n (PVStr v)) n (Some (PVStr v)) = false).
Proof.
  assert (P : is_pystr $"%41") by (apply Forall_forall; intros x Hx; vm_compute in Hx; intuition (subst; lia)).
  assert (P1 : is_pystr $"1") by (apply Forall_forall; intros x Hx; vm_compute in Hx; intuition (subst; lia)).
  split.
  - exists $"1", $"1". repeat split; auto.
  - exists $"1", $"%41". repeat split; auto. apply Forall_forall. intros x Hx. vm_compute in Hx. unfold surrogate. intuition (subst; lia).
Qed.
(** which names can be looked up *)
Lemma lookup_iff n : is_pystr n ->
  (std_unescape n = n <->
   forall l, (forall v, In (n, v) l -> sp_contains l n = true) /\ sp_get l n = std_get l n).
Proof.
  intros Hn. split.
  - intros H l. destruct (ops_unescape l n Hn) as (_ & _ & C & _ & D & _). rewrite H in C, D. split; auto.
    intros v Hv. rewrite D. unfold std_has. apply existsb_exists. exists (n, v). split; auto.
    unfold named. cbn [fst]. destruct (list_eq_dec N.eq_dec n n); auto.
  - intros H. destruct (H [(n, [])]) as [G _]. specialize (G [] (or_introl eq_refl)).
    destruct (ops_unescape [(n, [])] n Hn) as (_ & _ & _ & _ & D & _). rewrite D in G. unfold std_has, named in G. cbn [existsb fst] in G.
    destruct (list_eq_dec N.eq_dec n (std_unescape n)); [congruence|discriminate].
Qed.
Lemma lookup_ok l n v : usv_ok n -> has_escape n = false -> In (n, v) l ->
  sp_contains l n = true /\ sp_has l n None = true /\ sp_get l n = std_get l n /\ sp_get l n <> None.
Proof.
  intros [Hn F] X I. assert (U : std_unescape n = n) by (rewrite no_escape_unescape, svs_free; auto).
  destruct (proj1 (lookup_iff n Hn) U l) as [A B]. specialize (A v I).
  destruct (ops_unescape l n Hn) as (_ & _ & _ & _ & D & E & _). rewrite E, <- D. repeat split; auto.
  unfold sp_contains in A. destruct (sp_get l n); [discriminate|discriminate].
Qed.
Lemma lookup_bad : exists l n v, reachable l /\ In (n, v) l /\ sp_contains l n = false /\ sp_get l n = None.
Proof.
  exists (sp_init_str $"%2541=x"), $"%41", $"x". split.
  { apply reach_str. apply Forall_forall. intros x Hx. vm_compute in Hx. intuition (subst; lia). }
  vm_compute. auto.
Qed.

(* ---------- the dict constructor ---------- *)
Lemma dict_set_get k v d n : std_get (dict_set k v d) n = if list_eq_dec N.eq_dec k n then Some v else std_get d n.
Proof.
  unfold std_get. induction d as [|[a b] t IH]; cbn [dict_set find].
  - unfold named. cbn [fst]. now destruct (list_eq_dec N.eq_dec k n).
  - destruct (str_eqb a k) eqn:Q; cbn [find]; unfold named in *; cbn [fst] in *.
    + apply str_eqb_eq in Q. subst. now destruct (list_eq_dec N.eq_dec k n).
    + destruct (list_eq_dec N.eq_dec a n) as [->|D].
      * destruct (list_eq_dec N.eq_dec k n) as [->|]; [now rewrite str_eqb_refl in Q|reflexivity].
      * exact IH.
Qed.
Lemma dict_set_names k v d : map fst (dict_set k v d) =
  map fst d ++ (if in_dec (list_eq_dec N.eq_dec) k (map fst d) then [] else [k]).
Proof.
  induction d as [|[a b] t IH]; [reflexivity|]. cbn [dict_set map fst]. destruct (str_eqb a k) eqn:Q.
  - apply str_eqb_eq in Q. subst. cbn [map fst]. destruct (in_dec _ k (k :: map fst t)) as [|N1].
    + now rewrite app_nil_r.
    + exfalso. apply N1. now left.
  - cbn [map fst]. rewrite IH. cbn [app]. f_equal.
    destruct (in_dec _ k (map fst t)) as [I|I], (in_dec _ k (a :: map fst t)) as [J|J]; auto.
    + exfalso. apply J. now right.
    + destruct J as [->|J]; [now rewrite str_eqb_refl in Q|contradiction].
Qed.
(** names in order of first occurrence *)
Definition first_names (l : list (list N)) : list (list N) :=
  fold_left (fun acc n => if in_dec (list_eq_dec N.eq_dec) n acc then acc else acc ++ [n]) l [].
Lemma init_dict_spec items :
  Forall (fun nv => is_pystr (py_str (fst nv)) /\ is_pystr (py_str (snd nv))) items ->
  let conv := map (fun nv => (scalar_value_string (py_str (fst nv)), scalar_value_string (py_str (snd nv)))) items in
  map fst (sp_init_dict items) = first_names (map fst conv) /\
  NoDup (map fst (sp_init_dict items)) /\
  (forall n, std_get (sp_init_dict items) n = std_get (rev conv) n).
Proof.
  intros H conv.
  assert (E : forall d, fold_left (fun d nv => dict_set (sp_usv (fst nv)) (sp_usv (snd nv)) d) items d
              = fold_left (fun d nv => dict_set (fst nv) (snd nv) d) conv d).
  { unfold conv. induction H as [|[n v] t [Hn Hv] Ht IH]; intros d; [reflexivity|]. cbn [fold_left map fst snd] in *.
    rewrite IH. unfold sp_usv. now rewrite !utf8_round_trip by auto. }
  unfold sp_init_dict. rewrite E. clear E. clearbody conv. unfold first_names. split; [|split].
  - assert (G : forall d, map fst (fold_left (fun d nv => dict_set (fst nv) (snd nv) d) conv d)
      = fold_left (fun acc n => if in_dec (list_eq_dec N.eq_dec) n acc then acc else acc ++ [n]) (map fst conv) (map fst d)).
    { induction conv as [|[n v] t IH]; intros d; [reflexivity|]. cbn [fold_left map fst snd]. rewrite IH.
      f_equal. rewrite dict_set_names. destruct (in_dec _ n (map fst d)); [apply app_nil_r|reflexivity]. }
    apply (G []).
  - assert (G : forall d, NoDup (map fst d) -> NoDup (map fst (fold_left (fun d nv => dict_set (fst nv) (snd nv) d) conv d))).
    { induction conv as [|[n v] t IH]; intros d D; [exact D|]. cbn [fold_left fst snd]. apply IH.
      rewrite dict_set_names. destruct (in_dec _ n (map fst d)) as [|I]; [now rewrite app_nil_r|].
      apply NoDup_rev in D. rewrite <- (rev_involutive (map fst d ++ [n])). apply NoDup_rev. rewrite rev_app_distr.
      cbn [rev app]. constructor; auto. now rewrite <- in_rev. }
    apply G. constructor.
  - intros n. induction conv as [|[k v] t IH] using rev_ind; [reflexivity|].
    rewrite fold_left_app, rev_app_distr. cbn [fold_left rev app fst snd]. rewrite dict_set_get.
    unfold std_get at 2. cbn [find]. unfold named at 1. cbn [fst]. destruct (list_eq_dec N.eq_dec k n); [reflexivity|exact IH].
Qed.

(* ---------- reachable lists: statements and examples ---------- *)
Lemma copies :
  (forall l, reachable l -> sp_init_str (sp_str l) = l) /\
  (forall l, reachable l -> sp_copy l = l) /\
  (forall l, reachable l -> Forall (fun p => is_pystr (fst p) /\ surrogate_free (fst p) /\
                                             is_pystr (snd p) /\ surrogate_free (snd p)) l).
Proof.
  split; [|split]; intros l H; apply reachable_ok in H.
  - now apply str_copy_id.
  - now apply copy_id.
  - eapply Forall_impl; [|exact H]. intros p [[A B] [C D]]. auto.
Qed.
Lemma lookup_reachable l n v : reachable l -> has_escape n = false -> In (n, v) l ->
  sp_contains l n = true /\ sp_has l n None = true /\ sp_get l n = std_get l n /\ sp_get l n <> None.
Proof.
  intros R X I. apply lookup_ok with (v := v); auto. apply reachable_ok in R. unfold usv_pairs in R.
  rewrite Forall_forall in R. apply (R _ I).
Qed.
Ltac pystr_tac := apply Forall_forall; intros ? Hx; vm_compute in Hx; intuition (subst; lia).
Lemma case_reachable : reachable (sp_append
  (sp_init_pairs [(PVStr $"?", PVStr $"&=+%"); (PVStr [55357; 56832], PVNum $"1.5")]) [] (PVStr [56832])).
Proof.
  apply (reach_op _ (OpAppend [] (PVStr [56832]))).
  - split; pystr_tac.
  - apply reach_pairs. unfold items_ok; repeat (apply Forall_cons; [split; cbn [fst snd py_str]; pystr_tac|]); constructor.
Qed.
Lemma case64_reachable : reachable (sp_init_str $"?x=1&a%20%25=2&a+%25=3").
Proof. apply reach_str. pystr_tac. Qed.
