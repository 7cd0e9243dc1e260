(** Proofs for slices of a URLSearchParams (C130). *)
From Coq Require Import ZArith Bool Arith Lia ZifyBool ZifyNat Sorting.Sorted List.
From Verif Require Import PyStr SearchParams Slices SpecSlices.
Import ListNotations.
Open Scope Z_scope.

Fixpoint grid (cur step : Z) (n : nat) : list Z :=
  match n with O => [] | S n => cur :: grid (cur + step) step n end.
Lemma grid_in : forall n cur step x, In x (grid cur step n) <-> exists k, 0 <= k < Z.of_nat n /\ x = cur + k * step.
Proof.
  induction n as [|n IH]; intros cur step x; cbn [grid In].
  - split; [easy|intros [k [K _]]; lia].
  - rewrite IH. split.
    + intros [<-|[k [K ->]]]; [exists 0; lia|exists (k + 1); lia].
    + intros [k [K ->]]. destruct (Z.eq_dec k 0) as [->|Q]; [left; lia|right; exists (k - 1); lia].
Qed.
Lemma grid_up : forall n cur step, 0 < step -> StronglySorted Z.lt (grid cur step n).
Proof.
  induction n as [|n IH]; intros cur step P; cbn [grid]; constructor; [now apply IH|].
  apply Forall_forall. intros x X. apply grid_in in X. destruct X as [k [K ->]]. nia.
Qed.
Lemma grid_down : forall n cur step, step < 0 -> StronglySorted (fun a b => b < a) (grid cur step n).
Proof.
  induction n as [|n IH]; intros cur step P; cbn [grid]; constructor; [now apply IH|].
  apply Forall_forall. intros x X. apply grid_in in X. destruct X as [k [K ->]]. nia.
Qed.
Lemma sorted_same : forall (R : Z -> Z -> Prop), (forall a, ~ R a a) -> (forall a b, R a b -> ~ R b a) ->
  forall l l', StronglySorted R l -> StronglySorted R l' -> (forall x, In x l <-> In x l') -> l = l'.
Proof.
  intros R NR AR. induction l as [|a l IH]; intros [|b l'] A B M; [easy| | |].
  - exfalso. apply (proj2 (M b)). now left.
  - exfalso. apply (proj1 (M a)). now left.
  - inversion_clear A as [|? ? A1 A2]. inversion_clear B as [|? ? B1 B2].
    rewrite Forall_forall in A2, B2.
    assert (E : a = b).
    { destruct (proj1 (M a) (or_introl eq_refl)) as [<-|X]; [easy|].
      destruct (proj2 (M b) (or_introl eq_refl)) as [<-|Y]; [easy|].
      exfalso. exact (AR a b (A2 b Y) (B2 a X)). }
    subst b. f_equal. apply IH; [easy|easy|]. intros x. split; intros X.
    + destruct (proj1 (M x) (or_intror X)) as [<-|Y]; [|easy]. exfalso. exact (NR a (A2 a X)).
    + destruct (proj2 (M x) (or_intror X)) as [<-|Y]; [|easy]. exfalso. exact (NR a (B2 a X)).
Qed.
Lemma filter_sorted : forall (R : Z -> Z -> Prop) f l, StronglySorted R l -> StronglySorted R (filter f l).
Proof.
  induction l as [|a l IH]; intros S; cbn [filter]; [easy|].
  inversion_clear S as [|? ? A B]. destruct (f a); [|now apply IH].
  constructor; [now apply IH|]. rewrite Forall_forall in *. intros x X. apply filter_In in X. now apply B.
Qed.
Lemma sorted_end : forall (R : Z -> Z -> Prop) l a, StronglySorted R l -> Forall (fun x => R x a) l -> StronglySorted R (l ++ [a]).
Proof.
  induction l as [|b l IH]; intros a S F; cbn [app].
  - constructor; constructor.
  - inversion_clear S as [|? ? A B]. inversion_clear F. constructor; [now apply IH|].
    apply Forall_app. split; [easy|]. now constructor.
Qed.
Lemma rev_sorted : forall l, StronglySorted Z.lt l -> StronglySorted (fun a b => b < a) (rev l).
Proof.
  induction l as [|a l IH]; intros S; cbn [rev]; [constructor|].
  inversion_clear S as [|? ? A B]. apply sorted_end; [now apply IH|].
  rewrite Forall_forall in *. intros x X. apply in_rev in X. now apply B.
Qed.
Lemma positions_in : forall n x, In x (positions n) <-> 0 <= x < Z.of_nat n.
Proof.
  intros n x. unfold positions. rewrite in_map_iff. split.
  - intros [k [<- K]]. apply in_seq in K. lia.
  - intros X. exists (Z.to_nat x). split; [lia|]. apply in_seq. lia.
Qed.
Lemma positions_up : forall n, StronglySorted Z.lt (positions n).
Proof.
  intros n. unfold positions. generalize 0%nat. induction n as [|n IH]; intros k; cbn [seq map]; constructor; [apply IH|].
  apply Forall_forall. intros x X. apply in_map_iff in X. destruct X as [y [<- Y]]. apply in_seq in Y. lia.
Qed.

Lemma take_grid : forall (l : pairs) n cur step,
  (forall x, In x (grid cur step n) -> 0 <= x < Z.of_nat (length l)) ->
  take_items l cur step n = flat_map (fun x => match nth_error l (Z.to_nat x) with Some a => [a] | None => [] end) (grid cur step n).
Proof.
  intros l. induction n as [|n IH]; intros cur step H; cbn [take_items grid flat_map]; [easy|].
  pose proof (H cur (or_introl eq_refl)) as C.
  destruct (nth_error l (Z.to_nat cur)) as [p|] eqn:Q.
  - cbn [app]. f_equal. apply IH. intros x X. apply H. now right.
  - apply nth_error_None in Q. lia.
Qed.

Lemma steps : forall d k step, 0 < step -> 0 < d -> (0 <= k < (d - 1) / step + 1 <-> 0 <= k /\ k * step < d).
Proof.
  intros d k step P D. pose proof (Z.div_mod (d - 1) step ltac:(lia)) as E.
  pose proof (Z.mod_pos_bound (d - 1) step P) as M. split; intros [A B]; split; nia.
Qed.
Lemma on_grid : forall y step, 0 < step -> 0 <= y -> (y mod step = 0 <-> exists k, 0 <= k /\ y = k * step).
Proof.
  intros y step P Y. split.
  - intros M. exists (y / step). pose proof (Z.div_mod y step ltac:(lia)) as E. rewrite M in E.
    split; [apply Z.div_pos; lia|nia].
  - intros [k [_ ->]]. apply Z.mod_mul. lia.
Qed.

Definition a_start (len step : Z) (start : option Z) : Z :=
  match start with Some i => adjust len step i | None => if step <? 0 then len - 1 else 0 end.
Definition a_stop (len step : Z) (stop : option Z) : Z :=
  match stop with Some i => adjust len step i | None => if step <? 0 then -1 else len end.

Lemma selected_up : forall len start stop step x, 0 < step -> 0 <= len ->
  let s := a_start len step start in let t := a_stop len step stop in
  (0 <= x < len /\ selected len start stop step x = true) <->
  (0 <= s /\ t <= len /\ s <= x < t /\ (x - s) mod step = 0).
Proof.
  intros len start stop step x P L s t. unfold selected. replace (0 <? step) with true by lia. cbv zeta.
  rewrite !andb_true_iff, Z.eqb_eq, !Z.leb_le.
  subst s t. unfold a_start, a_stop, adjust, from_end. replace (step <? 0) with false by lia.
  destruct start as [i|], stop as [j|]; cbn [andb]; rewrite ?Z.ltb_lt;
    repeat match goal with |- context [if ?b then _ else _] => destruct b eqn:? end;
    repeat match goal with |- context [Z.max 0 ?b] =>
      first [replace (Z.max 0 b) with 0 by lia | replace (Z.max 0 b) with b by lia] end;
    split; intros; repeat match goal with H : _ /\ _ |- _ => destruct H end; try lia; repeat split; try lia; try assumption.
Qed.
Lemma selected_down : forall len start stop step x, step < 0 -> 0 <= len ->
  let s := a_start len step start in let t := a_stop len step stop in
  (0 <= x < len /\ selected len start stop step x = true) <->
  (s < len /\ -1 <= t /\ t < x <= s /\ (s - x) mod (- step) = 0).
Proof.
  intros len start stop step x P L s t. unfold selected. replace (0 <? step) with false by lia. cbv zeta.
  rewrite !andb_true_iff, Z.eqb_eq, !Z.leb_le.
  subst s t. unfold a_start, a_stop, adjust, from_end. replace (step <? 0) with true by lia.
  destruct start as [i|], stop as [j|]; cbn [andb]; rewrite ?Z.ltb_lt;
    repeat match goal with |- context [if ?b then _ else _] => destruct b eqn:? end;
    repeat match goal with |- context [Z.min ?a ?b] =>
      first [replace (Z.min a b) with a by lia | replace (Z.min a b) with b by lia] end;
    split; intros; repeat match goal with H : _ /\ _ |- _ => destruct H end; try lia; repeat split; try lia; try assumption.
Qed.
Lemma start_up : forall len step o, 0 < step -> 0 <= len -> 0 <= a_start len step o.
Proof. intros len step [i|] P L; unfold a_start, adjust; replace (step <? 0) with false by lia; [|lia].
  destruct (i <? 0) eqn:A; cbv zeta; [destruct (i + len <? 0) eqn:B|destruct (len <=? i) eqn:B]; lia. Qed.
Lemma stop_up : forall len step o, 0 < step -> 0 <= len -> a_stop len step o <= len.
Proof. intros len step [i|] P L; unfold a_stop, adjust; replace (step <? 0) with false by lia; [|lia].
  destruct (i <? 0) eqn:A; cbv zeta; [destruct (i + len <? 0) eqn:B|destruct (len <=? i) eqn:B]; lia. Qed.
Lemma start_down : forall len step o, step < 0 -> 0 <= len -> a_start len step o < len \/ len = 0 /\ a_start len step o = -1.
Proof. intros len step [i|] P L; unfold a_start, adjust; replace (step <? 0) with true by lia; [|lia].
  destruct (i <? 0) eqn:A; cbv zeta; [destruct (i + len <? 0) eqn:B|destruct (len <=? i) eqn:B]; lia. Qed.
Lemma stop_down : forall len step o, step < 0 -> 0 <= len -> -1 <= a_stop len step o.
Proof. intros len step [i|] P L; unfold a_stop, adjust; replace (step <? 0) with true by lia; [|lia].
  destruct (i <? 0) eqn:A; cbv zeta; [destruct (i + len <? 0) eqn:B|destruct (len <=? i) eqn:B]; lia. Qed.

Lemma grid_selected : forall n start stop step, step <> 0 ->
  let len := Z.of_nat n in let s := a_start len step start in let t := a_stop len step stop in
  forall x, In x (grid s step (Z.to_nat (slice_length s t step))) <->
            In x (filter (selected len start stop step) (positions n)).
Proof.
  intros n start stop step NZ len s t x. rewrite grid_in, filter_In, positions_in.
  change (Z.of_nat n) with len. assert (L : 0 <= len) by lia.
  destruct (Z_lt_dec 0 step) as [P|P].
  - rewrite selected_up by easy. fold s t. pose proof (start_up len step start P L) as S0. fold s in S0.
    pose proof (stop_up len step stop P L) as T0. fold t in T0.
    unfold slice_length. replace (step <? 0) with false by lia. destruct (s <? t) eqn:ST.
    + pose proof (Z.div_pos (t - s - 1) step ltac:(lia) P) as D. rewrite Z2Nat.id by lia. split.
      * intros [k [K ->]]. apply (steps (t - s) k step P ltac:(lia)) in K.
        replace (s + k * step - s) with (k * step) by lia. rewrite Z.mod_mul by lia. nia.
      * intros [_ [_ [X M]]]. apply on_grid in M; [|easy|lia]. destruct M as [k [K E]]. exists k.
        split; [|lia]. apply (steps (t - s) k step P ltac:(lia)). lia.
    + split; [intros [k [K _]]; lia|lia].
  - assert (P' : step < 0) by lia. rewrite selected_down by easy. fold s t.
    pose proof (start_down len step start P' L) as S0. fold s in S0.
    pose proof (stop_down len step stop P' L) as T0. fold t in T0.
    unfold slice_length. replace (step <? 0) with true by lia. destruct (t <? s) eqn:ST.
    + pose proof (Z.div_pos (s - t - 1) (- step) ltac:(lia) ltac:(lia)) as D. rewrite Z2Nat.id by lia. split.
      * intros [k [K ->]]. apply (steps (s - t) k (- step) ltac:(lia) ltac:(lia)) in K.
        replace (s - (s + k * step)) with (k * - step) by lia. rewrite Z.mod_mul by lia. nia.
      * intros [_ [_ [X M]]]. apply on_grid in M; [|lia|lia]. destruct M as [k [K E]]. exists k.
        split; [|lia]. apply (steps (s - t) k (- step) ltac:(lia) ltac:(lia)). lia.
    + split; [intros [k [K _]]; lia|lia].
Qed.

Lemma slice_ok : forall l start stop step, step <> Some 0 ->
  sp_slice l start stop step = Some (std_slice l start stop (match step with Some k => k | None => 1 end)).
Proof.
  intros l start stop step NZ. unfold sp_slice.
  set (k := match step with Some k => k | None => 1 end).
  assert (K : k <> 0) by (subst k; destruct step as [k|]; [intros ->; easy|lia]). clearbody k. clear NZ step.
  destruct (k =? 0) eqn:Q; [lia|]. cbv zeta. f_equal.
  fold (a_start (Z.of_nat (length l)) k start). fold (a_stop (Z.of_nat (length l)) k stop).
  pose proof (grid_selected (length l) start stop k K) as G. cbv zeta in G.
  rewrite take_grid.
  - unfold std_slice. cbv zeta. f_equal. destruct (0 <? k) eqn:P.
    + apply (sorted_same Z.lt); [lia|lia|apply grid_up; lia|apply filter_sorted, positions_up|exact G].
    + apply (sorted_same (fun a b => b < a)); [lia|lia|apply grid_down; lia|apply rev_sorted, filter_sorted, positions_up|].
      intros x. rewrite <- in_rev. apply G.
  - intros x X. apply G, filter_In in X. destruct X as [X _]. now apply positions_in in X.
Qed.
Lemma slice_none : forall l start stop step, sp_slice l start stop step = None <-> step = Some 0.
Proof.
  intros l start stop step. split.
  - intros H. destruct step as [k|]; [|discriminate H]. destruct (Z.eq_dec k 0) as [->|K]; [easy|].
    rewrite slice_ok in H by (intros [= ->]; easy). discriminate H.
  - intros ->. reflexivity.
Qed.
Lemma pick_all : forall (l : pairs) k, (k <= length l)%nat ->
  flat_map (fun x => match nth_error l (Z.to_nat x) with Some a => [a] | None => [] end) (map Z.of_nat (seq k (length l - k))) = skipn k l.
Proof.
  intros l k K. remember (length l - k)%nat as n eqn:E. revert k K E. induction n as [|n IH]; intros k K E; cbn [seq map flat_map].
  - symmetry. apply skipn_all2. lia.
  - rewrite Nat2Z.id. destruct (nth_error l k) as [p|] eqn:Q; [|apply nth_error_None in Q; lia].
    rewrite IH by lia. apply nth_error_split in Q. destruct Q as [a [b [-> <-]]].
    rewrite !skipn_app. replace (S (length a) - length a)%nat with 1%nat by lia. rewrite Nat.sub_diag.
    rewrite (skipn_all a), (skipn_all2 a) by lia. reflexivity.
Qed.
Lemma slice_range : forall l i j, (i <= j)%nat ->
  sp_slice l (Some (Z.of_nat i)) (Some (Z.of_nat j)) None = Some (firstn (j - i) (skipn i l)).
Proof.
  intros l i j IJ. unfold sp_slice. cbn [Z.eqb]. cbv zeta. f_equal.
  change (1 <? 0) with false. unfold adjust. replace (Z.of_nat i <? 0) with false by lia. replace (Z.of_nat j <? 0) with false by lia.
  change (1 <? 0) with false. cbv iota. unfold slice_length. change (1 <? 0) with false. cbv iota.
  assert (T : forall n k, (n + k <= length l)%nat -> take_items l (Z.of_nat k) 1 n = firstn n (skipn k l)).
  { induction n as [|n IH]; intros k K; cbn [take_items]; [easy|]. rewrite Nat2Z.id.
    destruct (nth_error l k) as [p|] eqn:Q; [|apply nth_error_None in Q; lia].
    replace (Z.of_nat k + 1) with (Z.of_nat (S k)) by lia. rewrite IH by lia.
    apply nth_error_split in Q. destruct Q as [a [b [-> <-]]].
    rewrite !skipn_app. replace (S (length a) - length a)%nat with 1%nat by lia. rewrite Nat.sub_diag.
    rewrite (skipn_all a), (skipn_all2 a) by lia. reflexivity. }
  destruct (Z.of_nat (length l) <=? Z.of_nat i) eqn:A.
  - replace (Z.of_nat (length l) <=? Z.of_nat j) with true by lia. rewrite Z.ltb_irrefl. cbn [Z.to_nat take_items].
    rewrite skipn_all2 by lia. now rewrite firstn_nil.
  - destruct (Z.of_nat (length l) <=? Z.of_nat j) eqn:B.
    + rewrite A || replace (Z.of_nat i <? Z.of_nat (length l)) with true by lia.
      rewrite Z.div_1_r. replace (Z.to_nat _) with (length l - i)%nat by lia. rewrite T by lia.
      rewrite !firstn_all2; [easy|rewrite skipn_length; lia|rewrite skipn_length; lia].
    + destruct (Z.of_nat i <? Z.of_nat j) eqn:C.
      * rewrite Z.div_1_r. replace (Z.to_nat _) with (j - i)%nat by lia. apply T. lia.
      * replace (j - i)%nat with 0%nat by lia. easy.
Qed.
Lemma select_all : forall (f : Z -> bool) l, (forall x, In x l -> f x = true) -> filter f l = l.
Proof. induction l as [|a l IH]; intros H; cbn [filter]; [easy|]. rewrite (H a) by now left. f_equal. apply IH. intros x X. apply H. now right. Qed.
Lemma slice_all : forall l, sp_slice l None None None = Some l.
Proof.
  intros l. rewrite slice_ok by discriminate. f_equal. unfold std_slice. cbn [Z.ltb Z.compare].
  rewrite select_all.
  - unfold positions. rewrite <- (Nat.sub_0_r (length l)) at 1. rewrite pick_all by lia. easy.
  - intros x X. apply positions_in in X. unfold selected. change (0 <? 1) with true. cbv iota zeta.
    rewrite Z.mod_1_r. lia.
Qed.
Lemma flat_map_rev_single : forall (g : Z -> pairs) l, (forall x, length (g x) <= 1)%nat -> flat_map g (rev l) = rev (flat_map g l).
Proof.
  intros g l G. induction l as [|a l IH]; cbn [rev flat_map]; [easy|].
  rewrite flat_map_app, IH, rev_app_distr. f_equal. cbn [flat_map]. rewrite app_nil_r.
  specialize (G a). destruct (g a) as [|p [|q r]]; [easy|easy|cbn [length] in G; lia].
Qed.
Lemma slice_rev : forall l, sp_slice l None None (Some (-1)) = Some (rev l).
Proof.
  intros l. rewrite slice_ok by discriminate. f_equal. unfold std_slice. change (0 <? -1) with false. cbv iota zeta.
  rewrite select_all.
  - rewrite flat_map_rev_single by (intros x; destruct (nth_error l (Z.to_nat x)); cbn [length]; lia). f_equal.
    unfold positions. rewrite <- (Nat.sub_0_r (length l)) at 1. rewrite pick_all by lia. easy.
  - intros x X. apply positions_in in X. unfold selected. change (0 <? -1) with false. cbv iota zeta. change (- (-1)) with 1.
    rewrite Z.mod_1_r. lia.
Qed.
