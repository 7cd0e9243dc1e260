(** The IPv6 parser against the URL Standard's IPv6 parser. *)
From Coq Require Import Ascii String.
From Coq Require Import NArith ZArith Bool Arith Lia ZifyBool ZifyN ZifyNat List.
From Verif Require Import PyStr PyInt Codec Env HostModel SpecText SpecHost Lemmas CodecProofs QuoteProofs PyIntProofs IPv4Proofs IPv6Proofs.
Import ListNotations.
Open Scope N_scope.

(* ---------- hexadecimal pieces ---------- *)
Lemma std_v6_hex_cases m : forall p r v n,
  (r = [] \/ exists t, r = 58 :: t) ->
  (exists v', std_radix_value 16 p v = Some v' /\ (length p <= m)%nat /\
              std_v6_hex m (p ++ r) v n = (v', (n + length p)%nat, r)) \/
  (exists h x q v', p = h ++ x :: q /\ (length h = m \/ std_hex x = None) /\ (length h <= m)%nat /\
     std_radix_value 16 h v = Some v' /\
     std_v6_hex m (p ++ r) v n = (v', (n + length h)%nat, x :: q ++ r)).
Proof.
  induction m as [|m IH]; intros p r v n Hr.
  - destruct p as [|x p].
    + left. exists v. repeat split; auto. cbn. now rewrite Nat.add_0_r.
    + right. exists [], x, p, v. repeat split; auto. cbn. now rewrite Nat.add_0_r.
  - destruct p as [|x p].
    + left. exists v. repeat split; cbn [length]; try lia. rewrite Nat.add_0_r.
      destruct Hr as [->|(t & ->)]; reflexivity.
    + cbn [app std_v6_hex]. destruct (std_hex x) as [d|] eqn:X.
      * destruct (IH p r (v * 16 + d) (S n) Hr) as [(v' & V & L & ->)|(h & y & q & v' & -> & A & L & V & ->)].
        -- left. exists v'. cbn [std_radix_value length]. rewrite radix16_hex, X. repeat split; auto; [lia|].
           f_equal. f_equal. lia.
        -- right. exists (x :: h), y, q, v'. cbn [std_radix_value length]. rewrite radix16_hex, X.
           repeat split; auto; [destruct A; auto; left; lia|lia|]. f_equal. f_equal. lia.
      * right. exists [], x, p, v. repeat split; auto; cbn [length]; [lia|]. now rewrite Nat.add_0_r.
Qed.
Lemma radix_app_none b h x q acc : std_radix_digit b x = None -> std_radix_value b (h ++ x :: q) acc = None.
Proof.
  intros H. revert acc; induction h as [|y h IH]; intros acc; cbn [app std_radix_value].
  - now rewrite H.
  - destruct (std_radix_digit b y); auto.
Qed.
Lemma std_hex_chunk p r : (r = [] \/ exists t, r = 58 :: t) ->
  match hex_chunk p with
  | Some v => std_v6_hex 4 (p ++ r) 0 0 = (v, length p, r)
  | None => exists h x q v, p = h ++ x :: q /\ (length h = 4%nat \/ std_hex x = None) /\
              std_radix_value 16 h 0 = Some v /\ std_v6_hex 4 (p ++ r) 0 0 = (v, length h, x :: q ++ r)
  end.
Proof.
  intros Hr. destruct (std_v6_hex_cases 4 p r 0 0 Hr) as [(v & V & L & Q)|(h & x & q & v & Q1 & A & L & V & Q)].
  - unfold hex_chunk. replace (4 <? length p)%nat with false by lia. now rewrite V.
  - assert (N : hex_chunk p = None).
    { unfold hex_chunk. destruct (4 <? length p)%nat eqn:W; [reflexivity|]. destruct A as [A|A].
      - subst p. rewrite app_length in W. cbn [length] in W. lia.
      - subst p. apply radix_app_none. now rewrite radix16_hex. }
    rewrite N. exists h, x, q, v. auto.
Qed.

(* ---------- the embedded IPv4 address ---------- *)
Definition D_step (f : nat) (r : list N) (seen idx : nat) (a : list N) : option (nat * list N) :=
  match r with
  | [] => None
  | d :: _ =>
      if std_ascii_digit d then
        match std_v6_ipv4_piece r None with
        | Some (Some p, r') =>
            std_v6_ipv4 f r' (S seen)
              (if (S seen =? 2)%nat || (S seen =? 4)%nat then S idx else idx)
              (std_set a idx (fun x => x * 256 + p))
        | _ => None
        end
      else None
  end.
Lemma std_v6_ipv4_0 f c t idx a : std_v6_ipv4 (S f) (c :: t) 0 idx a = D_step f (c :: t) 0 idx a.
Proof. reflexivity. Qed.
Lemma std_v6_ipv4_dot f t seen idx a : (1 <= seen < 4)%nat ->
  std_v6_ipv4 (S f) (46 :: t) seen idx a = D_step f t seen idx a.
Proof.
  intros H. cbn [std_v6_ipv4]. replace (0 <? seen)%nat with true by lia.
  replace (seen <? 4)%nat with true by lia. reflexivity.
Qed.
Lemma std_v6_ipv4_nodot f c t seen idx a : (1 <= seen)%nat -> (c <> 46 \/ (4 <= seen)%nat) ->
  std_v6_ipv4 f (c :: t) seen idx a = None.
Proof.
  intros H Hc. destruct f; [reflexivity|]. cbn [std_v6_ipv4]. replace (0 <? seen)%nat with true by lia.
  replace ((c =? 46) && (seen <? 4)%nat) with false by lia. reflexivity.
Qed.

Lemma digit_std c : std_ascii_digit c = true -> std_radix_digit 10 c = Some (c - 48).
Proof.
  unfold std_ascii_digit, std_radix_digit, std_hex. intros H. rewrite H. replace (c - 48 <? 10) with true by lia. reflexivity.
Qed.
Definition nodigit_head (t : list N) : Prop := match t with [] => True | c :: _ => std_ascii_digit c = false end.
Lemma piece_some ds tail : nodigit_head tail -> forallb std_ascii_digit ds = true ->
  forall p, p <= 255 -> exists v, std_radix_value 10 ds p = Some v /\
  std_v6_ipv4_piece (ds ++ tail) (Some p) =
    match ds with [] => Some (Some p, tail)
    | _ => if p =? 0 then None else if 255 <? v then None else Some (Some v, tail) end.
Proof.
  intros Ht. induction ds as [|d ds IH]; intros Hd p Hp.
  - exists p. split; [reflexivity|]. cbn [app]. destruct tail as [|c t]; [reflexivity|].
    cbn [std_v6_ipv4_piece]. cbn in Ht. now rewrite Ht.
  - cbn [forallb] in Hd. apply andb_true_iff in Hd as [H1 H2].
    cbn [std_radix_value app std_v6_ipv4_piece]. rewrite (digit_std _ H1), H1. cbv zeta.
    destruct (255 <? p * 10 + (d - 48)) eqn:W.
    + assert (T : exists v, std_radix_value 10 ds (p * 10 + (d - 48)) = Some v).
      { apply radix10_total. clear - H2. induction ds as [|c ds IH]; [reflexivity|]. cbn [forallb existsb] in *.
        apply andb_true_iff in H2 as [A B]. rewrite IH by auto.
        assert (M : mem c ASCII_DIGITS = true); [|now rewrite M].
        pose proof (forallb_digits [c]) as F. cbn [forallb] in F. rewrite !andb_true_r in F. congruence. }
      destruct T as (v & T). exists v. split; [exact T|]. destruct (p =? 0); [reflexivity|].
      pose proof (radix_value_len 10 ds ltac:(lia) _ _ T) as G.
      assert (1 <= 10 ^ N.of_nat (length ds)) by (pose proof (N.pow_nonzero 10 (N.of_nat (length ds))); lia).
      replace (255 <? v) with true by nia. reflexivity.
    + destruct (IH H2 (p * 10 + (d - 48)) ltac:(lia)) as (v & V & Q). exists v. split; [exact V|].
      destruct (p =? 0) eqn:P; [reflexivity|]. rewrite Q. destruct ds as [|e ds].
      * cbn [std_radix_value] in V. apply Some_inj in V. subst v. now rewrite W.
      * replace (p * 10 + (d - 48) =? 0) with false by lia. reflexivity.
Qed.

Lemma nondigit_split x : forallb std_ascii_digit x = true \/
  exists ds y q, x = ds ++ y :: q /\ forallb std_ascii_digit ds = true /\ std_ascii_digit y = false.
Proof.
  induction x as [|c x IH]; [now left|]. destruct (std_ascii_digit c) eqn:C.
  - destruct IH as [IH|(ds & y & q & -> & F & Y)].
    + left. cbn [forallb]. now rewrite C.
    + right. exists (c :: ds), y, q. cbn [forallb app]. now rewrite C, F.
  - right. exists [], c, x. auto.
Qed.
Lemma bad_digits x : existsb (fun y => negb (mem y ASCII_DIGITS)) x = negb (forallb std_ascii_digit x).
Proof.
  rewrite <- forallb_digits. induction x as [|c x IH]; [reflexivity|]. cbn [existsb forallb]. rewrite IH.
  now destruct (mem c ASCII_DIGITS).
Qed.

Lemma D_part f x tail seen idx a : nodigit_head tail -> mem 46 x = false ->
  D_step f (x ++ tail) seen idx a =
  if bad_ipv4_piece x then None
  else match std_radix_value 10 x 0 with
       | Some v => if 255 <? v then None
                   else std_v6_ipv4 f tail (S seen)
                     (if (S seen =? 2)%nat || (S seen =? 4)%nat then S idx else idx)
                     (std_set a idx (fun x => x * 256 + v))
       | None => None
       end.
Proof.
  intros Ht Hx. destruct x as [|c x].
  { cbn [app]. change (bad_ipv4_piece []) with true. cbv iota. destruct tail as [|d t]; [reflexivity|].
    cbn in Ht. cbn [D_step]. now rewrite Ht. }
  unfold bad_ipv4_piece. rewrite bad_digits. cbn [length Nat.eqb orb].
  destruct (nondigit_split (c :: x)) as [F|(ds & y & q & Q & F & Y)].
  - rewrite F. cbn [negb orb]. cbn [forallb] in F. apply andb_true_iff in F as [Fc Fx].
    cbn [app D_step std_v6_ipv4_piece std_radix_value]. rewrite Fc, (digit_std _ Fc).
    change (0 * 10 + (c - 48)) with (c - 48).
    assert (Cr : c - 48 <= 9) by (unfold std_ascii_digit in Fc; lia).
    destruct (piece_some x tail Ht Fx (c - 48) ltac:(lia)) as (v & V & ->). rewrite V.
    destruct x as [|d x].
    + cbn [std_radix_value] in V. apply Some_inj in V. subst v. cbn [length].
      change (2 <=? 1)%nat with false. cbn [andb]. replace (255 <? c - 48) with false by lia. reflexivity.
    + change (2 <=? S (length (d :: x)))%nat with true. cbn [andb].
      replace (c - 48 =? 0) with (c =? 48) by (unfold std_ascii_digit in Fc; lia).
      destruct (c =? 48); [reflexivity|]. destruct (255 <? v); reflexivity.
  - (* a non-digit in the part *)
    assert (NF : forallb std_ascii_digit (c :: x) = false).
    { rewrite Q, forallb_app, F. cbn [forallb andb]. now rewrite Y. }
    rewrite NF. cbn [negb orb]. rewrite Q, <- app_assoc. destruct ds as [|e ds].
    + cbn [app D_step]. now rewrite Y.
    + cbn [forallb] in F. apply andb_true_iff in F as [Fe Fd].
      cbn [app D_step std_v6_ipv4_piece]. rewrite Fe.
      assert (Hy : nodigit_head ((y :: q) ++ tail)) by exact Y.
      assert (Er : e - 48 <= 9) by (unfold std_ascii_digit in Fe; lia).
      destruct (piece_some ds ((y :: q) ++ tail) Hy Fd (e - 48) ltac:(lia)) as (v & V & G).
      change (y :: q ++ tail) with ((y :: q) ++ tail). rewrite G.
      assert (Ny : y <> 46).
      { intros ->. rewrite Q in Hx. rewrite mem_app in Hx. apply orb_false_iff in Hx as [_ Hx]. discriminate. }
      destruct ds as [|d ds].
      * cbn [app]. apply std_v6_ipv4_nodot; auto. lia.
      * destruct (e - 48 =? 0); [reflexivity|]. destruct (255 <? v); [reflexivity|].
        cbn [app]. apply std_v6_ipv4_nodot; auto. lia.
Qed.

Fixpoint eval_parts (parts : list (list N)) (seen idx : nat) (a : list N) : option (nat * list N) :=
  match parts with
  | [] => if (seen =? 4)%nat then Some (idx, a) else None
  | x :: xs =>
      if (4 <=? seen)%nat then None
      else if bad_ipv4_piece x then None
      else match std_radix_value 10 x 0 with
           | Some v => if 255 <? v then None
                       else eval_parts xs (S seen) (if (S seen =? 2)%nat || (S seen =? 4)%nat then S idx else idx)
                              (std_set a idx (fun x => x * 256 + v))
           | None => None
           end
  end.
Definition dots (parts : list (list N)) : list N := concat (map (cons 46) parts).
Lemma ipv4_dots parts : forall f r seen idx a, (length parts < f)%nat -> (1 <= seen)%nat ->
  (r = [] \/ exists t, r = 58 :: t) -> Forall (fun x => mem 46 x = false) parts ->
  std_v6_ipv4 f (dots parts ++ r) seen idx a =
  match r with [] => eval_parts parts seen idx a | _ => None end.
Proof.
  induction parts as [|x xs IH]; intros f r seen idx a Hf Hs Hr Hx.
  - cbn [dots map concat app eval_parts length] in *. destruct f; [lia|]. destruct Hr as [->|(t & ->)].
    + reflexivity.
    + apply std_v6_ipv4_nodot; [lia|left; discriminate].
  - inversion Hx; subst. cbn [dots map concat]. fold (dots xs). cbn [length] in Hf.
    destruct f as [|f]; [lia|]. rewrite <- app_assoc. cbn [app].
    destruct (Nat.lt_ge_cases seen 4) as [S4|S4].
    2:{ rewrite std_v6_ipv4_nodot by auto. cbn [eval_parts]. replace (4 <=? seen)%nat with true by lia.
        destruct Hr as [->|(t & ->)]; reflexivity. }
    rewrite std_v6_ipv4_dot by lia. rewrite D_part; auto.
    2:{ destruct xs as [|z zs]; [destruct Hr as [->|(t & ->)]; cbn; auto|reflexivity]. }
    cbn [eval_parts]. replace (4 <=? seen)%nat with false by lia.
    destruct (bad_ipv4_piece x); [destruct Hr as [->|(t & ->)]; reflexivity|].
    destruct (std_radix_value 10 x 0) as [v|]; [|destruct Hr as [->|(t & ->)]; reflexivity].
    destruct (255 <? v); [destruct Hr as [->|(t & ->)]; reflexivity|].
    apply IH; auto; lia.
Qed.
Lemma dots_length parts : (length parts <= length (dots parts))%nat.
Proof.
  induction parts as [|x xs IH]; [cbn; lia|]. unfold dots in *. cbn [map concat length app]. rewrite app_length. lia.
Qed.
Lemma join_dots x xs : join [46] (x :: xs) = x ++ dots xs.
Proof.
  revert x; induction xs as [|y ys IH]; intros x; [cbn; now rewrite app_nil_r|].
  rewrite join_cons2. f_equal. cbn [app]. unfold dots. cbn [map concat]. cbn [app]. f_equal. apply IH.
Qed.
Lemma ipv4_whole p r idx a : p <> [] -> (r = [] \/ exists t, r = 58 :: t) ->
  std_v6_ipv4 (S (length (p ++ r))) (p ++ r) 0 idx a =
  match r with [] => eval_parts (split 46 p) 0 idx a | _ => None end.
Proof.
  intros Hp Hr. destruct (split 46 p) as [|x xs] eqn:S; [now apply split_not_nil in S|].
  pose proof (join_split 46 p) as J. rewrite S, join_dots in J.
  assert (F : Forall (fun x => mem 46 x = false) (x :: xs)).
  { apply Forall_forall. intros y Hy. rewrite <- S in Hy. now apply split_pieces_no_sep in Hy. }
  inversion F; subst.
  assert (Q : std_v6_ipv4 (Datatypes.S (length ((x ++ dots xs) ++ r))) ((x ++ dots xs) ++ r) 0 idx a =
              D_step (length ((x ++ dots xs) ++ r)) (x ++ dots xs ++ r) 0 idx a).
  { rewrite <- app_assoc. destruct (x ++ dots xs ++ r) eqn:W; [|reflexivity].
    exfalso. apply app_eq_nil in W as [-> W]. apply app_eq_nil in W as [W _]. rewrite W in Hp. now apply Hp. }
  rewrite Q, D_part; auto.
  2:{ destruct xs as [|z zs]; [destruct Hr as [->|(t & ->)]; cbn; auto|reflexivity]. }
  cbn [eval_parts]. change (4 <=? 0)%nat with false. cbv iota.
  destruct (bad_ipv4_piece x) eqn:B; [destruct Hr as [->|(t & ->)]; reflexivity|].
  destruct (std_radix_value 10 x 0) as [v|]; [|destruct Hr as [->|(t & ->)]; reflexivity].
  destruct (255 <? v); [destruct Hr as [->|(t & ->)]; reflexivity|].
  apply ipv4_dots; auto.
  pose proof (dots_length xs). rewrite !app_length. destruct x; [discriminate|]. cbn [length]. lia.
Qed.

Lemma good_part E x : limit_ok E -> bad_ipv4_piece x = false ->
  exists v, std_radix_value 10 x 0 = Some v /\
    (v <= 255 -> e_int E x 10 = Some (Z.of_N v)) /\
    (e_int E x 10 = Some (Z.of_N v) \/ e_int E x 10 = None).
Proof.
  intros HE B. unfold bad_ipv4_piece in B. apply orb_false_iff in B as [B B3].
  apply orb_false_iff in B as [B1 B2]. destruct (radix10_total x 0 B2) as (v & V). exists v. split; [exact V|].
  destruct x as [|c t]; [discriminate|].
  assert (T : (match int_limit E with Some l => N.of_nat (length (c :: t)) <= l | None => True end) ->
     e_int E (c :: t) 10 = Some (Z.of_N v)).
  { intros L. unfold e_int. eapply py_int_digits; eauto. discriminate. }
  split.
  - intros Hv. apply T. unfold limit_ok in HE. destruct (int_limit E) as [l|]; auto.
    assert (Hc : t <> [] -> c <> 48).
    { intros Ht ->. destruct t; [congruence|]. cbn in B3. discriminate. }
    pose proof (dec_len_bound c t v V Hc ltac:(lia)). lia.
  - unfold e_int. rewrite (py_int_digits_eq _ _ _ 10 (c :: t) v); auto; [|discriminate].
    destruct ((10 =? 10) && _); auto.
Qed.

Lemma std_set_at l x t f : std_set (l ++ x :: t) (length l) f = l ++ f x :: t.
Proof.
  unfold std_set. rewrite firstn_app, firstn_all, Nat.sub_diag, firstn_O, app_nil_r.
  rewrite skipn_app, skipn_all, Nat.sub_diag. reflexivity.
Qed.

Lemma eval_some parts : forall seen idx a r, eval_parts parts seen idx a = Some r ->
  (seen + length parts = 4)%nat /\ Forall (fun x => bad_ipv4_piece x = false) parts /\
  exists vs, Forall2 (fun x v => std_radix_value 10 x 0 = Some v /\ v <= 255) parts vs.
Proof.
  induction parts as [|x xs IH]; intros seen idx a r H; cbn [eval_parts length] in *.
  - destruct (seen =? 4)%nat eqn:Q; [|discriminate]. repeat split; auto; [lia|]. exists []. constructor.
  - destruct (4 <=? seen)%nat; [discriminate|]. destruct (bad_ipv4_piece x) eqn:B; [discriminate|].
    destruct (std_radix_value 10 x 0) as [v|] eqn:V; [|discriminate].
    destruct (255 <? v) eqn:W; [discriminate|]. apply IH in H as (H1 & H2 & vs & H3).
    repeat split; auto; [lia|]. exists (v :: vs). constructor; auto. split; auto. lia.
Qed.
Lemma eval_intro parts : forall seen idx a vs, (seen + length parts = 4)%nat ->
  Forall (fun x => bad_ipv4_piece x = false) parts ->
  Forall2 (fun x v => std_radix_value 10 x 0 = Some v /\ v <= 255) parts vs ->
  exists r, eval_parts parts seen idx a = Some r.
Proof.
  induction parts as [|x xs IH]; intros seen idx a vs L F G; cbn [eval_parts length] in *.
  - replace (seen =? 4)%nat with true by lia. eauto.
  - inversion F; subst. inversion G as [|? ? ? ? [V Hv] G']; subst. replace (4 <=? seen)%nat with false by lia.
    rewrite H1, V. replace (255 <? y) with false by lia. eapply IH; eauto. lia.
Qed.
Lemma ints_some E ps : limit_ok E -> Forall (fun x => bad_ipv4_piece x = false) ps ->
  forall ns, ints E ps = Some ns -> Forall2 (fun x v => std_radix_value 10 x 0 = Some v) ps ns.
Proof.
  intros HE. induction 1 as [|x xs Hx Hxs IH]; intros ns H; cbn [ints] in H.
  - apply Some_inj in H; subst. constructor.
  - destruct (good_part E x HE Hx) as (v & V & _ & D).
    destruct (e_int E x 10) as [z|] eqn:Q; [|discriminate].
    destruct (ints E xs) as [r|]; [|discriminate]. apply Some_inj in H; subst. constructor; auto.
    destruct D as [D|D]; [|discriminate]. apply Some_inj in D. subst z. now rewrite N2Z.id.
Qed.
Lemma ints_intro E ps vs : limit_ok E -> Forall (fun x => bad_ipv4_piece x = false) ps ->
  Forall2 (fun x v => std_radix_value 10 x 0 = Some v /\ v <= 255) ps vs -> ints E ps = Some vs.
Proof.
  intros HE F G. revert F. induction G as [|x v xs vs [V Hv] G IH]; intros F; [reflexivity|].
  inversion F; subst. cbn [ints]. destruct (good_part E x HE H1) as (v' & V' & D & _).
  assert (v' = v) by congruence. subst v'. rewrite (D Hv), IH by auto. now rewrite N2Z.id.
Qed.

Lemma v4_chunk_std E p l : limit_ok E -> (length l <= 6)%nat ->
  match eval_parts (split 46 p) 0 (length l) (l ++ repeat 0 (8 - length l)) with
  | Some (i, a) => exists vs, v4_chunk E p = Ok vs /\ i = length (l ++ vs) /\
                              a = (l ++ vs) ++ repeat 0 (8 - length (l ++ vs))
  | None => exists e, v4_chunk E p = Err e
  end.
Proof.
  intros HE L. unfold v4_chunk. cbv zeta. set (ps := split 46 p : list (list N)).
  destruct (eval_parts ps 0 (length l) (l ++ repeat 0 (8 - length l))) as [[i a]|] eqn:Ev.
  - destruct (eval_some _ _ _ _ _ Ev) as (Len & Fb & vs & G). cbn [Nat.add] in Len.
    rewrite Len. change (4 <? 4)%nat with false. cbn [orb].
    match goal with |- context [@existsb ?T bad_ipv4_piece ps] =>
      assert (X : @existsb T bad_ipv4_piece ps = false);
      [apply existsb_false; rewrite Forall_forall in Fb; auto|rewrite X] end.
    rewrite (ints_intro E ps vs HE Fb G).
    replace (existsb (fun n => 255 <? n) vs) with false.
    2:{ symmetry. clear - G. induction G as [|x v xs vs [_ Hv] G IH]; [reflexivity|]. cbn [existsb].
        rewrite IH. lia. }
    cbv iota. eexists. split; [reflexivity|].
    destruct ps as [|p0 [|p1 [|p2 [|p3 [|p4 ps]]]]]; try discriminate. clear Len.
    inversion G as [|? v0 ? ? [V0 _] G1]; subst. inversion G1 as [|? v1 ? ? [V1 _] G2]; subst.
    inversion G2 as [|? v2 ? ? [V2 _] G3]; subst. inversion G3 as [|? v3 ? ? [V3 _] G4]; subst.
    inversion G4; subst. cbn [eval_parts] in Ev. rewrite V0, V1, V2, V3 in Ev.
    cbn [Nat.leb Nat.eqb orb] in Ev.
    repeat (match type of Ev with context [if ?b then None else _] => destruct b; [discriminate|] end).
    apply Some_inj in Ev. apply pair_equal_spec in Ev as [<- <-]. cbn [nth].
    assert (L2 : length (l ++ [v0 * 256 + v1; v2 * 256 + v3]) = S (S (length l))) by (rewrite app_length; cbn; lia).
    split; [now rewrite L2|]. rewrite L2.
    replace (8 - length l)%nat with (S (S (8 - S (S (length l))))) by lia. cbn [repeat].
    rewrite !std_set_at. rewrite <- app_assoc. cbn [app].
    assert (A : forall x t, l ++ x :: t = (l ++ [x]) ++ t) by (intros; now rewrite <- app_assoc).
    rewrite !(A _ (0 :: _)). replace (S (length l)) with (length (l ++ [(0 * 256 + v0) * 256 + v1])) by (rewrite app_length; cbn; lia).
    rewrite !std_set_at. rewrite <- app_assoc. cbn [app]. f_equal.
  - match goal with |- context [if ?b then _ else _] => destruct b eqn:X; [eauto|] end.
    apply orb_false_iff in X as [X1 X2].
    destruct (ints E ps) as [ns|] eqn:I; [|eauto].
    destruct (existsb (fun n => 255 <? n) ns) eqn:Y; [eauto|].
    match goal with |- context [if ?b then _ else _] => destruct b eqn:Z; [eauto|] end. exfalso.
    assert (L4 : (0 + length ps = 4)%nat) by (lia).
    assert (Fb : Forall (fun x => bad_ipv4_piece x = false) ps) by (apply Forall_forall; now apply existsb_false).
    pose proof (ints_some E ps HE Fb ns I) as G.
    assert (G' : Forall2 (fun x v => std_radix_value 10 x 0 = Some v /\ v <= 255) ps ns).
    { clear - G Y. induction G as [|x v xs vs Hx G IH]; constructor.
      - cbn [existsb] in Y. split; auto. lia.
      - apply IH. cbn [existsb] in Y. now apply orb_false_iff in Y. }
    destruct (eval_intro ps 0 (length l) (l ++ repeat 0 (8 - length l)) ns L4 Fb G') as (r & R). congruence.
Qed.

(* ---------- one chunk ---------- *)
Lemma hex_chunk_nodot p v : hex_chunk p = Some v -> mem 46 p = false.
Proof.
  unfold hex_chunk. destruct (4 <? length p)%nat; [discriminate|]. intros H.
  apply mem_not_In. intros I. apply in_split in I as (h & q & ->).
  now rewrite radix_app_none in H.
Qed.
Lemma hex_chunk_dot p : mem 46 p = true -> hex_chunk p = None.
Proof. intros H. destruct (hex_chunk p) eqn:Q; auto. apply hex_chunk_nodot in Q. congruence. Qed.

(** first part of a dotted chunk that is not made of at most four hex digits *)
Lemma long_part_err E h x q : limit_ok E -> x <> 46 -> mem 46 h = false ->
  (length h = 4%nat \/ std_hex x = None) -> exists e, v4_chunk E (h ++ x :: q) = Err e.
Proof.
  intros HE Hx Hh A. unfold v4_chunk. cbv zeta.
  assert (S : exists y ys, split 46 (h ++ x :: q) = (h ++ x :: y) :: ys).
  { clear - Hx Hh. induction h as [|c h IH].
    - cbn [app]. cbn [split]. replace (x =? 46) with false by lia.
      destruct (split 46 q) as [|z zs] eqn:W; [now apply split_not_nil in W|]. eauto.
    - cbn [mem existsb] in Hh. apply orb_false_iff in Hh as [H1 H2]. destruct (IH H2) as (y & ys & Q).
      cbn [app split]. replace (c =? 46) with false by lia. rewrite Q. eauto. }
  destruct S as (y & ys & S). rewrite S. set (x0 := h ++ x :: y).
  destruct ((4 <? length (x0 :: ys))%nat || existsb bad_ipv4_piece (x0 :: ys)) eqn:X; [eauto|].
  apply orb_false_iff in X as [_ X]. cbn [existsb] in X. apply orb_false_iff in X as [X _].
  destruct (good_part E x0 HE X) as (v & V & _ & D).
  cbn [ints]. destruct (e_int E x0 10) as [z|] eqn:Q; [|eauto].
  destruct D as [D|D]; [|discriminate]. apply Some_inj in D. subst z.
  destruct (ints E ys) as [ns|]; [|eauto]. cbn [existsb]. rewrite N2Z.id.
  destruct (255 <? v) eqn:W; [cbn [orb]; eauto|]. exfalso.
  pose proof (radix10_digits _ _ _ V) as F. destruct A as [A|A].
  - destruct h as [|c h]; [discriminate|]. unfold x0 in V. cbn [app std_radix_value] in V.
    assert (B : (length x0 > 1)%nat) by (unfold x0; rewrite app_length; cbn in *; lia).
    unfold bad_ipv4_piece in X. apply orb_false_iff in X as [_ X].
    replace (2 <=? length x0)%nat with true in X by lia. unfold x0 in X. cbn [app andb] in X.
    cbn [app forallb] in F. apply andb_true_iff in F as [F1 F2]. rewrite (digit_std _ F1) in V.
    apply radix_value_len in V; [|lia].
    assert (N : 4 <= N.of_nat (length (h ++ x :: y))) by (rewrite app_length; cbn in *; lia).
    assert (10 ^ 4 <= 10 ^ N.of_nat (length (h ++ x :: y))) by (apply N.pow_le_mono_r; lia).
    change (10 ^ 4) with 10000 in *. unfold std_ascii_digit in F1. nia.
  - unfold x0 in V. rewrite radix_app_none in V; [discriminate|]. unfold std_radix_digit. now rewrite A.
Qed.

(* ---------- the standard's main loop, chunk by chunk ---------- *)
Notation A8 l := (l ++ repeat 0 (8 - length l)).
Lemma A8_set l v : (length l < 8)%nat -> std_set (A8 l) (length l) (fun _ => v) = A8 (l ++ [v]).
Proof.
  intros H. destruct (8 - length l)%nat as [|m] eqn:M; [lia|]. cbn [repeat]. rewrite std_set_at.
  rewrite <- app_assoc. cbn [app]. rewrite app_length. cbn [length].
  replace (8 - (length l + 1))%nat with m by lia. reflexivity.
Qed.

Lemma S_piece_hex f p r l comp v : p <> [] -> no_colon p -> (length l < 8)%nat ->
  (r = [] \/ exists t, r = 58 :: t) -> hex_chunk p = Some v ->
  std_v6_main (S f) (p ++ r) (length l) comp (A8 l) =
  match r with
  | [] => std_v6_main f [] (S (length l)) comp (A8 (l ++ [v]))
  | _ :: [] => None
  | _ :: t => std_v6_main f t (S (length l)) comp (A8 (l ++ [v]))
  end.
Proof.
  intros Hp Hc Hl Hr Hv. pose proof (std_hex_chunk p r Hr) as H. rewrite Hv in H.
  destruct p as [|c p]; [congruence|]. unfold no_colon in Hc. cbn [mem existsb] in Hc.
  apply orb_false_iff in Hc as [Hc _]. cbn [app] in *. cbn [std_v6_main].
  replace (length l =? 8)%nat with false by lia. replace (c =? 58) with false by lia. rewrite H.
  rewrite A8_set by auto. destruct Hr as [->|(t & ->)]; [reflexivity|].
  change (58 =? 46) with false. change (58 =? 58) with true. cbv iota. destruct t; reflexivity.
Qed.
Lemma S_piece_bad E f p r l comp : limit_ok E -> p <> [] -> no_colon p -> (length l < 8)%nat ->
  (r = [] \/ exists t, r = 58 :: t) -> hex_chunk p = None ->
  match std_v6_main (S f) (p ++ r) (length l) comp (A8 l) with
  | Some (i, c, a) => r = [] /\ c = comp /\ exists vs, chunk E (length l) p = Ok vs /\ i = length (l ++ vs) /\ a = A8 (l ++ vs)
  | None => r = [] -> exists e, chunk E (length l) p = Err e
  end.
Proof.
  intros HE Hp Hc Hl Hr Hv. pose proof (std_hex_chunk p r Hr) as H. rewrite Hv in H.
  destruct H as (h & x & q & v & Q & A & V & H).
  assert (M : std_v6_main (S f) (p ++ r) (length l) comp (A8 l) =
    if x =? 46 then
                  if (length h =? 0)%nat then None
                  else if (6 <? length l)%nat then None
                  else match std_v6_ipv4 (S (length (p ++ r))) (p ++ r) 0 (length l) (A8 l) with
                       | Some (idx', a') => Some (idx', comp, a')
                       | None => None
                       end
    else None).
  { destruct p as [|c p]; [congruence|]. unfold no_colon in Hc. pose proof Hc as Hc'. cbn [mem existsb] in Hc.
    apply orb_false_iff in Hc as [Hc _]. cbn [app] in *. cbn [std_v6_main].
    replace (length l =? 8)%nat with false by lia. replace (c =? 58) with false by lia. rewrite H.
    destruct (x =? 46) eqn:X; [reflexivity|].
    assert (x <> 58).
    { intros ->. rewrite Q, mem_app in Hc'. apply orb_false_iff in Hc' as [_ Hc']. discriminate. }
    replace (x =? 58) with false by lia. reflexivity. }
  rewrite M. clear M H. unfold chunk. rewrite Hv.
  assert (Hh : mem 46 h = false).
  { apply mem_not_In. intros I. apply in_split in I as (h1 & h2 & ->). now rewrite radix_app_none in V. }
  destruct (x =? 46) eqn:X.
  - assert (x = 46) by lia. subst x.
    assert (D : mem 46 p = true) by (rewrite Q, mem_app; cbn; now rewrite orb_true_r). rewrite D. cbn [negb].
    destruct (length h =? 0)%nat eqn:L0.
    { intros _. destruct h; [|discriminate]. destruct (6 <? length l)%nat; [eauto|].
      unfold v4_chunk. rewrite Q. cbn [app]. change (46 :: q) with ([] ++ 46 :: q). rewrite split_app by reflexivity.
      cbn [existsb]. change (bad_ipv4_piece []) with true. rewrite orb_true_r. eauto. }
    destruct (6 <? length l)%nat eqn:L6; [eauto|].
    rewrite ipv4_whole by auto. destruct Hr as [->|(t & ->)]; [|discriminate].
    pose proof (v4_chunk_std E p l HE ltac:(lia)) as G.
    destruct (eval_parts (split 46 p) 0 (length l) (A8 l)) as [[i a]|]; [|auto].
    destruct G as (vs & -> & -> & ->). split; [reflexivity|]. split; [reflexivity|]. exists vs. auto.
  - intros _. destruct (mem 46 p); cbn [negb]; [|eauto].
    destruct (6 <? length l)%nat; [eauto|]. rewrite Q. apply long_part_err; auto. lia.
Qed.

(** no dotted piece before a colon *)
Definition no_dot_colon (s : list N) : Prop := forall p t, s = p ++ 58 :: t -> mem 46 p = false.

Lemma no_dot_colon_tail p t : no_dot_colon (p ++ 58 :: t) -> no_dot_colon t.
Proof.
  intros H p' t' ->. specialize (H (p ++ 58 :: p') t'). rewrite <- app_assoc in H. specialize (H eq_refl).
  rewrite mem_app in H. apply orb_false_iff in H as [_ H]. cbn in H. exact H.
Qed.
Lemma finish_std l c prev : (length l <= 8)%nat -> (forall k, c = Some k -> (k <= length l)%nat) ->
  match c with
  | Some k => snd (v6_finish (v6st l c [] prev)) = Ok (std_v6_swap (length l - k) 7 k (A8 l))
  | None => snd (v6_finish (v6st l c [] prev)) = if (length l =? 8)%nat then Ok (A8 l) else Err EIPv6
  end.
Proof.
  intros L K. unfold v6_finish. destruct c as [k|]; cbn [v6_compress v6_index v6_addr v6st].
  - specialize (K k eq_refl).
    assert (LA : length (A8 l) = 8%nat) by (rewrite app_length, repeat_length; lia).
    rewrite swaps_std by lia. reflexivity.
  - destruct (length l =? 8)%nat; reflexivity.
Qed.
