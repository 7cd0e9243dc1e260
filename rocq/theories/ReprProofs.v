(** Lemmas on reprs (C104). *)
From Coq Require Import Ascii String.
From Coq Require Import NArith ZArith Bool Arith Lia ZifyBool ZifyN ZifyNat List.
From Verif Require Import PyStr PyInt Codec Env HostModel UrlRecord Parser SearchParams UrlApi Repr SpecText SpecHost.
From Verif Require Import Lemmas CodecProofs QuoteProofs PyIntProofs IPv4Proofs IPv6Proofs HostProofs WfProofs RoundTrip UrlProps ParamProofs IntGrammar.
From Verif Require StandardProofs.
From Verif Require Import SpecPyInt SpecParams SpecUrl SpecParser SpecRepr.
Import ListNotations.
Open Scope N_scope.

(* ---------- characters and strings ---------- *)
Lemma hex1_char d : d < 16 -> read_hex1 (digit_char d) = Some d.
Proof.
  intros H. unfold read_hex1, digit_char. destruct (d <? 10) eqn:Q.
  - replace ((48 <=? 48 + d) && (48 + d <=? 57)) with true by lia. f_equal. lia.
  - replace ((48 <=? 87 + d) && (87 + d <=? 57)) with false by lia. replace ((97 <=? 87 + d) && (87 + d <=? 102)) with true by lia. f_equal. lia.
Qed.
Lemma hex_digits ds : Forall (fun d => d < 16) ds -> forall v t, read_hex (length ds) v (map digit_char ds ++ t) = Some (fold_left (fun a d => a * 16 + d) ds v, t).
Proof. induction 1 as [|d ds H F IH]; intros v t; [reflexivity|]. cbn [length map app read_hex fold_left]. rewrite hex1_char by exact H. apply IH. Qed.
Lemma hex_zeros k : forall w t, read_hex (k + w) 0 (repeat 48 k ++ t) = read_hex w 0 t.
Proof. induction k as [|k IH]; intros w t; [reflexivity|]. cbn [Nat.add repeat app read_hex]. change (read_hex1 48) with (Some 0). cbv iota beta. change (0 * 16 + 0) with 0. apply IH. Qed.
Lemma hex_fixed_read w c t : c < 16 ^ N.of_nat w -> (1 <= w)%nat -> read_hex w 0 (hex_fixed w c ++ t) = Some (c, t).
Proof.
  intros H W. unfold hex_fixed, hex_str. rewrite map_length. pose proof (digits_len 16 c w ltac:(lia) H W) as L. destruct (digits_spec 16 c ltac:(lia)) as (V & F & _).
  replace w with ((w - length (digits 16 c)) + length (digits 16 c))%nat at 1 by lia. rewrite <- app_assoc, hex_zeros, hex_digits by exact F. unfold value in V. now rewrite V.
Qed.
Lemma repr_char_read pr q c t n : q = 39 \/ q = 34 -> c <= 1114111 ->
  read_string (S n) q (repr_char pr q c ++ t) = match read_string n q t with Some (l, r) => Some (c :: l, r) | None => None end.
Proof.
  intros Q C. unfold repr_char. destruct ((c =? q) || (c =? 92)) eqn:K.
  { cbn [app read_string]. replace (92 =? q) with false by lia. change (92 =? 10) with false. change (92 =? 13) with false. change (92 =? 92) with true. cbn [orb]. cbv iota. cbn [read_escape].
    replace ((c =? 92) || (c =? 39) || (c =? 34)) with true by lia. reflexivity. }
  assert (B : (92 =? q) = false) by lia.
  destruct (c =? 9) eqn:C9; [apply N.eqb_eq in C9; subst c; change ($"\t" ++ t) with (92 :: 116 :: t); cbn [read_string]; rewrite B; reflexivity|].
  destruct (c =? 10) eqn:C10; [apply N.eqb_eq in C10; subst c; change ($"\n" ++ t) with (92 :: 110 :: t); cbn [read_string]; rewrite B; reflexivity|].
  destruct (c =? 13) eqn:C13; [apply N.eqb_eq in C13; subst c; change ($"\r" ++ t) with (92 :: 114 :: t); cbn [read_string]; rewrite B; reflexivity|].
  assert (X : forall w e, (w = 2 /\ e = 120 \/ w = 4 /\ e = 117 \/ w = 8 /\ e = 85) -> c < 16 ^ w ->
    read_string (S n) q ((92 :: e :: hex_fixed (N.to_nat w) c) ++ t) = match read_string n q t with Some (l, r) => Some (c :: l, r) | None => None end).
  { intros w e We Cw. cbn [app read_string]. rewrite B. change (92 =? 10) with false. change (92 =? 13) with false. change (92 =? 92) with true. cbn [orb]. cbv iota. cbn [read_escape].
    replace ((e =? 92) || (e =? 39) || (e =? 34)) with false by lia. replace (e =? 110) with false by lia. replace (e =? 114) with false by lia. replace (e =? 116) with false by lia. cbv iota.
    assert (R : read_hex (N.to_nat w) 0 (hex_fixed (N.to_nat w) c ++ t) = Some (c, t)) by (apply hex_fixed_read; [now rewrite N2Nat.id|lia]).
    destruct We as [[-> ->]|[[-> ->]|[-> ->]]].
    - change (120 =? 120) with true. cbv iota. change 2%nat with (N.to_nat 2) at 1. now rewrite R.
    - change (117 =? 120) with false. change (117 =? 117) with true. cbv iota. change 4%nat with (N.to_nat 4) at 1. now rewrite R.
    - change (85 =? 120) with false. change (85 =? 117) with false. change (85 =? 85) with true. cbv iota. change 8%nat with (N.to_nat 8) at 1. now rewrite R. }
  assert (Y : read_string (S n) q ([c] ++ t) = match read_string n q t with Some (l, r) => Some (c :: l, r) | None => None end).
  { cbn [app read_string]. replace (c =? q) with false by lia. rewrite C10, C13. replace (c =? 92) with false by lia. reflexivity. }
  destruct ((c <? 32) || (c =? 127)) eqn:C32; [apply (X 2 120); [auto|change (16 ^ 2) with 256; lia]|]. destruct (c <? 127); [exact Y|]. destruct (pr c); [exact Y|].
  destruct (c <=? 255) eqn:C255; [apply (X 2 120); [auto|change (16 ^ 2) with 256; lia]|]. destruct (c <=? 65535) eqn:C65; [apply (X 4 117); [auto|change (16 ^ 4) with 65536; lia]|].
  apply (X 8 85); [auto|change (16 ^ 8) with 4294967296; lia].
Qed.
Lemma repr_str_read pr q s rest : q = 39 \/ q = 34 -> is_pystr s -> read_string (S (length s)) q (flat_map (repr_char pr q) s ++ q :: rest) = Some (s, rest).
Proof.
  intros Q. induction 1 as [|c s C F IH].
  - cbn [flat_map app length read_string]. now rewrite N.eqb_refl.
  - cbn [flat_map length]. rewrite <- app_assoc, repr_char_read by auto. now rewrite IH.
Qed.

(* ---------- more steps do no harm ---------- *)
Lemma string_more n : forall q s r, read_string n q s = Some r -> forall m, (n <= m)%nat -> read_string m q s = Some r.
Proof.
  induction n as [|n IH]; intros q s r H m L; [discriminate H|]. destruct m as [|m]; [lia|]. cbn [read_string] in *. destruct s as [|c t]; [discriminate H|].
  destruct (c =? q); [exact H|]. destruct ((c =? 10) || (c =? 13)); [discriminate H|]. destruct (if c =? 92 then read_escape t else Some (c, t)) as [[x r']|]; [|discriminate H].
  destruct (read_string n q r') as [[l r'']|] eqn:Q; [|discriminate H]. rewrite (IH _ _ _ Q m ltac:(lia)). exact H.
Qed.
Lemma lit_more n : (forall s r, read_lit n s = Some r -> forall m, (n <= m)%nat -> read_lit m s = Some r) /\
  (forall k s r, read_items n k s = Some r -> forall m, (n <= m)%nat -> read_items m k s = Some r).
Proof.
  induction n as [|n [IH1 IH2]]; [split; intros; discriminate|]. split.
  - intros s r H m L. destruct m as [|m]; [lia|]. cbn [read_lit] in *. destruct s as [|c t]; [discriminate H|].
    destruct ((c =? 39) || (c =? 34)). { destruct (read_string n c t) as [[x r']|] eqn:Q; [|discriminate H]. now rewrite (string_more _ _ _ _ Q m ltac:(lia)). }
    destruct (std_digit c); [exact H|]. destruct (c =? 91). { destruct (read_items n 93 t) as [x|] eqn:Q; [|discriminate H]. now rewrite (IH2 _ _ _ Q m ltac:(lia)). }
    destruct (c =? 40); [|exact H]. destruct (read_items n 41 t) as [x|] eqn:Q; [|discriminate H]. now rewrite (IH2 _ _ _ Q m ltac:(lia)).
  - intros k s r H m L. destruct m as [|m]; [lia|]. cbn [read_items] in *. destruct s as [|c t]; [discriminate H|]. destruct (c =? k); [exact H|].
    destruct (read_lit n (c :: t)) as [[x [|c' r']]|] eqn:Q; try discriminate H. rewrite (IH1 _ _ Q m ltac:(lia)). destruct (c' =? k); [exact H|]. destruct (c' =? 44); [|discriminate H].
    destruct (read_items n k (skip_blanks r')) as [y|] eqn:Q2; [|discriminate H]. now rewrite (IH2 _ _ _ Q2 m ltac:(lia)).
Qed.
Lemma args_more n : forall s r, read_args n s = Some r -> forall m, (n <= m)%nat -> read_args m s = Some r.
Proof.
  induction n as [|n IH]; intros s r H m L; [discriminate H|]. destruct m as [|m]; [lia|]. cbn [read_args] in *. destruct (read_name s) as [k r1]. destruct (expect $"=" r1) as [r2|]; [|discriminate H].
  destruct (read_lit n r2) as [[x r3]|] eqn:Q; [|discriminate H]. rewrite (proj1 (lit_more n) _ _ Q m ltac:(lia)). destruct (expect $")" r3); [exact H|]. destruct (expect $"," r3) as [r4|]; [|discriminate H].
  destruct (read_args n (skip_blanks r4)) as [y|] eqn:Q2; [|discriminate H]. now rewrite (IH _ _ Q2 m ltac:(lia)).
Qed.
Lemma reads_fun s o o' : reads s o -> reads s o' -> o = o'.
Proof.
  intros (n & H) (m & K). apply (proj1 (lit_more n)) with (m := Nat.max n m) in H; [|lia]. apply (proj1 (lit_more m)) with (m := Nat.max n m) in K; [|lia]. congruence.
Qed.
Lemma call_fun s name a a' : reads_call s name a -> reads_call s name a' -> a = a'.
Proof.
  intros (n & r & E1 & H) (m & r' & E2 & K). rewrite E1 in E2. injection E2 as <-. apply args_more with (m := Nat.max n m) in H; [|lia]. apply args_more with (m := Nat.max n m) in K; [|lia]. congruence.
Qed.

(* ---------- literals ---------- *)
Inductive pystr_obj : pyobj -> Prop :=
| PO_none : pystr_obj PNone
| PO_int n : pystr_obj (PInt n)
| PO_str s : is_pystr s -> pystr_obj (PStr s)
| PO_seq b l : Forall pystr_obj l -> pystr_obj (PSeq b l).
Definition stops (rest : list N) : Prop := match rest with c :: _ => std_digit c = false | [] => True end.
Definition readable (o : pyobj) (t : list N) : Prop := forall rest, stops rest -> exists n, read_lit n (t ++ rest) = Some (o, rest).
Definition starts_lit (t : list N) : Prop := match t with c :: _ => In c [39; 34; 91; 40; 78] \/ 48 <= c <= 57 | [] => False end.

Lemma digits_read d rest : Forall (fun c => 48 <= c <= 57) d -> stops rest -> read_digits (d ++ rest) = (d, rest).
Proof.
  intros H S. induction H as [|c d C F IH].
  - cbn [app]. destruct rest as [|c r]; [reflexivity|]. cbn [read_digits stops] in *. now rewrite S.
  - cbn [app read_digits]. assert (D : std_digit c = true) by (unfold std_digit; lia). now rewrite D, IH.
Qed.
Lemma dec_decimal n : std_decimal (dec_str n) = n.
Proof.
  pose proof (dec_str_value n) as V. rewrite StandardProofs.decimal_eq in V; [congruence|]. apply forallb_forall. intros c Hc. pose proof (dec_str_digits n) as F. rewrite Forall_forall in F. apply F in Hc. unfold std_digit. lia.
Qed.
Lemma items_step m k c t : read_items (S m) k (c :: t) =
      if c =? k then Some ([], true, t)
      else match read_lit m (c :: t) with
           | None => None
           | Some (x, []) => None
           | Some (x, c' :: r) =>
               if c' =? k then Some ([x], false, r)
               else if c' =? 44
               then match read_items m k (skip_blanks r) with Some (l, b, r') => Some (x :: l, b, r') | None => None end
               else None
           end.
Proof. reflexivity. Qed.
Lemma tuple_step m t : read_lit (S m) (40 :: t) =
  match read_items m 41 t with Some ([x], false, r) => Some (x, r) | Some (l, _, r) => Some (PSeq true l, r) | None => None end.
Proof. reflexivity. Qed.
Lemma list_step m t : read_lit (S m) (91 :: t) = match read_items m 93 t with Some (l, _, r) => Some (PSeq false l, r) | None => None end.
Proof. reflexivity. Qed.
Lemma join_two sep a b l : join sep (a :: b :: l) = a ++ sep ++ join sep (b :: l). Proof. reflexivity. Qed.
Lemma items_read l ts k : k = 93 \/ k = 41 -> Forall2 readable l ts -> Forall starts_lit ts ->
  forall rest, exists n, read_items n k (join $", " ts ++ k :: rest) = Some (l, match l with [] => true | _ => false end, rest).
Proof.
  intros K H. induction H as [|o t l ts R H IH]; intros ST rest.
  - exists 1%nat. cbn [join app read_items]. now rewrite N.eqb_refl.
  - inversion ST as [|? ? S0 ST']; subst. assert (T : exists c t', t = c :: t' /\ (c =? k) = false).
    { destruct t as [|c t']; [destruct S0|]. exists c, t'. split; [reflexivity|]. cbn [starts_lit In] in S0. lia. }
    destruct T as (c & t' & -> & CK). destruct ts as [|t2 ts].
    + inversion H; subst. destruct (R (k :: rest)) as (n & Q); [cbn [stops]; unfold std_digit; lia|]. exists (S n). cbn [join] in *. cbn [app] in Q |- *. cbn [read_items]. rewrite CK, Q, N.eqb_refl. reflexivity.
    + inversion H as [|o2 ? l2 ? R2 H2]; subst. rewrite join_two. destruct (IH ST' rest) as (n2 & Q2). set (x := join $", " (t2 :: ts) ++ k :: rest) in *.
      destruct (R (44 :: 32 :: x)) as (n1 & Q1); [reflexivity|]. exists (S (Nat.max n1 n2)).
      replace (((c :: t') ++ $", " ++ join $", " (t2 :: ts)) ++ k :: rest) with (c :: t' ++ 44 :: 32 :: x) by (unfold x; cbn [app]; now rewrite <- !app_assoc).
      cbn [read_items]. rewrite CK. apply (proj1 (lit_more n1)) with (m := Nat.max n1 n2) in Q1; [|lia]. cbn [app] in Q1. rewrite Q1. replace (44 =? k) with false by lia. change (44 =? 44) with true. cbv iota.
      change (skip_blanks (32 :: x)) with (skip_blanks x). assert (SB : skip_blanks x = x).
      { unfold x. inversion ST' as [|? ? S2 _]; subst. destruct t2 as [|c2 t2]; [destruct S2|]. destruct ts as [|t3 ts]; cbn [join app skip_blanks]; replace (c2 =? 32) with false; try reflexivity; cbn [starts_lit In] in S2; lia. }
      rewrite SB. apply (proj2 (lit_more n2)) with (m := Nat.max n1 n2) in Q2; [|lia]. rewrite Q2. reflexivity.
Qed.
Lemma ok_all {A} (l : list (res A)) ts : all_ok l = Ok ts -> Forall2 (fun r t => r = Ok t) l ts.
Proof.
  revert ts. induction l as [|[a|e] l IH]; intros ts H; cbn [all_ok] in H; [injection H as <-; constructor| |discriminate H].
  destruct (all_ok l) as [r|]; [|discriminate H]. injection H as <-. constructor; auto.
Qed.
Lemma starts_repr E pr o t : py_repr E pr o = Ok t -> starts_lit t.
Proof.
  destruct o; cbn [py_repr]; intros H.
  - injection H as <-. left. cbn [In]. tauto.
  - destruct (repr_fails E n); [discriminate H|]. injection H as <-. pose proof (dec_str_nonempty n) as N0. pose proof (dec_str_digits n) as F. destruct (dec_str n); [congruence|]. right. now inversion F.
  - injection H as <-. left. unfold repr_quote. destruct (_ && _); cbn [In]; tauto.
  - destruct (all_ok _); [|discriminate H]. destruct tuple; injection H as <-; left; cbn [In]; tauto.
Qed.
Lemma obj_ind (P : pyobj -> Prop) : P PNone -> (forall n, P (PInt n)) -> (forall s, P (PStr s)) -> (forall b l, Forall P l -> P (PSeq b l)) -> forall o, P o.
Proof. intros H1 H2 H3 H4. fix IH 1. intros [|n|s|b l]; [exact H1|apply H2|apply H3|]. apply H4. induction l as [|o l IHl]; constructor; [apply IH|exact IHl]. Qed.
Lemma repr_readable E pr : forall o t, pystr_obj o -> py_repr E pr o = Ok t -> readable o t.
Proof.
  apply (obj_ind (fun o => forall t, pystr_obj o -> py_repr E pr o = Ok t -> readable o t)); [intros t P H|intros n t P H|intros s t P H|intros tuple l IH t P H]; cbn [py_repr] in H.
  - injection H as <-. intros rest _. exists 1%nat. reflexivity.
  - destruct (repr_fails E n); [discriminate H|]. injection H as <-. intros rest S. exists 1%nat. pose proof (dec_str_digits n) as F. pose proof (dec_str_nonempty n) as N0.
    destruct (dec_str n) as [|c d] eqn:Q; [congruence|]. cbn [app read_lit]. inversion F; subst. replace ((c =? 39) || (c =? 34)) with false by lia. replace (std_digit c) with true by (unfold std_digit; lia).
    pose proof (digits_read (c :: d) rest F S) as DR. cbn [app] in DR. rewrite DR. rewrite <- Q, dec_decimal. reflexivity.
  - injection H as <-. intros rest _. exists (S (S (length s))). inversion P; subst. unfold repr_str. set (q := repr_quote s). assert (Q : q = 39 \/ q = 34) by (unfold q, repr_quote; destruct (_ && _); auto).
    cbn [app read_lit]. replace ((q =? 39) || (q =? 34)) with true by lia. rewrite <- app_assoc. cbn [app]. now rewrite repr_str_read.
  - destruct (all_ok (map (py_repr E pr) l)) as [ts|] eqn:A; [|discriminate H]. apply ok_all in A. assert (PL : Forall pystr_obj l) by (inversion P; auto).
    assert (R : Forall2 readable l ts /\ Forall starts_lit ts).
    { clear H P. revert ts A PL. induction IH as [|o l IHo IH IHl]; intros ts A PL; inversion A; subst; [split; constructor|]. inversion PL; subst. edestruct IHl as [R1 R2]; eauto. split; constructor; eauto using starts_repr. }
    destruct R as [R ST]. intros rest _. destruct tuple.
    + destruct ts as [|t1 [|t2 ts]].
      * injection H as <-. inversion R; subst. exists 2%nat. reflexivity.
      * inversion R as [|o1 ? l1 ? R1 R2]; subst. inversion R2; subst. injection H as <-. cbn [join]. destruct (R1 (44 :: 41 :: rest)) as (n & Q); [reflexivity|]. exists (S (S (S n))).
        match goal with |- read_lit _ ?s = _ => replace s with (40 :: t1 ++ 44 :: 41 :: rest) by (cbn [app]; rewrite <- app_assoc; reflexivity) end. rewrite tuple_step.
        inversion ST as [|? ? S1 _]; subst. destruct t1 as [|c t1]; [destruct S1|]. cbn [app]. rewrite items_step. replace (c =? 41) with false by (cbn [starts_lit In] in S1; lia).
        apply (proj1 (lit_more n)) with (m := S n) in Q; [|lia]. cbn [app] in Q. rewrite Q. change (44 =? 41) with false. change (44 =? 44) with true. cbv iota. change (skip_blanks (41 :: rest)) with (41 :: rest). rewrite items_step. change (41 =? 41) with true. cbv iota. reflexivity.
      * inversion R as [|o1 ? l1 ? R1 R2]; subst. inversion R2 as [|o2 ? l2 ? R3 R4]; subst. injection H as <-. destruct (items_read _ _ 41 (or_intror eq_refl) R ST rest) as (n & Q). exists (S n).
        match goal with |- read_lit _ ?s = _ => replace s with (40 :: join $", " (t1 :: t2 :: ts) ++ 41 :: rest) by (cbn [app]; rewrite <- app_assoc; reflexivity) end. rewrite tuple_step.
        rewrite Q. reflexivity.
    + injection H as <-. destruct (items_read _ _ 93 (or_introl eq_refl) R ST rest) as (n & Q). exists (S n).
      match goal with |- read_lit _ ?s = _ => replace s with (91 :: join $", " ts ++ 93 :: rest) by (cbn [app]; rewrite <- app_assoc; reflexivity) end. rewrite list_step.
      rewrite Q. reflexivity.
Qed.

(* ---------- calls ---------- *)
Lemma expect_app p s : expect p (p ++ s) = Some s.
Proof. induction p as [|c p IH]; [reflexivity|]. cbn [app expect]. now rewrite N.eqb_refl. Qed.
Definition letter (c : N) : bool := (65 <=? c) && (c <=? 90) || (97 <=? c) && (c <=? 122).
Lemma name_read k s : forallb letter k = true -> match s with c :: _ => letter c = false | [] => True end -> read_name (k ++ s) = (k, s).
Proof.
  intros H S. induction k as [|c k IH].
  - destruct s as [|c s]; [reflexivity|]. cbn [app read_name]. unfold letter in S. now rewrite S.
  - cbn [forallb] in H. apply andb_true_iff in H as [H1 H2]. cbn [app read_name]. unfold letter in H1. now rewrite H1, IH.
Qed.
Lemma args_step m s k r x r' : read_name s = (k, 61 :: r) -> read_lit m r = Some (x, r') ->
  read_args (S m) s =
  match r' with
  | c :: t => if 41 =? c then Some ([(k, x)], t)
              else if 44 =? c then match read_args m (skip_blanks t) with Some (l, r) => Some ((k, x) :: l, r) | None => None end else None
  | [] => None
  end.
Proof. intros H K. cbn [read_args]. rewrite H. change (expect $"=" (61 :: r)) with (Some r). cbv iota. rewrite K. destruct r' as [|c t]; [reflexivity|]. change (expect $")" (c :: t)) with (if 41 =? c then Some t else None). change (expect $"," (c :: t)) with (if 44 =? c then Some t else None). destruct (41 =? c); [reflexivity|]. destruct (44 =? c); [destruct (read_args m (skip_blanks t)) as [[? ?]|]|]; reflexivity. Qed.
Lemma args_read E pr : forall items ts, Forall2 (fun r t => r = Ok t) (map (repr_item E pr) items) ts -> items <> [] ->
  Forall (fun kv => (fst kv <> [] /\ forallb letter (fst kv) = true) /\ pystr_obj (snd kv)) items -> forall rest, exists n, read_args n (join $", " ts ++ 41 :: rest) = Some (items, rest).
Proof.
  induction items as [|[k o] items IH]; intros ts A N P rest; [congruence|]. inversion A as [|? t ? ts' A0 A1]; subst. inversion P as [|? ? [[P1 P1'] P2] P3]; subst. cbn [fst snd] in *.
  unfold repr_item in A0. cbn [fst snd] in A0. destruct (py_repr E pr o) as [x|] eqn:R; [|discriminate A0]. injection A0 as <-. apply repr_readable in R; [|exact P2].
  assert (G : forall y, read_name ((k ++ 61 :: x) ++ y) = (k, 61 :: x ++ y)).
  { intros y. rewrite <- app_assoc. cbn [app]. now apply name_read. }
  destruct ts' as [|t2 ts'].
  - destruct items; [|inversion A1]. cbn [join]. destruct (R (41 :: rest)) as (n & Q); [reflexivity|]. exists (S n). rewrite (args_step _ _ _ _ _ _ (G _) Q). reflexivity.
  - destruct items as [|kv items]; [inversion A1|]. destruct (IH _ A1 ltac:(discriminate) P3 rest) as (n2 & Q2). rewrite join_two. set (y := join $", " (t2 :: ts') ++ 41 :: rest) in *. destruct (R (44 :: 32 :: y)) as (n1 & Q1); [reflexivity|].
    exists (S (Nat.max n1 n2)). replace (((k ++ 61 :: x) ++ $", " ++ join $", " (t2 :: ts')) ++ 41 :: rest) with ((k ++ 61 :: x) ++ 44 :: 32 :: y) by (unfold y; now rewrite <- !app_assoc).
    apply (proj1 (lit_more n1)) with (m := Nat.max n1 n2) in Q1; [|lia]. rewrite (args_step _ _ _ _ _ _ (G _) Q1). change (41 =? 44) with false. change (44 =? 44) with true. cbv iota. change (skip_blanks (32 :: y)) with (skip_blanks y).
    assert (SB : skip_blanks y = y).
    { unfold y. inversion P3 as [|? ? [[L L'] _] _]; subst. inversion A1 as [|? ? ? ? B0 B1]; subst. unfold repr_item in B0. destruct (py_repr E pr (snd kv)); [|discriminate B0]. injection B0 as <-. destruct (fst kv) as [|c k2]; [congruence|].
      cbn [forallb] in L'. apply andb_true_iff in L' as [L' _]. unfold letter in L'. destruct ts' as [|t3 ts']; cbn [join app skip_blanks]; replace (c =? 32) with false by lia; reflexivity. }
    rewrite SB. apply args_more with (m := Nat.max n1 n2) in Q2; [|lia]. now rewrite Q2.
Qed.
Lemma call_read E pr name items t : Forall (fun kv => (fst kv <> [] /\ forallb letter (fst kv) = true) /\ pystr_obj (snd kv)) items -> items <> [] ->
  repr_call E pr name items = Ok t -> forall rest, exists n r, expect name (t ++ rest) = Some (40 :: r) /\ read_args n r = Some (items, rest).
Proof.
  intros P N H rest. unfold repr_call in H. destruct (all_ok (map (repr_item E pr) items)) as [ts|] eqn:A; [|discriminate H]. injection H as <-. apply ok_all in A.
  destruct (args_read E pr items ts A N P rest) as (n & Q). exists n, (join $", " ts ++ 41 :: rest). split; [|exact Q]. rewrite <- app_assoc, expect_app. change ($"(") with [40]. change ($")") with [41]. cbn [app]. now rewrite <- app_assoc.
Qed.

(* ---------- records ---------- *)
Definition record_items (u : urlrec) : list (str * pyobj) :=
  [($"scheme", PStr (scheme u)); ($"username", PStr (username u)); ($"password", PStr (password u));
   ($"host", host_obj (uhost u)); ($"port", port_obj (port u)); ($"path", path_obj (path u));
   ($"query", text_obj (query u)); ($"fragment", text_obj (fragment u))].
Lemma text_pystr o : (forall s, o = Some s -> is_pystr s) -> pystr_obj (text_obj o).
Proof. destruct o; intros H; constructor. now apply H. Qed.
Lemma record_ok u : pystr_rec u -> Forall (fun kv => (fst kv <> [] /\ forallb letter (fst kv) = true) /\ pystr_obj (snd kv)) (record_items u).
Proof.
  intros (H1 & H2 & H3 & H4 & H5 & H6 & H7). unfold record_items.
  repeat (apply Forall_cons; [split; [split; [discriminate|reflexivity]|cbn [snd]]|]); try apply Forall_nil; try (now constructor); auto using text_pystr.
  - destruct (uhost u) as [[s|n|l]|]; constructor; [now apply H4|]. apply Forall_map. apply Forall_forall. constructor.
  - destruct (port u); constructor.
  - destruct (path u); constructor; [exact H5|]. apply Forall_map. eapply Forall_impl; [|exact H5]. intros. now constructor.
Qed.
Lemma record_read E pr u t : pystr_rec u -> record_repr E pr u = Ok t -> exists args, reads_call t $"URLRecord" args /\ record_value args u.
Proof.
  intros P H. exists (record_items u). split.
  - destruct (call_read E pr _ _ t (record_ok u P) ltac:(discriminate) H []) as (n & r & Q). rewrite app_nil_r in Q. exists n, r. exact Q.
  - unfold record_items, record_value. split; [reflexivity|]. repeat split.
    + destruct (uhost u) as [[]|]; reflexivity.
    + destruct (port u); reflexivity.
    + destruct (path u); reflexivity.
    + destruct (query u); reflexivity.
    + destruct (fragment u); reflexivity.
Qed.
Lemma map_inj {A B} (f : A -> B) (Hf : forall x y, f x = f y -> x = y) : forall l l', map f l = map f l' -> l = l'.
Proof. induction l as [|x l IH]; intros [|y l'] H; try discriminate H; [reflexivity|]. injection H as H1 H2. f_equal; auto. Qed.
Lemma record_value_fun args u u' : record_value args u -> record_value args u' -> u = u'.
Proof.
  unfold record_value. destruct args as [|[k1 []] [|[k2 []] [|[k3 []] [|[k4 d] [|[k5 e] [|[k6 f] [|[k7 g] [|[k8 h] [|]]]]]]]]]; try (intros H; destruct H; fail).
  intros (_ & A1 & A2 & A3 & A4 & A5 & A6 & A7 & A8) (_ & B1 & B2 & B3 & B4 & B5 & B6 & B7 & B8). destruct u as [a1 a2 a3 a4 a5 a6 a7 a8], u' as [b1 b2 b3 b4 b5 b6 b7 b8].
  cbn [scheme username password uhost port path query fragment] in *. subst.
  assert (T : forall o x y, text_value o x -> text_value o y -> x = y) by (intros [| | |] [|] [|]; cbn; try tauto; congruence).
  f_equal.
  - destruct d as [| | |[]], a4 as [[]|], b4 as [[]|]; cbn in A4, B4; try tauto; try congruence. f_equal. f_equal. apply (map_inj PInt); [congruence|congruence].
  - destruct e, a5, b5; cbn in A5, B5; try tauto; congruence.
  - destruct f as [| | |[]], a6, b6; cbn in A6, B6; try tauto; try congruence. f_equal. apply (map_inj PStr); [congruence|congruence].
  - eauto.
  - eauto.
Qed.
Lemma record_repr_inj E pr E' pr' u u' t : pystr_rec u -> pystr_rec u' -> record_repr E pr u = Ok t -> record_repr E' pr' u' = Ok t -> u = u'.
Proof.
  intros P P' H H'. destruct (record_read _ _ _ _ P H) as (a & R & V). destruct (record_read _ _ _ _ P' H') as (a' & R' & V'). rewrite (call_fun _ _ _ _ R' R) in V'. eapply record_value_fun; eauto.
Qed.

(* ---------- when a record's repr fails ---------- *)
Lemma all_ok_none {A} (l : list (res A)) : (forall r, In r l -> exists a, r = Ok a) -> exists x, all_ok l = Ok x.
Proof.
  induction l as [|r l IH]; intros H; [now exists []|]. destruct (H r (or_introl eq_refl)) as (a & ->). destruct IH as (x & Q); [intros; apply H; now right|]. exists (a :: x). cbn [all_ok]. now rewrite Q.
Qed.
Lemma all_ok_err {A} (l : list (res A)) e : all_ok l = Err e -> In (Err e) l.
Proof. induction l as [|[a|e'] l IH]; intros H; [discriminate H| |injection H as ->; now left]. cbn [all_ok] in H. destruct (all_ok l); [discriminate H|]. right. apply IH. exact H. Qed.
Fixpoint obj_ints (o : pyobj) : list N :=
  match o with PInt n => [n] | PSeq _ l => flat_map obj_ints l | _ => [] end.
Lemma repr_total E pr o : (forall n, In n (obj_ints o) -> repr_fails E n = false) -> exists t, py_repr E pr o = Ok t.
Proof.
  induction o as [|n|s|b l IH] using obj_ind; intros H; try (eexists; reflexivity).
  - cbn [py_repr]. rewrite H by now left. eexists; reflexivity.
  - cbn [py_repr]. destruct (all_ok_none (map (py_repr E pr) l)) as (x & Q); [|rewrite Q; eexists; reflexivity].
    intros r Hr. apply in_map_iff in Hr as (o & <- & Ho). rewrite Forall_forall in IH. apply IH; [exact Ho|]. intros n Hn. apply H. cbn [obj_ints]. apply in_flat_map. eauto.
Qed.
Lemma repr_err E pr o e : py_repr E pr o = Err e -> e = EValue /\ exists n, In n (obj_ints o) /\ repr_fails E n = true.
Proof.
  induction o as [|n|s|b l IH] using obj_ind; intros H; try discriminate H.
  - cbn [py_repr] in H. destruct (repr_fails E n) eqn:R; [|discriminate H]. injection H as <-. split; [reflexivity|]. exists n. now split; [left|].
  - cbn [py_repr] in H. destruct (all_ok (map (py_repr E pr) l)) eqn:A; [discriminate H|]. injection H as ->. apply all_ok_err, in_map_iff in A as (o & A & Ho). rewrite Forall_forall in IH.
    destruct (IH o Ho A) as (-> & n & Hn & R). split; [reflexivity|]. exists n. split; [|exact R]. cbn [obj_ints]. apply in_flat_map. eauto.
Qed.
Lemma record_obj_ints u n : In n (flat_map (fun kv => obj_ints (snd kv)) (record_items u)) <-> In n (record_ints u).
Proof.
  unfold record_items, record_ints. cbn [flat_map snd obj_ints app]. rewrite !in_app_iff.
  assert (P : forall l, flat_map obj_ints (map PInt l) = l) by (intros l; induction l as [|x l IH]; [reflexivity|cbn [map flat_map obj_ints app]; now rewrite IH]).
  assert (Q : forall l, flat_map obj_ints (map PStr l) = []) by (intros l; induction l as [|x l IH]; [reflexivity|cbn [map flat_map obj_ints app]; now rewrite IH]).
  destruct (uhost u) as [[h|v|l]|]; destruct (port u), (path u), (query u), (fragment u); cbn [host_obj port_obj text_obj path_obj obj_ints]; rewrite ?P, ?Q; cbn [In app]; tauto.
Qed.
Lemma record_repr_fails E pr u : record_repr E pr u = Err EValue \/ exists t, record_repr E pr u = Ok t.
Proof.
  unfold record_repr, repr_call. destruct (all_ok _) as [ts|e] eqn:A; [right; eexists; reflexivity|left]. f_equal. apply all_ok_err, in_map_iff in A as ((k & o) & A & _). unfold repr_item in A. cbn [fst snd] in A.
  destruct (py_repr E pr o) as [|e'] eqn:R; [discriminate A|]. injection A as <-. now apply repr_err in R.
Qed.
Lemma record_repr_ok E pr u : limit_ok E -> (exists t, record_repr E pr u = Ok t) <-> Forall (printable (int_limit E)) (record_ints u).
Proof.
  intros HE. change (record_repr E pr u) with (repr_call E pr $"URLRecord" (record_items u)). unfold repr_call. split.
  - intros (t & H). destruct (all_ok _) as [ts|e] eqn:A; [clear H|discriminate H]. apply Forall_forall. intros n Hn. apply printable_eq; [exact HE|]. apply record_obj_ints, in_flat_map in Hn as ((k & o) & Ho & Hn). cbn [snd] in Hn.
    apply ok_all in A. assert (I1 : In (repr_item E pr (k, o)) (map (repr_item E pr) (record_items u))) by now apply in_map.
    assert (G : exists x, repr_item E pr (k, o) = Ok x). { clear -A I1. induction A as [|? ? ? ? A0 A1 IH]; [destruct I1|]. destruct I1 as [<-|I1]; [eauto|now apply IH]. }
    destruct G as (x & G). unfold repr_item in G. cbn [fst snd] in G. destruct (py_repr E pr o) as [y|] eqn:R; [|discriminate G]. clear -R Hn.
    revert y R. induction o as [|m|s|b l IH] using obj_ind; intros y R; cbn [obj_ints] in Hn; try (destruct Hn; fail).
    + destruct Hn as [->|[]]. cbn [py_repr] in R. destruct (repr_fails E n); [discriminate R|reflexivity].
    + apply in_flat_map in Hn as (o & Ho & Hn). rewrite Forall_forall in IH. cbn [py_repr] in R. destruct (all_ok (map (py_repr E pr) l)) as [ts|] eqn:A; [|discriminate R]. apply ok_all in A.
      assert (I1 : In (py_repr E pr o) (map (py_repr E pr) l)) by now apply in_map.
      assert (G : exists x, py_repr E pr o = Ok x). { clear -A I1. induction A as [|? ? ? ? A0 A1 IH]; [destruct I1|]. destruct I1 as [<-|I1]; [eauto|now apply IH]. }
      destruct G as (x & G). eapply IH; eauto.
  - intros F. destruct (all_ok_none (map (repr_item E pr) (record_items u))) as (ts & Q); [|rewrite Q; eexists; reflexivity].
    intros r Hr. apply in_map_iff in Hr as ((k & o) & <- & Ho). unfold repr_item. cbn [fst snd].
    destruct (repr_total E pr o) as (t & R); [|rewrite R; eexists; reflexivity]. intros n Hn. apply printable_eq; [exact HE|]. rewrite Forall_forall in F. apply F, record_obj_ints, in_flat_map. exists (k, o). now split.
Qed.
Lemma small_printable E n : limit_ok E -> n < 10 ^ 10 -> printable (int_limit E) n.
Proof. intros HE H. apply printable_eq; [exact HE|]. now apply repr_ok. Qed.
Lemma parsed_repr E pr u : limit_ok E -> parsed E u -> url_v4_ok u -> exists t, record_repr E pr u = Ok t.
Proof.
  intros HE P V. apply record_repr_ok; [exact HE|]. pose proof (parsed_wf E u P) as ((_ & _ & _ & H4 & _ & H6) & _). unfold record_ints. apply Forall_app. split.
  - unfold wf_host in H4. destruct (uhost u) as [[h|n|l]|] eqn:U; try constructor; try constructor.
    + apply small_printable; [exact HE|]. specialize (V n U). change (10 ^ 10) with 10000000000. lia.
    + destruct H4 as [[H4 _]|[_ ((h0 & _ & N0 & H4) & _)]]; [discriminate H4|]. rewrite host_parse_eq in H4 by exact N0. destruct (starts_with [91] h0).
      * destruct (ends_with_char h0 93); [|discriminate H4]. pose proof (ipv6_parse_total E (removelast (tl h0))) as T. destruct (snd (ipv6_parse E _)) as [a|]; [|discriminate H4]. injection H4 as <-. destruct T as (_ & T).
        eapply Forall_impl; [|exact T]. intros x Hx. apply small_printable; [exact HE|]. cbv beta in Hx; change (10 ^ 10) with 10000000000. lia.
      * destruct (negb _); [destruct (snd (parse_opaque_host h0)); discriminate H4|]. destruct (snd (domain_to_ascii E false _)); [|discriminate H4]. destruct (existsb _ _); [discriminate H4|]. destruct (is_ends_in_a_number E _); [|discriminate H4]. destruct (snd (ipv4_parse E _)); discriminate H4.
  - destruct (port u) as [n|] eqn:U; constructor; [|constructor]. apply small_printable; [exact HE|]. destruct (H6 n eq_refl) as (Hn & _). change (10 ^ 10) with 10000000000. lia.
Qed.

(* ---------- URLSearchParams ---------- *)
Lemma pairs_value l : pairs_obj l = PSeq false (map pair_value l).
Proof. reflexivity. Qed.
Lemma params_read E pr l : Forall (fun p => is_pystr (fst p) /\ is_pystr (snd p)) l ->
  exists lit, params_repr E pr l = Ok ($"URLSearchParams(" ++ lit ++ $")") /\ reads lit (PSeq false (map pair_value l)).
Proof.
  intros F. unfold params_repr. rewrite pairs_value. destruct (repr_total E pr (PSeq false (map pair_value l))) as (t & R).
  { intros n Hn. exfalso. cbn [obj_ints] in Hn. apply in_flat_map in Hn as (o & Ho & Hn). apply in_map_iff in Ho as (p & <- & _). exact Hn. }
  rewrite R. exists t. split; [reflexivity|]. apply repr_readable in R.
  - destruct (R [] I) as (n & Q). rewrite app_nil_r in Q. now exists n.
  - constructor. apply Forall_map. eapply Forall_impl; [|exact F]. intros [a b] (Ha & Hb). constructor. repeat constructor; assumption.
Qed.
Lemma pair_value_inj p p' : pair_value p = pair_value p' -> p = p'.
Proof. destruct p, p'. unfold pair_value. cbn [fst snd]. congruence. Qed.
Lemma params_repr_inj E pr E' pr' l l' : Forall (fun p => is_pystr (fst p) /\ is_pystr (snd p)) l -> Forall (fun p => is_pystr (fst p) /\ is_pystr (snd p)) l' ->
  params_repr E pr l = params_repr E' pr' l' -> l = l'.
Proof.
  intros F F' H. destruct (params_read E pr l F) as (t & Q & R). destruct (params_read E' pr' l' F') as (t' & Q' & R'). rewrite Q, Q' in H. injection H as H. apply app_inj_tail in H as (-> & _).
  pose proof (reads_fun _ _ _ R R') as X. injection X as X. apply (map_inj pair_value pair_value_inj) in X. exact X.
Qed.

(* ---------- URL ---------- *)
Definition url_items (o : urlobj) (og : str) : list (str * pyobj) :=
  [($"href", PStr (get_href o)); ($"origin", PStr og); ($"protocol", PStr (get_protocol o)); ($"username", PStr (get_username o));
   ($"password", PStr (get_password o)); ($"host", PStr (get_host o)); ($"hostname", PStr (get_hostname o)); ($"port", PStr (get_port o));
   ($"pathname", PStr (get_pathname o)); ($"search", PStr (get_search o)); ($"hash", PStr (get_hash o))].
Lemma url_repr_ok E pr o og : get_origin E o = Ok og -> exists t, url_repr E pr o = Ok ($"<" ++ t ++ $">") /\ repr_call E pr $"URL" (url_items o og) = Ok t.
Proof.
  intros G. unfold url_repr. rewrite G. fold (url_items o og). unfold repr_call. destruct (all_ok_none (map (repr_item E pr) (url_items o og))) as (ts & Q).
  - intros r Hr. apply in_map_iff in Hr as ((k & v) & <- & Hv). unfold repr_item. cbn [fst snd]. destruct (repr_total E pr v) as (t & R); [|rewrite R; eexists; reflexivity].
    intros n Hn. exfalso. unfold url_items in Hv. repeat (destruct Hv as [Hv|Hv]; [injection Hv as <- <-; exact Hn|]). exact Hv.
  - rewrite Q. eexists. split; reflexivity.
Qed.
Lemma url_read E pr o og : get_origin E o = Ok og -> Forall is_pystr (url_texts o og) ->
  exists t, url_repr E pr o = Ok ($"<" ++ t ++ $">") /\ reads_call t $"URL" (combine url_names (map PStr (url_texts o og))).
Proof.
  intros G F. destruct (url_repr_ok E pr o og G) as (t & Q & R). exists t. split; [exact Q|].
  assert (P : Forall (fun kv => (fst kv <> [] /\ forallb letter (fst kv) = true) /\ pystr_obj (snd kv)) (url_items o og)).
  { unfold url_items. unfold url_texts in F. repeat (apply Forall_cons; [split; [split; [discriminate|reflexivity]|cbn [snd]]|]); try apply Forall_nil; constructor;
    repeat match goal with H : Forall is_pystr (_ :: _) |- _ => apply Forall_cons_iff in H as (? & H) end; assumption. }
  destruct (call_read E pr _ _ t P ltac:(discriminate) R []) as (n & r & K). rewrite app_nil_r in K. exists n, r. exact K.
Qed.
Lemma eval_params l : Forall (fun p => is_pystr (fst p) /\ surrogate_free (fst p) /\ is_pystr (snd p) /\ surrogate_free (snd p)) l ->
  sp_init_pairs (map (fun p => (PVStr (fst p), PVStr (snd p))) l) = l.
Proof.
  unfold sp_init_pairs. rewrite map_map. cbn [fst snd]. induction 1 as [|[a b] l (A1 & A2 & B1 & B2) F IH]; [reflexivity|]. cbn [map fst snd] in *. unfold sp_usv at 1 2. cbn [py_str]. now rewrite !utf8_round_trip_id, IH.
Qed.
Lemma reachable_repr E pr l : reachable l ->
  exists lit, params_repr E pr l = Ok ($"URLSearchParams(" ++ lit ++ $")") /\ reads lit (PSeq false (map pair_value l)) /\
    (forall o, reads lit o -> o = PSeq false (map pair_value l)) /\ sp_init_pairs (map (fun p => (PVStr (fst p), PVStr (snd p))) l) = l.
Proof.
  intros H. pose proof (proj2 (proj2 copies) l H) as F. destruct (params_read E pr l) as (lit & Q & R).
  { eapply Forall_impl; [|exact F]. cbv beta. tauto. }
  exists lit. split; [exact Q|]. split; [exact R|]. split; [|now apply eval_params]. intros o Ho. symmetry. eapply reads_fun; eauto.
Qed.
Lemma url_repr_err E pr o e : url_repr E pr o = Err e -> get_origin E o = Err e.
Proof. intros H. destruct (get_origin E o) as [og|] eqn:G; [|unfold url_repr in H; rewrite G in H; congruence]. destruct (url_repr_ok E pr o og G) as (t & Q & _). congruence. Qed.
