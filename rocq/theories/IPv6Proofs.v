(** Lemmas about the IPv6 serializer and parser. *)
From Coq Require Import Ascii String.
From Coq Require Import NArith ZArith Bool Arith Lia ZifyBool ZifyN ZifyNat List.
From Verif Require Import PyStr PyInt Codec Env HostModel SpecText SpecHost Lemmas CodecProofs QuoteProofs PyIntProofs IPv4Proofs.
Import ListNotations.
Open Scope N_scope.

(* ---------- the longest run of zeros ---------- *)
Fixpoint zpat (n : nat) (vals : list N) : list bool :=
  match n with
  | O => []
  | S m => match vals with v :: t => (v =? 0) :: zpat m t | [] => [] end
  end.
Definition zb (v : N) : N := if v =? 0 then 0 else 1.
Lemma longest_zb vals : forall i c z m l, ipv6_longest vals i c z m l = ipv6_longest (map zb vals) i c z m l.
Proof.
  induction vals as [|v t IH]; intros; [reflexivity|]. cbn [map ipv6_longest]. unfold zb at 1.
  destruct (v =? 0); cbn [N.eqb Pos.eqb]; [apply IH|]. destruct (m <? l)%nat; apply IH.
Qed.

(** zeros at k, k+1, ..., k+r-1 *)
Definition zrun (b : list N) (k r : nat) : bool :=
  (k + r <=? length b)%nat && forallb (fun v => v =? 0) (firstn r (skipn k b)).
Definition check_longest (b : list N) : bool :=
  let runs := list_prod (seq 0 9) (seq 0 9) in
  match ipv6_longest b 0 None None 1 0 with
  | Some k =>
      existsb (fun r =>
        zrun b k r && (2 <=? r)%nat &&
        forallb (fun p => negb (zrun b (fst p) (snd p)) || (snd p <? r)%nat
                          || ((snd p =? r)%nat && (k <=? fst p)%nat)) runs) (seq 0 9)
  | None => forallb (fun p => negb (zrun b (fst p) (snd p)) || (snd p <? 2)%nat) runs
  end.
Fixpoint patterns (n : nat) : list (list N) :=
  match n with
  | O => [[]]
  | S m => map (cons 0) (patterns m) ++ map (cons 1) (patterns m)
  end.
Lemma patterns_all l : In (map zb l) (patterns (length l)).
Proof.
  induction l as [|v t IH]; [left; reflexivity|]. cbn [map length patterns]. apply in_or_app.
  assert (Z : zb v = 0 \/ zb v = 1) by (unfold zb; destruct (v =? 0); auto).
  destruct Z as [-> | ->]; [left|right]; now apply in_map.
Qed.
Lemma check_all : forallb check_longest (patterns 8) = true.
Proof. vm_compute. reflexivity. Qed.

Lemma zrun_zb a k r : zrun (map zb a) k r = zrun a k r.
Proof.
  unfold zrun. rewrite map_length. f_equal. rewrite skipn_map, firstn_map.
  induction (firstn r (skipn k a)) as [|v t IH]; [reflexivity|]. cbn [map forallb]. rewrite IH. f_equal.
  unfold zb. destruct (v =? 0) eqn:Q; reflexivity.
Qed.
Lemma all_zero_repeat l : forallb (fun v => v =? 0) l = true -> l = repeat 0 (length l).
Proof.
  induction l as [|v t IH]; intros H; [reflexivity|]. cbn [forallb] in H. apply andb_true_iff in H as [H1 H2].
  apply N.eqb_eq in H1. subst. cbn [length repeat]. f_equal. auto.
Qed.
Lemma skipn_plus {A} (l : list A) : forall k r, skipn r (skipn k l) = skipn (k + r) l.
Proof.
  induction l as [|x l IH]; intros [|k] r; cbn [Nat.add skipn]; auto. apply skipn_nil.
Qed.
Lemma zrun_split a k r : zrun a k r = true ->
  zero_run a (firstn k a) (skipn (k + r) a) r /\ length (firstn k a) = k.
Proof.
  unfold zrun, zero_run. intros H. apply andb_true_iff in H as [H1 H2]. split.
  - rewrite <- (firstn_skipn k a) at 1. f_equal. rewrite <- (firstn_skipn r (skipn k a)) at 1. f_equal.
    + apply all_zero_repeat in H2. rewrite firstn_length, skipn_length in H2.
      rewrite H2 at 1. f_equal. lia.
    + apply skipn_plus.
  - apply firstn_length_le. lia.
Qed.
Lemma zrun_intro a pre post r : zero_run a pre post r -> zrun a (length pre) r = true.
Proof.
  unfold zrun, zero_run. intros ->. apply andb_true_iff. split.
  - rewrite !app_length, repeat_length. apply Nat.leb_le. lia.
  - rewrite skipn_app, skipn_all, Nat.sub_diag, skipn_O. cbn [app].
    rewrite firstn_app, repeat_length, Nat.sub_diag, firstn_O, app_nil_r.
    rewrite firstn_all2 by (rewrite repeat_length; lia). clear.
    induction r; [reflexivity|]. cbn [repeat forallb]. now rewrite IHr.
Qed.

Lemma longest_some a k : length a = 8%nat -> ipv6_longest a 0 None None 1 0 = Some k ->
  exists pre post r, first_longest_run a pre post r /\ length pre = k.
Proof.
  intros L H. pose proof (patterns_all a) as P. rewrite L in P.
  pose proof check_all as C. rewrite forallb_forall in C. specialize (C _ P). clear P.
  unfold check_longest in C. rewrite <- longest_zb, H in C.
  apply existsb_exists in C as (r & _ & C). apply andb_true_iff in C as [C C3].
  apply andb_true_iff in C as [C1 C2]. rewrite zrun_zb in C1.
  destruct (zrun_split _ _ _ C1) as [Z Lk].
  exists (firstn k a), (skipn (k + r) a), r. split; [|exact Lk]. split; [exact Z|]. split; [lia|].
  intros pre' post' r' Z'. apply zrun_intro in Z'. rewrite forallb_forall in C3.
  assert (B : (length pre' + r' <= 8)%nat).
  { unfold zrun in Z'. apply andb_true_iff in Z' as [Z' _]. lia. }
  specialize (C3 (length pre', r')). rewrite Lk.
  assert (I : In (length pre', r') (list_prod (seq 0 9) (seq 0 9))).
  { apply in_prod; apply in_seq; lia. }
  specialize (C3 I). cbn [fst snd] in C3. rewrite zrun_zb, Z' in C3. cbn [negb orb] in C3. lia.
Qed.
Lemma longest_none a : length a = 8%nat -> ipv6_longest a 0 None None 1 0 = None ->
  forall pre post r, zero_run a pre post r -> (r < 2)%nat.
Proof.
  intros L H. pose proof (patterns_all a) as P. rewrite L in P.
  pose proof check_all as C. rewrite forallb_forall in C. specialize (C _ P). clear P.
  unfold check_longest in C. rewrite <- longest_zb, H in C.
  intros pre post r Z'. apply zrun_intro in Z'. rewrite forallb_forall in C.
  assert (B : (length pre + r <= 8)%nat).
  { unfold zrun in Z'. apply andb_true_iff in Z' as [Z' _]. lia. }
  specialize (C (length pre, r)).
  assert (I : In (length pre, r) (list_prod (seq 0 9) (seq 0 9))).
  { apply in_prod; apply in_seq; lia. }
  specialize (C I). cbn [fst snd] in C. rewrite zrun_zb, Z' in C. cbn [negb orb] in C. lia.
Qed.

(* ---------- printing ---------- *)
Definition hexes (l : list N) : list (list N) := map hex_str l.
Lemma hexes_spec l : Forall2 (shortest_in_base 16) l (hexes l).
Proof. induction l; constructor; auto. apply hex_str_spec. Qed.

Lemma out_plain vals : forall i c, (i + length vals = 8)%nat ->
  (forall k, c = Some k -> (k < i)%nat) ->
  ipv6_out vals i c false = std_join [58] (hexes vals).
Proof.
  induction vals as [|v t IH]; intros i c L H; [reflexivity|].
  cbn [ipv6_out length andb] in *.
  assert (Q : onat_eqb c i = false).
  { destruct c as [k|]; [|reflexivity]. specialize (H k eq_refl). cbn. lia. }
  rewrite Q, IH by (try lia; intros k E; specialize (H k E); lia).
  unfold hexes. cbn [map std_join]. destruct t as [|w t].
  - replace (i =? 7)%nat with true by (cbn in L; lia). cbn [map std_join]. now rewrite app_nil_r.
  - replace (i =? 7)%nat with false by (cbn in L; lia). reflexivity.
Qed.
Lemma out_zeros m post i k : (k < i)%nat -> (i + m + length post = 8)%nat ->
  (forall v t, post = v :: t -> v <> 0) ->
  ipv6_out (repeat 0 m ++ post) i (Some k) true = std_join [58] (hexes post).
Proof.
  revert i; induction m as [|m IH]; intros i Hk L H; cbn [repeat app].
  - destruct post as [|v t]; [reflexivity|]. specialize (H v t eq_refl).
    rewrite <- (out_plain (v :: t) i (Some k)); [|cbn [length] in *; lia|intros ? Q; injection Q; lia].
    cbn [ipv6_out andb]. replace (v =? 0) with false by lia. reflexivity.
  - cbn [ipv6_out andb N.eqb]. apply IH; auto; lia.
Qed.
Lemma out_pre pre rest i k : (i + length pre = k)%nat -> (k < 8)%nat ->
  ipv6_out (pre ++ rest) i (Some k) false =
  concat (map (fun v => hex_str v ++ [58]) pre) ++ ipv6_out rest k (Some k) false.
Proof.
  revert i; induction pre as [|v t IH]; intros i L H; cbn [app map concat length] in *.
  - replace i with k by lia. reflexivity.
  - cbn [ipv6_out andb onat_eqb]. replace (k =? i)%nat with false by lia.
    replace (i =? 7)%nat with false by lia. rewrite IH by lia. rewrite <- !app_assoc. reflexivity.
Qed.
Lemma join_colon pre : pre <> [] ->
  concat (map (fun v => hex_str v ++ [58]) pre) = std_join [58] (hexes pre) ++ [58].
Proof.
  induction pre as [|v t IH]; [congruence|]. intros _. cbn [map concat]. unfold hexes. cbn [map std_join].
  destruct t as [|w t]; [cbn [map std_join concat]; now rewrite app_nil_r|].
  rewrite IH by discriminate. unfold hexes. cbn [map]. cbv iota. rewrite <- !app_assoc. reflexivity.
Qed.

Lemma ipv6_serialize_compressed a pre post r : length a = 8%nat -> first_longest_run a pre post r ->
  ipv6_longest a 0 None None 1 0 = Some (length pre) ->
  ipv6_serialize a = std_join [58] (hexes pre) ++ [58; 58] ++ std_join [58] (hexes post).
Proof.
  intros L (Z & R2 & Best) Q. unfold ipv6_serialize. rewrite Q.
  unfold zero_run in Z. assert (L2 : (length pre + r + length post = 8)%nat).
  { rewrite Z in L. rewrite !app_length, repeat_length in L. lia. }
  assert (Hpost : forall v t, post = v :: t -> v <> 0).
  { intros v t -> ->. destruct (Best pre t (S r)); [|lia|lia].
    unfold zero_run. rewrite Z. f_equal. change (0 :: t) with ([0] ++ t). rewrite app_assoc. f_equal.
    symmetry. exact (repeat_cons r 0). }
  destruct r as [|r]; [lia|].
  rewrite Z at 1. rewrite out_pre by lia. cbn [repeat app].
  cbn [ipv6_out andb onat_eqb]. rewrite Nat.eqb_refl. rewrite out_zeros by (auto; lia).
  change (58 :: 58 :: std_join [58] (hexes post)) with ([58] ++ [58] ++ std_join [58] (hexes post)).
  destruct pre as [|v t].
  - cbn [map concat length Nat.eqb app]. reflexivity.
  - rewrite join_colon by discriminate. cbn [length Nat.eqb]. rewrite <- !app_assoc. reflexivity.
Qed.

Lemma ipv6_serialize_cases a : length a = 8%nat ->
  (exists pre post r, first_longest_run a pre post r /\
     ipv6_serialize a = std_join [58] (hexes pre) ++ [58; 58] ++ std_join [58] (hexes post)) \/
  ((forall pre post r, zero_run a pre post r -> (r < 2)%nat) /\
   ipv6_serialize a = std_join [58] (hexes a)).
Proof.
  intros L. destruct (ipv6_longest a 0 None None 1 0) as [k|] eqn:Q.
  - left. destruct (longest_some a k L Q) as (pre & post & r & F & <-).
    exists pre, post, r. split; auto. now apply ipv6_serialize_compressed with r.
  - right. split; [now apply longest_none|]. unfold ipv6_serialize. rewrite Q.
    apply out_plain; [lia|discriminate].
Qed.
Lemma ipv6_serialize_text a : length a = 8%nat -> ipv6_text (shortest_in_base 16) a (ipv6_serialize a).
Proof.
  intros L. destruct (ipv6_serialize_cases a L) as [(pre & post & r & F & Q)|(N & Q)].
  - left. exists pre, post, r, (hexes pre), (hexes post). repeat split; auto using hexes_spec; apply F.
  - right. split; auto. exists (hexes a). auto using hexes_spec.
Qed.

(* ---------- the parser's loop, chunk by chunk ---------- *)
Lemma hex_mem c : mem c ASCII_HEX_DIGITS = match std_hex c with Some _ => true | None => false end.
Proof.
  unfold std_hex. destruct (mem c ASCII_HEX_DIGITS) eqn:M.
  - apply mem_In in M. cbn in M. repeat (destruct M as [<-|M]; [reflexivity|]). destruct M.
  - apply mem_not_In in M. cbn in M.
    destruct ((48 <=? c) && (c <=? 57)) eqn:A; [lia|].
    destruct ((65 <=? c) && (c <=? 70)) eqn:B; [lia|].
    destruct ((97 <=? c) && (c <=? 102)) eqn:C; [lia|reflexivity].
Qed.
Lemma radix16_hex c : std_radix_digit 16 c = std_hex c.
Proof.
  unfold std_radix_digit, std_hex. destruct ((48 <=? c) && (c <=? 57)) eqn:A.
  - replace (c - 48 <? 16) with true by lia. reflexivity.
  - destruct ((65 <=? c) && (c <=? 70)) eqn:B; [replace (c - 65 + 10 <? 16) with true by lia; reflexivity|].
    destruct ((97 <=? c) && (c <=? 102)) eqn:C; [replace (c - 97 + 10 <? 16) with true by lia; reflexivity|reflexivity].
Qed.
Lemma radix_value_lt b s : 2 <= b <= 16 -> forall acc v, std_radix_value b s acc = Some v ->
  v < (acc + 1) * b ^ N.of_nat (length s).
Proof.
  intros Hb. induction s as [|c t IH]; intros acc v H; cbn [std_radix_value length] in *.
  - apply Some_inj in H; subst. change (N.of_nat 0) with 0. rewrite N.pow_0_r. lia.
  - destruct (std_radix_digit b c) as [d|] eqn:Q; [|discriminate]. apply IH in H.
    assert (d < b). { unfold std_radix_digit in Q. destruct (std_hex c) as [d'|]; [|discriminate].
      destruct (d' <? b) eqn:W; [|discriminate]. injection Q as ->. lia. }
    rewrite Nat2N.inj_succ, N.pow_succ_r'.
    assert (acc * b + d + 1 <= (acc + 1) * b) by lia.
    set (P := b ^ N.of_nat (length t)) in *. nia.
Qed.
Lemma radix16_total s acc : existsb (fun x => negb (mem x ASCII_HEX_DIGITS)) s = false ->
  exists v, std_radix_value 16 s acc = Some v.
Proof.
  revert acc; induction s as [|c t IH]; intros acc H; [eexists; reflexivity|].
  cbn [existsb] in H. apply orb_false_iff in H as [H1 H2]. rewrite hex_mem in H1.
  cbn [std_radix_value]. rewrite radix16_hex. destruct (std_hex c); [|discriminate]. eauto.
Qed.
Lemma radix10_total s acc : existsb (fun x => negb (mem x ASCII_DIGITS)) s = false ->
  exists v, std_radix_value 10 s acc = Some v.
Proof.
  revert acc; induction s as [|c t IH]; intros acc H; [eexists; reflexivity|].
  cbn [existsb] in H. apply orb_false_iff in H as [H1 H2].
  cbn [std_radix_value]. assert (D : 48 <= c <= 57).
  { destruct (mem c ASCII_DIGITS) eqn:M; [|discriminate]. apply mem_In in M. cbn in M. lia. }
  unfold std_radix_digit, std_hex. replace ((48 <=? c) && (c <=? 57)) with true by lia.
  replace (c - 48 <? 10) with true by lia. eauto.
Qed.

(** a chunk without a dot *)
Definition hex_chunk (p : list N) : option N :=
  if (4 <? length p)%nat then None else std_radix_value 16 p 0.
Lemma hex_chunk_lt p v : hex_chunk p = Some v -> v < 65536.
Proof.
  unfold hex_chunk. destruct (4 <? length p)%nat eqn:L; [discriminate|]. intros H.
  apply radix_value_lt in H; [|lia].
  assert (16 ^ N.of_nat (length p) <= 16 ^ 4) by (apply N.pow_le_mono_r; lia).
  change (16 ^ 4) with 65536 in *. lia.
Qed.
Lemma hex_chunk_none p : hex_chunk p = None ->
  (4 <? length p)%nat || existsb (fun x => negb (mem x ASCII_HEX_DIGITS)) p = true.
Proof.
  unfold hex_chunk. destruct (4 <? length p)%nat; [reflexivity|]. intros H. cbn [orb].
  destruct (existsb (fun x => negb (mem x ASCII_HEX_DIGITS)) p) eqn:X; [reflexivity|].
  destruct (radix16_total p 0 X); congruence.
Qed.
Lemma radix16_hexes p acc v : std_radix_value 16 p acc = Some v ->
  existsb (fun x => negb (mem x ASCII_HEX_DIGITS)) p = false.
Proof.
  revert acc; induction p as [|c t IH]; intros acc H; [reflexivity|]. cbn [std_radix_value existsb] in *.
  rewrite radix16_hex in H. rewrite hex_mem. destruct (std_hex c); [|discriminate]. cbn [negb orb]. eauto.
Qed.
Lemma hex_chunk_some p v : hex_chunk p = Some v ->
  (4 <? length p)%nat || existsb (fun x => negb (mem x ASCII_HEX_DIGITS)) p = false.
Proof.
  unfold hex_chunk. destruct (4 <? length p)%nat; [discriminate|]. intros H. cbn [orb]. eapply radix16_hexes; eauto.
Qed.

(** the embedded IPv4 address *)
Definition dec_part (E : env) (x : list N) : res N :=
  if bad_ipv4_piece x then Err EIPv6
  else match e_int E x 10 with Some z => Ok (Z.to_N z) | None => Err EValue end.
Definition v4_chunk (E : env) (p : list N) : res (list N) :=
  let ps := split 46 p in
  if (4 <? length ps)%nat || existsb bad_ipv4_piece ps then Err EIPv6
  else match ints E ps with
       | None => Err EValue
       | Some ns => if existsb (fun n => 255 <? n) ns then Err EIPv6
                    else if (length ps <? 4)%nat then Err EIPv6
                    else Ok [nth 0 ns 0 * 256 + nth 1 ns 0; nth 2 ns 0 * 256 + nth 3 ns 0]
       end.
Definition chunk (E : env) (i : nat) (p : list N) : res (list N) :=
  if negb (mem 46 p)
  then match hex_chunk p with Some v => Ok [v] | None => Err EIPv6 end
  else if (6 <? i)%nat then Err EIPv6 else v4_chunk E p.

Definition v6st (l : list N) (comp : option nat) (piece : str) (prev : option N) : v6state :=
  {| v6_addr := l ++ repeat 0 (8 - length l); v6_index := length l; v6_compress := comp;
     v6_piece := piece; v6_prev := prev |}.

Lemma set_nth_app l x t v : set_nth (length l) v (l ++ x :: t) = Some (l ++ v :: t).
Proof. induction l as [|y l IH]; cbn [length app set_nth]; [reflexivity|]. now rewrite IH. Qed.
Lemma set_next l v : (length l < 8)%nat ->
  set_nth (length l) v (l ++ repeat 0 (8 - length l)) = Some ((l ++ [v]) ++ repeat 0 (8 - length (l ++ [v]))).
Proof.
  intros H. destruct (8 - length l)%nat as [|m] eqn:M; [lia|]. cbn [repeat]. rewrite set_nth_app.
  rewrite <- app_assoc. cbn [app]. rewrite app_length. cbn [length].
  replace (8 - (length l + 1))%nat with m by lia. reflexivity.
Qed.
Lemma zero_next l : (length l < 8)%nat ->
  l ++ repeat 0 (8 - length l) = (l ++ [0]) ++ repeat 0 (8 - length (l ++ [0])).
Proof.
  intros H. rewrite app_length. cbn [length]. replace (8 - length l)%nat with (S (8 - (length l + 1))) by lia.
  rewrite <- app_assoc. reflexivity.
Qed.

Lemma chunk_len E i p vs : chunk E i p = Ok vs -> (i < 8)%nat -> (i + length vs <= 8)%nat.
Proof.
  unfold chunk, v4_chunk. intros H Hi.
  destruct (negb (mem 46 p)).
  - destruct (hex_chunk p); [|discriminate]. injection H as <-. cbn. lia.
  - destruct (6 <? i)%nat eqn:I; [discriminate|]. cbv zeta in H.
    destruct ((4 <? length (split 46 p))%nat || existsb bad_ipv4_piece (split 46 p)); [discriminate|].
    destruct (ints E (split 46 p)) as [ns|]; [|discriminate].
    destruct (existsb (fun n => 255 <? n) ns); [discriminate|].
    destruct (length (split 46 p) <? 4)%nat; [discriminate|]. injection H as <-. cbn. lia.
Qed.
Lemma nth_le ns k b : existsb (fun n => b <? n) ns = false -> nth k ns 0 <= b.
Proof.
  intros H. destruct (Nat.lt_ge_cases k (length ns)) as [L|L].
  - rewrite existsb_false in H. specialize (H (nth k ns 0) (nth_In ns 0 L)). lia.
  - rewrite nth_overflow by auto. lia.
Qed.
Lemma chunk_lt E i p vs : chunk E i p = Ok vs -> Forall (fun v => v < 65536) vs.
Proof.
  unfold chunk, v4_chunk. intros H.
  destruct (negb (mem 46 p)).
  - destruct (hex_chunk p) as [v|] eqn:V; [|discriminate]. injection H as <-. apply hex_chunk_lt in V. auto.
  - destruct (6 <? i)%nat eqn:I; [discriminate|]. cbv zeta in H.
    destruct ((4 <? length (split 46 p))%nat || existsb bad_ipv4_piece (split 46 p)); [discriminate|].
    destruct (ints E (split 46 p)) as [ns|]; [|discriminate].
    destruct (existsb (fun n => 255 <? n) ns) eqn:X; [discriminate|].
    destruct (length (split 46 p) <? 4)%nat; [discriminate|]. injection H as <-.
    pose proof (nth_le ns 0 255 X). pose proof (nth_le ns 1 255 X).
    pose proof (nth_le ns 2 255 X). pose proof (nth_le ns 3 255 X). repeat constructor; lia.
Qed.

Lemma piece_eq E c l comp p prev : p <> [] -> (length l < 8)%nat ->
  snd (ipv6_piece E c (v6st l comp p prev)) =
  match chunk E (length l) p with Ok vs => Ok (v6st (l ++ vs) comp [] c) | Err e => Err e end.
Proof.
  intros Hp Hl. unfold ipv6_piece, chunk. cbv zeta.
  change (v6_piece (v6st l comp p prev)) with p. change (v6_index (v6st l comp p prev)) with (length l).
  change (v6_compress (v6st l comp p prev)) with comp.
  change (v6_addr (v6st l comp p prev)) with (l ++ repeat 0 (8 - length l)).
  destruct (negb (mem 46 p)).
  - destruct (hex_chunk p) as [v|] eqn:V.
    + rewrite (hex_chunk_some _ _ V). unfold hex_chunk in V. destruct (4 <? length p)%nat; [discriminate|].
      rewrite snd_wbind. unfold e_int. erewrite py_int_digits; eauto; [|discriminate].
      cbn [of_opt wret snd]. rewrite N2Z.id, set_next by auto. rewrite snd_wbind. cbn [of_opt wret snd].
      unfold v6st. f_equal. rewrite (app_length l [v]). cbn [length]. f_equal. lia.
    + rewrite (hex_chunk_none _ V). reflexivity.
  - destruct (6 <? length l)%nat eqn:I; [reflexivity|]. unfold v4_chunk. cbv zeta.
    destruct ((4 <? length (split 46 p))%nat || existsb bad_ipv4_piece (split 46 p)); [reflexivity|].
    rewrite snd_wbind. destruct (ints E (split 46 p)) as [ns|]; [|reflexivity]. cbn [of_opt wret snd].
    destruct (existsb (fun n => 255 <? n) ns); [reflexivity|].
    destruct (length (split 46 p) <? 4)%nat; [reflexivity|].
    rewrite snd_wbind, set_next by lia. cbn [of_opt wret snd].
    rewrite snd_wbind.
    replace (S (length l)) with (length (l ++ [nth 0 ns 0 * 256 + nth 1 ns 0])) by (rewrite app_length; cbn; lia).
    rewrite set_next by (rewrite app_length; cbn; lia). cbn [of_opt wret snd].
    rewrite <- (app_assoc l [_] [_]). cbn [app]. unfold v6st. f_equal. f_equal.
    rewrite !(app_length l). cbn [length]. lia.
Qed.

Definition no_colon (p : list N) : Prop := mem 58 p = false.
Lemma loop_chars E p : forall q t l comp prev, no_colon p -> (length l < 8)%nat ->
  (p = [] -> q = []) -> 
  exists prev', (p <> [] -> isc prev' 58 = false) /\ (p = [] -> prev' = prev) /\
  snd (ipv6_loop E (p ++ t) (v6st l comp q prev)) = snd (ipv6_loop E t (v6st l comp (q ++ p) prev')).
Proof.
  unfold no_colon. induction p as [|c p IH]; intros q t l comp prev Hp Hl Hq.
  - exists prev. rewrite app_nil_r. repeat split; congruence.
  - cbn [mem existsb] in Hp. apply orb_false_iff in Hp as [Hc Hp].
    destruct p as [|d p].
    + exists (Some c). split; [intros _; cbn; lia|]. split; [discriminate|].
      cbn [app]. cbn [ipv6_loop]. unfold v6st at 1. cbn [v6_index]. replace (8 <=? length l)%nat with false by lia.
      replace (negb (c =? 58)) with true by lia. reflexivity.
    + specialize (IH (q ++ [c]) t l comp (Some c) Hp Hl). destruct IH as (prev' & P1 & _ & IH); [discriminate|].
      exists prev'. split; [intros _; apply P1; discriminate|]. split; [discriminate|].
      rewrite <- app_assoc in IH. cbn [app] in IH |- *. rewrite <- IH.
      cbn [ipv6_loop]. unfold v6st at 1. cbn [v6_index]. replace (8 <=? length l)%nat with false by lia.
      replace (negb (c =? 58)) with true by lia. reflexivity.
Qed.

Lemma loop_full E rest l comp q prev : (8 <= length l)%nat ->
  snd (ipv6_loop E rest (v6st l comp q prev)) = Err EIPv6.
Proof.
  intros H. destruct rest; cbn [ipv6_loop]; unfold v6st at 1; cbn [v6_index];
  replace (8 <=? length l)%nat with true by lia; reflexivity.
Qed.
Lemma loop_nil E l comp q prev : (length l < 8)%nat ->
  snd (ipv6_loop E [] (v6st l comp q prev)) =
  match snd (ipv6_sep E None (v6st l comp q prev)) with Ok r => Ok (fst r) | Err e => Err e end.
Proof.
  intros H. cbn [ipv6_loop]. change (v6_index (v6st l comp q prev)) with (length l).
  replace (8 <=? length l)%nat with false by lia. rewrite snd_wbind.
  destruct (snd (ipv6_sep E None (v6st l comp q prev))); reflexivity.
Qed.
Lemma loop_colon E t l comp q prev : (length l < 8)%nat ->
  snd (ipv6_loop E (58 :: t) (v6st l comp q prev)) =
  match snd (ipv6_sep E (Some 58) (v6st l comp q prev)) with Ok r => snd (ipv6_loop E t (fst r)) | Err e => Err e end.
Proof.
  intros H. cbn [ipv6_loop]. change (v6_index (v6st l comp q prev)) with (length l).
  replace (8 <=? length l)%nat with false by lia. change (negb (58 =? 58)) with false. cbv iota. apply snd_wbind.
Qed.
Lemma sep_piece E c l comp p prev : p <> [] -> (length l < 8)%nat -> isc prev 58 = false ->
  snd (ipv6_sep E c (v6st l comp p prev)) =
  match chunk E (length l) p with Ok vs => Ok (v6st (l ++ vs) comp [] c, false) | Err e => Err e end.
Proof.
  intros Hp Hl Hprev. unfold ipv6_sep. change (v6_prev (v6st l comp p prev)) with prev.
  change (v6_piece (v6st l comp p prev)) with p. rewrite Hprev. cbn [andb].
  destruct p as [|x p]; [congruence|]. rewrite snd_wbind, piece_eq by auto.
  destruct (chunk E (length l) (x :: p)); reflexivity.
Qed.

Lemma L_piece_colon E p t l comp prev : p <> [] -> no_colon p -> (length l < 8)%nat ->
  snd (ipv6_loop E (p ++ 58 :: t) (v6st l comp [] prev)) =
  match chunk E (length l) p with
  | Ok vs => snd (ipv6_loop E t (v6st (l ++ vs) comp [] (Some 58)))
  | Err e => Err e end.
Proof.
  intros Hp Hc Hl. destruct (loop_chars E p [] (58 :: t) l comp prev Hc Hl) as (prev' & P1 & _ & ->); [auto|].
  cbn [app]. rewrite loop_colon, sep_piece by auto. destruct (chunk E (length l) p); reflexivity.
Qed.
Lemma L_piece_eof E p l comp prev : p <> [] -> no_colon p -> (length l < 8)%nat ->
  snd (ipv6_loop E p (v6st l comp [] prev)) =
  match chunk E (length l) p with
  | Ok vs => Ok (v6st (l ++ vs) comp [] None)
  | Err e => Err e end.
Proof.
  intros Hp Hc Hl. destruct (loop_chars E p [] [] l comp prev Hc Hl) as (prev' & P1 & _ & Q); [auto|].
  rewrite app_nil_r in Q. rewrite Q. cbn [app]. rewrite loop_nil, sep_piece by auto.
  destruct (chunk E (length l) p); reflexivity.
Qed.
Lemma L_colon_colon E t l comp : (length l < 8)%nat ->
  snd (ipv6_loop E (58 :: t) (v6st l comp [] (Some 58))) =
  match comp with
  | Some _ => Err EIPv6
  | None => snd (ipv6_loop E t (v6st (l ++ [0]) (Some (S (length l))) [] (Some 58)))
  end.
Proof.
  intros Hl. rewrite loop_colon by auto. unfold ipv6_sep.
  change (v6_prev (v6st l comp [] (Some 58))) with (Some 58). cbn [isc N.eqb Pos.eqb andb].
  change (v6_compress (v6st l comp [] (Some 58))) with comp. destruct comp; [reflexivity|].
  cbn [wret snd fst]. f_equal. f_equal. unfold v6st. cbn [v6_addr v6_index v6_piece v6_prev].
  rewrite <- zero_next by auto. rewrite app_length. cbn [length]. f_equal. lia.
Qed.
Lemma L_colon_eof E l comp : (length l < 8)%nat ->
  snd (ipv6_loop E [] (v6st l comp [] (Some 58))) =
  match comp with
  | Some k => if (length l =? k)%nat then Ok (v6st l comp [] (Some 58)) else Err EIPv6
  | None => Err EIPv6
  end.
Proof.
  intros Hl. rewrite loop_nil by auto. unfold ipv6_sep.
  change (v6_prev (v6st l comp [] (Some 58))) with (Some 58). cbn [isc iseof N.eqb Pos.eqb andb].
  change (v6_compress (v6st l comp [] (Some 58))) with comp. destruct comp as [k|]; [|reflexivity].
  change (v6_index (v6st l (Some k) [] (Some 58))) with (length l).
  destruct (length l =? k)%nat; reflexivity.
Qed.
Lemma L_start_colon E t l comp : (length l < 8)%nat ->
  snd (ipv6_loop E (58 :: t) (v6st l comp [] None)) =
  snd (ipv6_loop E t (v6st (l ++ [0]) comp [] (Some 58))).
Proof.
  intros Hl. rewrite loop_colon by auto. unfold ipv6_sep.
  change (v6_prev (v6st l comp [] None)) with (@None N). cbn [isc andb].
  change (v6_piece (v6st l comp [] None)) with (@nil N). cbv iota.
  cbn [wret snd fst]. f_equal. f_equal. unfold v6st. cbn [v6_addr v6_index v6_compress].
  rewrite <- zero_next by auto. rewrite app_length. cbn [length]. f_equal. lia.
Qed.
Lemma L_start_eof E l comp : (length l < 8)%nat ->
  snd (ipv6_loop E [] (v6st l comp [] None)) = Ok (v6st (l ++ [0]) comp [] None).
Proof.
  intros Hl. rewrite loop_nil by auto. unfold ipv6_sep.
  change (v6_prev (v6st l comp [] None)) with (@None N). cbn [isc andb].
  change (v6_piece (v6st l comp [] None)) with (@nil N). cbv iota.
  cbn [wret snd fst]. f_equal. unfold v6st. cbn [v6_addr v6_index v6_compress].
  rewrite <- zero_next by auto. rewrite app_length. cbn [length]. f_equal. lia.
Qed.

Lemma chunk_split (rest : list N) : no_colon rest \/ exists p t, rest = p ++ 58 :: t /\ no_colon p.
Proof.
  unfold no_colon. induction rest as [|c t IH]; [left; reflexivity|].
  destruct (N.eq_dec c 58) as [->|Hc].
  - right. exists [], t. auto.
  - destruct IH as [IH|(p & t' & -> & IH)].
    + left. cbn [mem existsb]. fold (mem 58 t). rewrite IH. lia.
    + right. exists (c :: p), t'. split; [reflexivity|]. cbn [mem existsb]. fold (mem 58 p). rewrite IH. lia.
Qed.

(* ---------- C19 ---------- *)
Lemma v4_chunk_err E p e : v4_chunk E p = Err e -> e = EIPv6 \/
  (e = EValue /\ exists lim, int_limit E = Some lim /\ lim < N.of_nat (length p)).
Proof.
  unfold v4_chunk. cbv zeta.
  destruct ((4 <? length (split 46 p))%nat || existsb bad_ipv4_piece (split 46 p)) eqn:X;
    [intros H; injection H; auto|].
  destruct (ints E (split 46 p)) as [ns|] eqn:I.
  { destruct (existsb (fun n => 255 <? n) ns); [intros H; injection H; auto|].
    destruct (length (split 46 p) <? 4)%nat; [intros H; injection H; auto|discriminate]. }
  intros H; injection H as <-. right. split; [reflexivity|].
  apply orb_false_iff in X as [_ X].
  assert (Hlen : forall x, In x (split 46 p) -> (length x <= length p)%nat).
  { intros x Hx. apply in_split in Hx as (a & b & Q).
    pose proof (join_split 46 p) as J. rewrite Q in J. rewrite <- J.
    clear. induction a as [|y a IH].
    - cbn [app]. destruct b as [|z b]; [cbn [join]; lia|]. rewrite join_cons2, app_length. lia.
    - cbn [app]. destruct (a ++ x :: b) as [|z w] eqn:W; [destruct a; discriminate|].
      etransitivity; [apply IH|]. rewrite join_cons2, !app_length. lia. }
  revert I X Hlen. generalize (split 46 p) as ps. induction ps as [|x ps IH]; [discriminate|].
  intros I X Hlen. cbn [ints existsb] in *. apply orb_false_iff in X as [X1 X2].
  assert (D : exists v, std_radix_value 10 x 0 = Some v).
  { apply radix10_total. unfold bad_ipv4_piece in X1. apply orb_false_iff in X1 as [X1 _].
    now apply orb_false_iff in X1 as [_ X1]. }
  assert (Nx : x <> []) by (intros ->; discriminate).
  destruct D as (v & D).
  destruct (int_limit E) as [lim|] eqn:L.
  - exists lim. split; auto. destruct (N.lt_ge_cases lim (N.of_nat (length p))) as [|G]; auto.
    exfalso. assert (Q : e_int E x 10 = Some (Z.of_N v)).
    { unfold e_int. rewrite L. eapply py_int_digits; eauto. intros _. specialize (Hlen x (or_introl eq_refl)). lia. }
    rewrite Q in I. destruct (ints E ps) as [r|] eqn:R; [discriminate|].
    destruct IH as (lim' & E1 & E2); auto. { intros y Hy. apply Hlen. now right. }
    injection E1 as <-. lia.
  - exfalso. assert (Q : e_int E x 10 = Some (Z.of_N v)).
    { unfold e_int. rewrite L. eapply py_int_digits; eauto. }
    rewrite Q in I. destruct (ints E ps) as [r|] eqn:R; [discriminate|].
    destruct IH as (lim' & E1 & E2); auto. { intros y Hy. apply Hlen. now right. } discriminate.
Qed.
Definition v6_err (E : env) (n : nat) (e : exc) : Prop :=
  e = EIPv6 \/ (e = EValue /\ exists lim, int_limit E = Some lim /\ lim < N.of_nat n).
Lemma chunk_err E i p e : chunk E i p = Err e -> v6_err E (length p) e.
Proof.
  unfold chunk, v6_err. destruct (negb (mem 46 p)).
  - destruct (hex_chunk p); [discriminate|]. intros H; injection H; auto.
  - destruct (6 <? i)%nat; [intros H; injection H; auto|]. apply v4_chunk_err.
Qed.
Lemma v6_err_mono E n m e : (n <= m)%nat -> v6_err E n e -> v6_err E m e.
Proof.
  intros H [->|(-> & lim & L & G)]; [now left|]. right. split; auto. exists lim. split; auto. lia.
Qed.

Definition v6_good (st : v6state) : Prop :=
  exists l comp prev, st = v6st l comp [] prev /\ (length l <= 8)%nat /\ Forall (fun v => v < 65536) l /\
    match comp with Some k => (1 <= k <= length l)%nat | None => True end.

Lemma loop_total E : forall n rest l comp prev, (length rest <= n)%nat ->
  (prev = None \/ prev = Some 58) -> (length l <= 8)%nat -> Forall (fun v => v < 65536) l ->
  match comp with Some k => (1 <= k <= length l)%nat | None => True end ->
  match snd (ipv6_loop E rest (v6st l comp [] prev)) with
  | Ok st => v6_good st
  | Err e => v6_err E (length rest) e
  end.
Proof.
  induction n as [|n IH]; intros rest l comp prev Hn Hprev Hl HF Hk;
  (destruct (Nat.eq_dec (length l) 8) as [L8|L8]; [rewrite loop_full by lia; now left|];
   assert (Hl' : (length l < 8)%nat) by lia).
  - destruct rest; [|cbn in Hn; lia]. destruct Hprev as [-> | ->].
    + rewrite L_start_eof by auto. exists (l ++ [0]), comp, None. split; [reflexivity|].
      split; [rewrite app_length; cbn; lia|]. split.
      * apply Forall_app. split; auto. constructor; [lia|constructor].
      * destruct comp; auto. rewrite app_length. cbn. lia.
    + rewrite L_colon_eof by auto. destruct comp as [k|]; [|now left].
      destruct (length l =? k)%nat; [|now left]. exists l, (Some k), (Some 58). auto.
  - destruct (chunk_split rest) as [Hc|(p & t & -> & Hc)].
    + destruct rest as [|c rest].
      { apply IH; auto. cbn; lia. }
      rewrite L_piece_eof by (auto; discriminate).
      destruct (chunk E (length l) (c :: rest)) as [vs|e] eqn:K; [|eapply chunk_err; eauto].
      pose proof (chunk_len _ _ _ _ K Hl'). pose proof (chunk_lt _ _ _ _ K).
      exists (l ++ vs), comp, None. split; [reflexivity|]. rewrite app_length. split; [lia|]. split.
      * apply Forall_app; auto.
      * destruct comp; auto. lia.
    + rewrite app_length in Hn |- *. cbn [length] in Hn |- *. destruct p as [|c p].
      * cbn [app length]. destruct Hprev as [-> | ->].
        -- rewrite L_start_colon by auto.
           specialize (IH t (l ++ [0]) comp (Some 58)).
           assert (M : match snd (ipv6_loop E t (v6st (l ++ [0]) comp [] (Some 58))) with
             | Ok st => v6_good st | Err e => v6_err E (length t) e end).
           { apply IH; auto; try lia; try (rewrite app_length; cbn; lia).
             - apply Forall_app. split; auto. constructor; [lia|constructor].
             - destruct comp; auto. rewrite app_length. cbn. lia. }
           destruct (snd (ipv6_loop E t (v6st (l ++ [0]) comp [] (Some 58)))); auto.
           eapply v6_err_mono; [|eauto]. cbn; lia.
        -- rewrite L_colon_colon by auto. destruct comp as [k|]; [now left|].
           assert (M : match snd (ipv6_loop E t (v6st (l ++ [0]) (Some (S (length l))) [] (Some 58))) with
             | Ok st => v6_good st | Err e => v6_err E (length t) e end).
           { apply IH; auto; try lia; try (rewrite app_length; cbn; lia).
             apply Forall_app. split; auto. constructor; [lia|constructor]. }
           destruct (snd (ipv6_loop E t (v6st (l ++ [0]) (Some (S (length l))) [] (Some 58)))); auto.
           eapply v6_err_mono; [|eauto]. cbn; lia.
      * rewrite L_piece_colon by (auto; discriminate).
        destruct (chunk E (length l) (c :: p)) as [vs|e] eqn:K.
        2:{ eapply v6_err_mono; [|eapply chunk_err; eauto]. lia. }
        pose proof (chunk_len _ _ _ _ K Hl'). pose proof (chunk_lt _ _ _ _ K).
        assert (M : match snd (ipv6_loop E t (v6st (l ++ vs) comp [] (Some 58))) with
             | Ok st => v6_good st | Err e => v6_err E (length t) e end).
        { apply IH; auto; try lia; try (rewrite app_length; lia).
          - apply Forall_app; auto.
          - destruct comp; auto. rewrite app_length. lia. }
        destruct (snd (ipv6_loop E t (v6st (l ++ vs) comp [] (Some 58)))); auto.
        eapply v6_err_mono; [|eauto]. lia.
Qed.

(* ---------- the swaps ---------- *)
Lemma set_nth_std i v l : (i < length l)%nat -> set_nth i v l = Some (std_set l i (fun _ => v)).
Proof.
  revert i; induction l as [|x l IH]; intros i H; [cbn in H; lia|].
  destruct i as [|i]; [reflexivity|]. cbn [set_nth length] in *. rewrite IH by lia. reflexivity.
Qed.
Lemma std_set_length l i f : length (std_set l i f) = length l.
Proof.
  unfold std_set. rewrite <- (firstn_skipn i l) at 3. rewrite !app_length. f_equal.
  destruct (skipn i l); reflexivity.
Qed.
Lemma swaps_std n : forall i k l, (i < length l)%nat -> (k + n <= length l)%nat -> 
  ipv6_swaps n i k l = Some (std_v6_swap n i k l).
Proof.
  induction n as [|n IH]; intros i k l Hi Hk; [reflexivity|]. cbn [ipv6_swaps std_v6_swap].
  destruct (i =? 0)%nat; [reflexivity|].
  replace (k + S n - 1)%nat with (k + n)%nat by lia.
  rewrite (nth_error_nth' l 0) by lia. rewrite (nth_error_nth' l 0) by lia.
  rewrite set_nth_std by lia. rewrite set_nth_std by (rewrite std_set_length; lia).
  apply IH; rewrite !std_set_length; lia.
Qed.
Lemma Forall_nth_lt l i : Forall (fun v => v < 65536) l -> nth i l 0 < 65536.
Proof.
  intros H. destruct (Nat.lt_ge_cases i (length l)) as [L|L].
  - rewrite Forall_forall in H. apply H. now apply nth_In.
  - rewrite nth_overflow by auto. lia.
Qed.
Lemma std_set_Forall l i v : v < 65536 -> Forall (fun v => v < 65536) l -> Forall (fun v => v < 65536) (std_set l i (fun _ => v)).
Proof.
  intros Hv H. unfold std_set. rewrite <- (firstn_skipn i l) in H. apply Forall_app in H as [H1 H2].
  apply Forall_app. split; auto. destruct (skipn i l); [constructor|]. inversion H2; constructor; auto.
Qed.
Lemma std_swap_good n : forall i k l, Forall (fun v => v < 65536) l ->
  length (std_v6_swap n i k l) = length l /\ Forall (fun v => v < 65536) (std_v6_swap n i k l).
Proof.
  induction n as [|n IH]; intros i k l H; [auto|]. cbn [std_v6_swap]. destruct (i =? 0)%nat; [auto|].
  pose proof (Forall_nth_lt l i H). pose proof (Forall_nth_lt l (k + S n - 1) H).
  destruct (IH (i - 1)%nat k (std_set (std_set l i (fun _ => nth (k + S n - 1) l 0)) (k + S n - 1) (fun _ => nth i l 0))) as [L F].
  - auto using std_set_Forall.
  - split; auto. now rewrite L, !std_set_length.
Qed.

(** the rest of the parser, after the loop *)
Definition v6_finish (st : v6state) : W (list N) :=
  match v6_compress st with
  | Some k => of_opt EIndex (ipv6_swaps (v6_index st - k) 7 k (v6_addr st))
  | None => if (v6_index st =? 8)%nat then wret (v6_addr st) else wfail VIPv6TooFewPieces EIPv6
  end.
Lemma v6_finish_good st : v6_good st ->
  match snd (v6_finish st) with
  | Ok a => length a = 8%nat /\ Forall (fun v => v < 65536) a
  | Err e => e = EIPv6
  end.
Proof.
  intros (l & comp & prev & -> & L & F & K). unfold v6_finish. cbn [v6_compress v6_index v6_addr v6st].
  assert (LA : length (l ++ repeat 0 (8 - length l)) = 8%nat) by (rewrite app_length, repeat_length; lia).
  assert (FA : Forall (fun v => v < 65536) (l ++ repeat 0 (8 - length l))).
  { apply Forall_app. split; auto. apply Forall_forall. intros x Hx. apply repeat_spec in Hx. subst. lia. }
  destruct comp as [k|].
  - rewrite swaps_std by lia. cbn [of_opt wret snd].
    destruct (std_swap_good (length l - k) 7 k _ FA) as [L1 F1]. split; [congruence|exact F1].
  - destruct (length l =? 8)%nat; cbn [wret wfail snd]; auto.
Qed.
Lemma ipv6_parse_eq E s : snd (ipv6_parse E s) =
  if starts_with [58] s then
    if starts_with [58; 58] s
    then match snd (ipv6_loop E (skipn 2 s) (v6st [0] (Some 1%nat) [] None)) with
         | Ok st => snd (v6_finish st) | Err e => Err e end
    else Err EIPv6
  else match snd (ipv6_loop E s (v6st [] None [] None)) with
       | Ok st => snd (v6_finish st) | Err e => Err e end.
Proof.
  unfold ipv6_parse. cbv zeta. change ($":") with [58]. change ($"::") with [58; 58].
  destruct (starts_with [58] s); [destruct (starts_with [58; 58] s)|]; rewrite snd_wbind;
  cbn [wret wfail snd fst]; try reflexivity; rewrite snd_wbind; unfold v6st; reflexivity.
Qed.
Lemma ipv6_parse_total E s :
  match snd (ipv6_parse E s) with
  | Ok a => length a = 8%nat /\ Forall (fun v => v < 65536) a
  | Err e => v6_err E (length s) e
  end.
Proof.
  rewrite ipv6_parse_eq. destruct (starts_with [58] s).
  - destruct (starts_with [58; 58] s); [|now left].
    pose proof (loop_total E (length (skipn 2 s)) (skipn 2 s) [0] (Some 1%nat) None) as T.
    destruct (snd (ipv6_loop E (skipn 2 s) (v6st [0] (Some 1%nat) [] None))) as [st|e].
    + assert (G : v6_good st) by (apply T; auto; try (cbn; lia); constructor; [lia|constructor]).
      apply v6_finish_good in G. destruct (snd (v6_finish st)); auto. now left.
    + assert (G : v6_err E (length (skipn 2 s)) e) by (apply T; auto; try (cbn; lia); constructor; [lia|constructor]).
      eapply v6_err_mono; [|eauto]. rewrite skipn_length. lia.
  - pose proof (loop_total E (length s) s [] None None) as T.
    destruct (snd (ipv6_loop E s (v6st [] None [] None))) as [st|e].
    + assert (G : v6_good st) by (apply T; auto; cbn; lia).
      apply v6_finish_good in G. destruct (snd (v6_finish st)); auto. now left.
    + apply T; auto; cbn; lia.
Qed.

(* ---------- C18: round trip ---------- *)
Lemma hex_str_chars n c : In c (hex_str n) -> (48 <= c <= 57) \/ (97 <= c <= 102).
Proof.
  intros H. destruct (hex_str_spec n) as (ds & Q & F & _). rewrite Q in H.
  apply in_map_iff in H as (d & <- & Hd). rewrite Forall_forall in F. specialize (F d Hd).
  cbv beta in F. unfold std_digit. destruct (d <? 10) eqn:W; lia.
Qed.
Lemma hex_str_no c n : c < 48 \/ 57 < c < 97 \/ 102 < c -> mem c (hex_str n) = false.
Proof. intros H. apply mem_not_In. intros I. apply hex_str_chars in I. lia. Qed.
Lemma hex_chunk_str v : v < 65536 -> hex_chunk (hex_str v) = Some v.
Proof.
  intros H. unfold hex_chunk. pose proof (hex_str_len v 4 H ltac:(lia)).
  replace (4 <? length (hex_str v))%nat with false by lia. apply hex_str_value.
Qed.
Lemma chunk_hex E i v : v < 65536 -> chunk E i (hex_str v) = Ok [v].
Proof. intros H. unfold chunk. rewrite hex_str_no by lia. cbn [negb]. now rewrite hex_chunk_str. Qed.

Lemma loop_hexes E vs : forall l comp prev, vs <> [] -> Forall (fun v => v < 65536) vs ->
  (length l + length vs <= 8)%nat ->
  snd (ipv6_loop E (std_join [58] (hexes vs)) (v6st l comp [] prev)) = Ok (v6st (l ++ vs) comp [] None).
Proof.
  induction vs as [|v vs IH]; intros l comp prev Hn F L; [congruence|]. inversion F; subst.
  cbn [length] in L. unfold hexes. cbn [map std_join]. destruct vs as [|w vs].
  - cbn [map]. rewrite L_piece_eof; [|apply hex_str_nonempty|apply hex_str_no; lia|lia].
    now rewrite chunk_hex.
  - cbn [map]. cbn [app]. rewrite L_piece_colon; [|apply hex_str_nonempty|apply hex_str_no; lia|lia].
    rewrite chunk_hex by auto. specialize (IH (l ++ [v]) comp (Some 58)).
    unfold hexes in IH. cbn [map] in IH. rewrite IH; auto; [|discriminate|rewrite app_length; cbn [length] in *; lia].
    now rewrite <- app_assoc.
Qed.
Lemma loop_hexes_colon E vs t : forall l comp prev, Forall (fun v => v < 65536) vs ->
  (length l + length vs <= 8)%nat -> vs <> [] ->
  snd (ipv6_loop E (std_join [58] (hexes vs) ++ 58 :: t) (v6st l comp [] prev)) =
  snd (ipv6_loop E t (v6st (l ++ vs) comp [] (Some 58))).
Proof.
  induction vs as [|v vs IH]; intros l comp prev F L Hn; [congruence|]. inversion F; subst.
  cbn [length] in L. unfold hexes. cbn [map std_join]. destruct vs as [|w vs].
  - cbn [map]. rewrite L_piece_colon; [|apply hex_str_nonempty|apply hex_str_no; lia|lia].
    now rewrite chunk_hex.
  - cbn [map]. rewrite <- app_assoc. cbn [app]. rewrite L_piece_colon; [|apply hex_str_nonempty|apply hex_str_no; lia|lia].
    rewrite chunk_hex by auto. specialize (IH (l ++ [v]) comp (Some 58)).
    unfold hexes in IH. cbn [map] in IH. cbn [app] in IH. rewrite IH; auto; [|rewrite app_length; cbn [length] in *; lia|discriminate].
    now rewrite <- app_assoc.
Qed.

Lemma finish_swap pre post r : (length pre + r + length post = 8)%nat -> (2 <= r)%nat ->
  snd (v6_finish (v6st ((pre ++ [0]) ++ post) (Some (S (length pre))) [] None)) = Ok (pre ++ repeat 0 r ++ post).
Proof.
  intros L R. unfold v6_finish, v6st. cbn [v6_compress v6_index v6_addr].
  rewrite swaps_std.
  2:{ rewrite app_length, repeat_length, !app_length. cbn [length]. lia. }
  2:{ rewrite !app_length, repeat_length, ?app_length. cbn [length]. lia. }
  cbn [of_opt wret snd]. f_equal.
  assert (Q : r = (8 - length pre - length post)%nat) by lia. subst r.
  assert (B : (length pre + length post <= 6)%nat) by lia. clear L R.
  rewrite !app_length.
  do 7 (destruct pre as [|? pre];
        [do 7 (destruct post as [|? post]; [first [reflexivity | exfalso; cbn [length] in B; lia]|]);
         exfalso; cbn [length] in B; lia|]).
  exfalso; cbn [length] in B; lia.
Qed.

Lemma no_head_colon x t : x <> [] -> no_colon x -> starts_with [58] (x ++ t) = false.
Proof.
  destruct x as [|c x]; [congruence|]. intros _ H. unfold no_colon in H. cbn [mem existsb] in H.
  cbn [app starts_with]. destruct (58 =? c); [discriminate|reflexivity].
Qed.
Lemma join_head vs t : vs <> [] -> starts_with [58] (std_join [58] (hexes vs) ++ t) = false.
Proof.
  destruct vs as [|v vs]; [congruence|]. intros _. unfold hexes. cbn [map std_join].
  destruct (map hex_str vs); [|rewrite <- app_assoc]; apply no_head_colon; auto using hex_str_nonempty; apply hex_str_no; lia.
Qed.

Lemma ipv6_round_trip E a : length a = 8%nat -> Forall (fun v => v < 65536) a ->
  snd (ipv6_parse E (ipv6_serialize a)) = Ok a.
Proof.
  intros L F. rewrite ipv6_parse_eq.
  destruct (ipv6_serialize_cases a L) as [(pre & post & r & (Z & R2 & _) & ->)|(_ & ->)].
  - unfold zero_run in Z.
    assert (B : (length pre + r + length post = 8)%nat).
    { rewrite Z in L. rewrite !app_length, repeat_length in L. lia. }
    assert (Fpre : Forall (fun v => v < 65536) pre) by (rewrite Z in F; now apply Forall_app in F).
    assert (Fpost : Forall (fun v => v < 65536) post).
    { rewrite Z in F. apply Forall_app in F as [_ F]. now apply Forall_app in F. }
    clear F. cbn [app]. destruct pre as [|v pre].
    + cbn [hexes map std_join app]. cbn [starts_with N.eqb Pos.eqb andb]. cbn [skipn]. 
      destruct post as [|w post].
      * cbn [hexes map std_join]. rewrite L_start_eof by (cbn; lia). cbn [length] in B.
        replace r with 8%nat in Z by lia. subst a. reflexivity.
      * rewrite loop_hexes by (auto; try discriminate; cbn [length] in *; lia).
        pose proof (finish_swap [] (w :: post) r B R2) as S. cbn [length app] in S |- *. rewrite S, Z. reflexivity.
    + rewrite join_head by discriminate.
      rewrite loop_hexes_colon by (auto; try discriminate; cbn [length] in *; lia). cbn [app].
      rewrite L_colon_colon by lia. destruct post as [|w post].
      * cbn [hexes map std_join].
        assert (C : (length ((v :: pre) ++ [0%N]) < 8)%nat) by (rewrite app_length; cbn [length] in *; lia).
        rewrite L_colon_eof by exact C.
        replace (length ((v :: pre) ++ [0%N]) =? S (length (v :: pre)))%nat with true
          by (rewrite app_length; cbn [length]; lia).
        pose proof (finish_swap (v :: pre) [] r B R2) as S. rewrite app_nil_r in S. rewrite Z. exact S.
      * rewrite loop_hexes; auto; [|discriminate|rewrite app_length; cbn [length] in *; lia].
        pose proof (finish_swap (v :: pre) (w :: post) r B R2) as S. rewrite S, Z. reflexivity.
  - rewrite <- (app_nil_r (std_join [58] (hexes a))), join_head by (intros ->; discriminate).
    rewrite app_nil_r, loop_hexes; auto; [|intros ->; discriminate|cbn [length]; lia].
    unfold v6_finish, v6st. cbn [v6_compress v6_index v6_addr app]. rewrite L. cbn [Nat.eqb Nat.sub repeat wret snd].
    now rewrite app_nil_r.
Qed.
Lemma ipv6_serialize_inj a b : length a = 8%nat -> length b = 8%nat ->
  Forall (fun v => v < 65536) a -> Forall (fun v => v < 65536) b ->
  ipv6_serialize a = ipv6_serialize b -> a = b.
Proof.
  intros La Lb Fa Fb Q.
  pose (E0 := {| icu_to_ascii := fun _ _ => IcuFail 1; icu_to_unicode := fun _ _ => IcuFail 1;
                 codec := fun _ _ => None; uni_decimal := fun _ => None; uni_space := fun _ => false;
                 uni_lower := fun _ => []; int_limit := None; has_validity := false |}).
  pose proof (ipv6_round_trip E0 a La Fa) as A. pose proof (ipv6_round_trip E0 b Lb Fb) as B. rewrite Q in A. congruence.
Qed.
