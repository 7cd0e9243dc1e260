(** The names of the errors of the IPv6 parsers, for texts without dots (C96). *)
From Coq Require Import Ascii String.
From Coq Require Import NArith ZArith Bool Arith Lia ZifyBool ZifyN ZifyNat List.
From Verif Require Import PyStr PyInt Codec Env HostModel Lemmas CodecProofs PyIntProofs IPv4Proofs IPv6Proofs HostProofs IPv6Conf HostReportProofs.
From Verif Require Import SpecText SpecHost SpecHostReports SpecIPv6Names.
Import ListNotations.
Open Scope N_scope.

Lemma chars_full E p : forall q t l comp prev, no_colon p -> (length l < 8)%nat ->
  exists prev', (p <> [] -> isc prev' 58 = false) /\
  ipv6_loop E (p ++ t) (v6st l comp q prev) = ipv6_loop E t (v6st l comp (q ++ p) prev').
Proof.
  unfold no_colon. induction p as [|c p IH]; intros q t l comp prev Hp Hl.
  - exists prev. rewrite app_nil_r. split; [congruence|reflexivity].
  - cbn [mem existsb] in Hp. apply orb_false_iff in Hp as [Hc Hp]. destruct (IH (q ++ [c]) t l comp (Some c) Hp Hl) as (prev' & A & B).
    destruct p as [|d p].
    + exists (Some c). split; [intros _; cbn [isc]; rewrite N.eqb_sym; exact Hc|]. cbn [app ipv6_loop]. change (v6_index (v6st l comp q prev)) with (length l). replace (8 <=? length l)%nat with false by lia.
      rewrite N.eqb_sym, Hc. reflexivity.
    + exists prev'. split; [intros _; apply A; discriminate|]. rewrite <- app_assoc in B. cbn [app] in B |- *. rewrite <- B. cbn [ipv6_loop]. change (v6_index (v6st l comp q prev)) with (length l). replace (8 <=? length l)%nat with false by lia.
      rewrite (N.eqb_sym c), Hc. reflexivity.
Qed.
Lemma piece_full E c l comp p prev : p <> [] -> mem 46 p = false -> (length l < 8)%nat ->
  ipv6_piece E c (v6st l comp p prev) =
  match hex_chunk p with Some v => wret (v6st (l ++ [v]) comp [] c) | None => wfail VIPv6InvalidCP EIPv6 end.
Proof.
  intros Hp D Hl. unfold ipv6_piece. cbv zeta.
  change (v6_piece (v6st l comp p prev)) with p. change (v6_index (v6st l comp p prev)) with (length l).
  change (v6_compress (v6st l comp p prev)) with comp. change (v6_addr (v6st l comp p prev)) with (l ++ repeat 0 (8 - length l)).
  rewrite D. cbn [negb]. destruct (hex_chunk p) as [v|] eqn:V.
  - rewrite (hex_chunk_some _ _ V). unfold hex_chunk in V. destruct (4 <? length p)%nat; [discriminate|].
    unfold e_int. erewrite py_int_digits; eauto; [|discriminate]. cbn [of_opt]. unfold wbind, wret. cbn [fst snd app].
    rewrite N2Z.id, set_next by auto. cbn [of_opt]. unfold wret. cbn [fst snd app]. unfold v6st. do 3 f_equal. rewrite (app_length l [v]). cbn [length]. lia.
  - rewrite (hex_chunk_none _ V). reflexivity.
Qed.

(** one piece *)
Lemma piece_end E p l comp prev : p <> [] -> no_colon p -> mem 46 p = false -> (length l < 8)%nat ->
  ipv6_loop E p (v6st l comp [] prev) =
  match hex_chunk p with Some v => wret (v6st (l ++ [v]) comp [] None) | None => wfail VIPv6InvalidCP EIPv6 end.
Proof.
  intros Hp Hc D Hl. rewrite <- (app_nil_r p) at 1. destruct (chars_full E p [] [] l comp prev Hc Hl) as (prev' & A & ->). cbn [ipv6_loop app].
  change (v6_index (v6st l comp p prev')) with (length l). replace (8 <=? length l)%nat with false by lia. unfold ipv6_sep. cbv zeta. change (v6_prev (v6st l comp p prev')) with prev'. rewrite (A Hp). cbn [andb].
  change (v6_piece (v6st l comp p prev')) with p. destruct p as [|c p]; [congruence|]. rewrite (piece_full E None l comp (c :: p)) by auto. destruct (hex_chunk (c :: p)); reflexivity.
Qed.
Lemma piece_colon E p t l comp prev : p <> [] -> no_colon p -> mem 46 p = false -> (length l < 8)%nat ->
  ipv6_loop E (p ++ 58 :: t) (v6st l comp [] prev) =
  match hex_chunk p with Some v => ipv6_loop E t (v6st (l ++ [v]) comp [] (Some 58)) | None => wfail VIPv6InvalidCP EIPv6 end.
Proof.
  intros Hp Hc D Hl. destruct (chars_full E p [] (58 :: t) l comp prev Hc Hl) as (prev' & A & ->). cbn [ipv6_loop app].
  change (v6_index (v6st l comp p prev')) with (length l). replace (8 <=? length l)%nat with false by lia. change (negb (58 =? 58)) with false. cbv iota. unfold ipv6_sep. cbv zeta. change (v6_prev (v6st l comp p prev')) with prev'. rewrite (A Hp). cbn [andb].
  change (v6_piece (v6st l comp p prev')) with p. destruct p as [|c p]; [congruence|]. rewrite (piece_full E (Some 58) l comp (c :: p)) by auto. destruct (hex_chunk (c :: p)); [|reflexivity].
  unfold wbind, wret. cbn [fst snd app]. now destruct (ipv6_loop E t (v6st (l ++ [n]) comp [] (Some 58))).
Qed.
Lemma named_hex f p r i comp a : p <> [] -> no_colon p -> mem 46 p = false -> (i < 8)%nat -> (r = [] \/ exists t, r = 58 :: t) ->
  named_v6_main (S f) (p ++ r) i comp a =
  match hex_chunk p with
  | Some v => match r with
              | [] => named_v6_main f [] (S i) comp (std_set a i (fun _ => v))
              | _ :: [] => Report VIPv6InvalidCP
              | _ :: t => named_v6_main f t (S i) comp (std_set a i (fun _ => v))
              end
  | None => Report VIPv6InvalidCP
  end.
Proof.
  intros Hp Hc D Hi Hr. pose proof (std_hex_chunk p r Hr) as H. destruct p as [|c p]; [congruence|]. pose proof Hc as Hc'. unfold no_colon in Hc. cbn [mem existsb] in Hc. apply orb_false_iff in Hc as [Hc _].
  cbn [app] in *. cbn [named_v6_main]. replace (i =? 8)%nat with false by lia. replace (c =? 58) with false by lia. destruct (hex_chunk (c :: p)) as [v|].
  - rewrite H. destruct Hr as [->|(t & ->)]; [reflexivity|]. change (58 =? 46) with false. change (58 =? 58) with true. cbv iota. destruct t; reflexivity.
  - destruct H as (h & x & q & v & Q & _ & _ & ->). assert (I : In x (c :: p)) by (rewrite Q; apply in_or_app; right; now left).
    assert (X1 : x <> 46) by (intros ->; apply mem_not_In in D; contradiction). assert (X2 : x <> 58) by (intros ->; unfold no_colon in Hc'; apply mem_not_In in Hc'; contradiction).
    replace (x =? 46) with false by lia. replace (x =? 58) with false by lia. reflexivity.
Qed.
Lemma cut_colon s : exists p r, s = p ++ r /\ no_colon p /\ (r = [] \/ exists t, r = 58 :: t).
Proof.
  induction s as [|c t (p & r & -> & A & B)]; [exists [], []; repeat split; now left|]. destruct (c =? 58) eqn:C.
  - exists [], (c :: p ++ r). repeat split. right. exists (p ++ r). f_equal. lia.
  - exists (c :: p), r. repeat split; [|exact B]. unfold no_colon in *. cbn [mem existsb]. rewrite N.eqb_sym, C. exact A.
Qed.
Lemma colons_app a b : colons (a ++ b) = (colons a + colons b)%nat. Proof. apply count_occ_app. Qed.
Lemma colons_no p : no_colon p -> colons p = 0%nat.
Proof. intros H. apply count_occ_not_In. unfold no_colon in H. now apply mem_not_In in H. Qed.
(** the text ends with the colon that would begin the ninth piece *)
Definition late (i : nat) (rest : str) : Prop := (rest = [] \/ exists p, rest = p ++ [58]) /\ (i + colons rest = 8)%nat.
(** how the loops end *)
Definition same_end (m : W v6state) (x : named (nat * option nat * list N)) : Prop :=
  match x with
  | Report v => fst m = [v] /\ exists e, snd m = Err e
  | Got (i, comp, a) => fst m = [] /\ exists st, snd m = Ok st /\ v6_compress st = comp /\ (comp = None -> v6_index st = i)
  end.
Definition too_many (m : W v6state) : Prop := fst m = [VIPv6TooManyPieces] /\ exists e, snd m = Err e.
Lemma late_piece i p t : no_colon p -> late (S i) t -> late i (p ++ 58 :: t).
Proof.
  intros Hp [A B]. split.
  - right. destruct A as [-> |(q & ->)]; [now exists p|]. exists (p ++ 58 :: q). now rewrite <- app_assoc.
  - rewrite colons_app, (colons_no p Hp). unfold colons in *. cbn [count_occ]. destruct (N.eq_dec 58 58); [lia|congruence].
Qed.
Lemma loops E n : forall rest l comp prev a f, (length rest <= n)%nat -> (length rest < f)%nat -> mem 46 rest = false -> (length l <= 8)%nat ->
  (forall k, comp = Some k -> (k <= length l)%nat) ->
  (prev = Some 58 /\ (rest = [] -> comp = Some (length l)) \/ exists c t, rest = c :: t /\ c <> 58) ->
  same_end (ipv6_loop E rest (v6st l comp [] prev)) (named_v6_main f rest (length l) comp a) \/
  late (length l) rest /\ too_many (ipv6_loop E rest (v6st l comp [] prev)).
Proof.
  induction n as [|n IH]; intros rest l comp prev a f Ln Lf D Ll K P; (destruct f as [|f]; [lia|]).
  1: assert (rest = []) as -> by (destruct rest; [reflexivity|cbn [length] in Ln; lia]).
  2: destruct (list_eq_dec N.eq_dec rest []) as [-> |Hn].
  1,2: destruct P as [[-> P]|(c & t & Q & _)]; [|discriminate Q]; rewrite (P eq_refl); cbn [ipv6_loop named_v6_main];
    change (v6_index (v6st l (Some (length l)) [] (Some 58))) with (length l); destruct (8 <=? length l)%nat eqn:L8;
    [right; repeat split; [now left|cbn; lia|eexists; reflexivity]|left]; unfold ipv6_sep; cbv zeta;
    change (v6_prev (v6st l (Some (length l)) [] (Some 58))) with (Some 58); change (v6_compress (v6st l (Some (length l)) [] (Some 58))) with (Some (length l));
    change (v6_index (v6st l (Some (length l)) [] (Some 58))) with (length l); cbn [isc iseof andb]; change (58 =? 58) with true; cbv iota; cbn [andb]; rewrite Nat.eqb_refl;
    split; [reflexivity|]; eexists; split; [reflexivity|]; split; [reflexivity|discriminate].
  destruct (Nat.eq_dec (length l) 8) as [L8|L8].
  { left. destruct rest as [|c t]; [congruence|]. cbn [ipv6_loop named_v6_main]. change (v6_index (v6st l comp [] prev)) with (length l). rewrite L8. cbn. split; [reflexivity|eexists; reflexivity]. }
  destruct (cut_colon rest) as (p & r & -> & Hp & Hr). destruct (list_eq_dec N.eq_dec p []) as [-> |Np].
  - destruct Hr as [-> |(t & ->)]; [now destruct Hn|]. destruct P as [[-> P]|(c & t' & Q & Q')]; [|cbn [app] in Q; injection Q; congruence].
    cbn [app] in *. cbn [ipv6_loop named_v6_main]. change (v6_index (v6st l comp [] (Some 58))) with (length l). replace (8 <=? length l)%nat with false by lia. replace (length l =? 8)%nat with false by lia.
    change (58 =? 58) with true. cbn [negb]. cbv iota. unfold ipv6_sep. cbv zeta.
    change (v6_prev (v6st l comp [] (Some 58))) with (Some 58). change (v6_compress (v6st l comp [] (Some 58))) with comp. change (v6_addr (v6st l comp [] (Some 58))) with (l ++ repeat 0 (8 - length l)).
    change (v6_index (v6st l comp [] (Some 58))) with (length l). change (v6_piece (v6st l comp [] (Some 58))) with (@nil N). cbn [isc andb]. change (58 =? 58) with true. cbn [andb]. cbv iota.
    destruct comp as [k|].
    + left. split; [reflexivity|eexists; reflexivity].
    + assert (Q : forall st, wbind (wret (st, false)) (fun r => ipv6_loop E t (fst r)) = ipv6_loop E t st).
      { intros st. unfold wbind, wret. cbn [fst snd app]. now destruct (ipv6_loop E t st). }
      rewrite Q. assert (Q2 : {| v6_addr := l ++ repeat 0 (8 - length l); v6_index := S (length l); v6_compress := Some (S (length l)); v6_piece := []; v6_prev := Some 58 |} = v6st (l ++ [0]) (Some (S (length l))) [] (Some 58)).
      { unfold v6st. rewrite app_length. cbn [length]. f_equal; [|lia]. rewrite <- app_assoc. f_equal. replace (8 - length l)%nat with (S (8 - (length l + 1))) by lia. reflexivity. }
      rewrite Q2. assert (L : length (l ++ [0]) = S (length l)) by (rewrite app_length; cbn [length]; lia).
      cbn [length] in *. cbn [mem existsb] in D. apply orb_false_iff in D as [_ D].
      destruct (IH t (l ++ [0]) (Some (S (length l))) (Some 58) a f) as [A|[A B]]; try lia; try assumption.
      * intros k Hk. injection Hk as <-. lia.
      * left. split; [reflexivity|]. intros _. now rewrite L.
      * left. rewrite L in A. exact A.
      * right. rewrite L in A. split; [|exact B]. exact (late_piece (length l) [] t eq_refl A).
  - assert (Dp : mem 46 p = false) by (unfold mem in *; rewrite existsb_app in D; now apply orb_false_iff in D).
    assert (Lp : (0 < length p)%nat) by (destruct p; [congruence|cbn [length]; lia]). rewrite app_length in *.
    rewrite (named_hex f p r (length l) comp a) by (assumption || lia).
    destruct Hr as [-> |(t & ->)].
    + rewrite app_nil_r, piece_end by (assumption || lia). left. destruct (hex_chunk p) as [v|]; [|split; [reflexivity|eexists; reflexivity]].
      destruct f as [|f]; [cbn [length] in Lf; lia|]. cbn [named_v6_main]. split; [reflexivity|]. eexists. split; [reflexivity|]. split; [reflexivity|]. intros _. cbn [v6st v6_index]. rewrite app_length. cbn [length]. lia.
    + rewrite piece_colon by (assumption || lia). destruct (hex_chunk p) as [v|]; [|left; split; [reflexivity|eexists; reflexivity]].
      assert (L : length (l ++ [v]) = S (length l)) by (rewrite app_length; cbn [length]; lia).
      assert (Dt : mem 46 t = false) by (unfold mem in *; rewrite existsb_app in D; apply orb_false_iff in D as [_ D]; cbn [existsb] in D; now apply orb_false_iff in D).
      cbn [length] in *. destruct t as [|x t].
      * cbn [ipv6_loop]. change (v6_index (v6st (l ++ [v]) comp [] (Some 58))) with (length (l ++ [v])). rewrite L. destruct (8 <=? S (length l))%nat eqn:G.
        -- right. split; [apply late_piece; [assumption|]; split; [now left|cbn; lia]|]. split; [reflexivity|eexists; reflexivity].
        -- left. unfold ipv6_sep. cbv zeta. change (v6_prev (v6st (l ++ [v]) comp [] (Some 58))) with (Some 58). change (v6_compress (v6st (l ++ [v]) comp [] (Some 58))) with comp.
           change (v6_index (v6st (l ++ [v]) comp [] (Some 58))) with (length (l ++ [v])). rewrite L. cbn [isc iseof andb]. change (58 =? 58) with true. cbn [andb]. cbv iota.
           destruct comp as [k|]; [specialize (K k eq_refl); replace (S (length l) =? k)%nat with false by lia|]; (split; [reflexivity|eexists; reflexivity]).
      * destruct (IH (x :: t) (l ++ [v]) comp (Some 58) (std_set a (length l) (fun _ => v)) f) as [A|[A B]]; try (cbn [length] in *; lia); try assumption.
        -- intros k Hk. specialize (K k Hk). lia.
        -- left. split; [reflexivity|discriminate].
        -- left. rewrite L in A. exact A.
        -- right. rewrite L in A. split; [now apply late_piece|exact B].
Qed.

Lemma end_lift st a : same_end st a -> match a with
  | Got (i, comp, x) => forall k1 k2 (g : v6state -> W (list N)), (forall s, v6_compress s = comp -> (comp = None -> v6_index s = i) -> fst (g s) = k1) -> k2 = k1 -> fst (wbind st g) = k2
  | Report v => forall g : v6state -> W (list N), fst (wbind st g) = [v]
  end.
Proof.
  destruct a as [[[i comp] x]|v]; cbn [same_end].
  - intros (A & s & B & C & D) k1 k2 g H ->. rewrite fst_wbind, A, B. cbn [app]. now apply H.
  - intros [A [e B]] g. rewrite fst_wbind, A, B. reflexivity.
Qed.
Theorem v6_names E s : mem 46 s = false -> firstn 3 s <> [58; 58; 58] ->
  fst (ipv6_parse E s) = match named_ipv6_parse s with Got _ => [] | Report v => [v] end \/
  late_colon s /\ fst (ipv6_parse E s) = [VIPv6TooManyPieces].
Proof.
  intros D H3. assert (F : forall rest i comp l prev, l = repeat 0 i -> (i <= 1)%nat -> (i = 0%nat -> comp = None) -> (i = 1%nat -> comp = Some 1%nat) -> mem 46 rest = false ->
    (exists c t, rest = c :: t /\ c <> 58) ->
    let m := wbind (ipv6_loop E rest (v6st l comp [] prev)) (fun st => match v6_compress st with
       | Some k => of_opt EIndex (ipv6_swaps (v6_index st - k) 7 k (v6_addr st))
       | None => if (v6_index st =? 8)%nat then wret (v6_addr st) else wfail VIPv6TooFewPieces EIPv6 end) in
    fst m = match (match named_v6_main (S (length rest)) rest i comp (repeat 0 8) with
      | Report v => Report v
      | Got (idx, compress, a) => match compress with Some k => Got (std_v6_swap (idx - k) 7 k a) | None => if (idx =? 8)%nat then Got a else Report VIPv6TooFewPieces end
      end) with Got _ => [] | Report v => [v] end \/
    late i rest /\ fst m = [VIPv6TooManyPieces]).
  { clear s D H3. intros rest i comp l prev -> Li K0 K1 D P m. destruct (loops E (length rest) rest (repeat 0 i) comp prev (repeat 0 8) (S (length rest))) as [A|[A [B [e B']]]]; try rewrite repeat_length; auto; try lia.
    - intros k Hk. destruct i as [|[|i]]; [rewrite K0 in Hk by reflexivity; discriminate|rewrite K1 in Hk by reflexivity; injection Hk as <-; lia|lia].
    - left. rewrite repeat_length in A. apply end_lift in A. destruct (named_v6_main _ rest i comp (repeat 0 8)) as [[[j c'] x]|v]; [|apply A].
      eapply A; [|reflexivity]. intros st Hc Hi. rewrite Hc. destruct c' as [k|].
      + destruct (ipv6_swaps _ _ _ _); reflexivity.
      + rewrite Hi by reflexivity. destruct (j =? 8)%nat; reflexivity.
    - right. rewrite repeat_length in A. split; [exact A|]. unfold m. rewrite fst_wbind, B, B'. reflexivity. }
  unfold ipv6_parse, named_ipv6_parse. cbv zeta. destruct s as [|c t]; [left; reflexivity|]. destruct (N.eq_dec c 58) as [-> |C].
  - destruct t as [|d t]; [left; reflexivity|]. change (starts_with $":" (58 :: d :: t)) with true. cbv iota. change (58 =? 58) with true. cbv iota.
    destruct (N.eq_dec d 58) as [-> |Dd].
    + change (starts_with $"::" (58 :: 58 :: t)) with true. change (58 =? 58) with true. cbv iota. rewrite fst_wbind. cbn [wret fst snd app skipn].
      destruct t as [|x t]; [left; reflexivity|].
      specialize (F (x :: t) 1%nat (Some 1%nat) [0] None eq_refl). cbv zeta in F. destruct F as [F|[F1 F2]]; auto; try lia; try discriminate.
      * exists x, t. split; [reflexivity|]. intros ->. now apply H3.
      * right. split; [|exact F2]. destruct F1 as [[A|(p & A)] B]; [discriminate A|]. split; [exists (58 :: 58 :: p); now rewrite A|]. left. split; [|reflexivity].
        unfold colons in *. cbn [count_occ] in *. destruct (N.eq_dec 58 58); [lia|congruence].
    + left. replace (starts_with $"::" (58 :: d :: t)) with false; [|symmetry; change ((58 =? d) && true = false); rewrite andb_true_r; apply N.eqb_neq; congruence].
      apply N.eqb_neq in Dd. rewrite Dd. reflexivity.
  - pose proof C as C'. apply N.eqb_neq in C. rewrite C. replace (starts_with $":" (c :: t)) with false; [|symmetry; change ((58 =? c) && true = false); rewrite andb_true_r, N.eqb_sym; exact C].
    rewrite fst_wbind. cbn [wret fst snd app].
    specialize (F (c :: t) 0%nat None [] None eq_refl). cbv zeta in F. destruct F as [F|[F1 F2]]; auto; try lia; try discriminate.
    + exists c, t. now split.
    + right. split; [|exact F2]. destruct F1 as [[A|(p & A)] B]; [discriminate A|]. split; [now exists p|]. right. split; [exact B|]. destruct t; cbn [firstn]; [discriminate|]. intros Q. injection Q as -> ->. congruence.
Qed.
Theorem v6_host_names E s o f : mem 46 s = false -> firstn 3 s <> [58; 58; 58] ->
  fst (host_parse E (91 :: s ++ [93]) o) = std_host_reports f (91 :: s ++ [93]) o \/
  late_colon s /\ fst (host_parse E (91 :: s ++ [93]) o) = [VIPv6TooManyPieces].
Proof.
  intros D H3. unfold std_host_reports. rewrite rev_app_distr. cbn [rev app]. rewrite rev_involutive.
  replace (fst (host_parse E (91 :: s ++ [93]) o)) with (fst (ipv6_parse E s)); [now apply v6_names|].
  unfold host_parse. change (91 =? 91) with true. cbv iota. replace (ends_with_char (91 :: s ++ [93]) 93) with true.
  - rewrite removelast_last, fst_wbind. destruct (snd (ipv6_parse E s)); cbn [wret fst]; now rewrite app_nil_r.
  - symmetry. change (91 :: s ++ [93]) with ((91 :: s) ++ [93]). unfold ends_with_char. rewrite rev_app_distr. reflexivity.
Qed.
Theorem v6_unclosed E t o f : (forall p, t <> p ++ [93]) -> fst (host_parse E (91 :: t) o) = std_host_reports f (91 :: t) o.
Proof.
  intros H. unfold std_host_reports, host_parse. change (91 =? 91) with true. cbv iota. destruct (rev t) as [|x r] eqn:Q.
  - replace t with (@nil N); [reflexivity|]. rewrite <- (rev_involutive t), Q. reflexivity.
  - assert (T : t = rev r ++ [x]) by (rewrite <- (rev_involutive t), Q; reflexivity). assert (X0 : x <> 93) by (intros ->; exact (H _ T)).
    assert (X : forall A (a b : A), match x with 93 => a | _ => b end = b).
    { intros A a b. destruct x as [|p]; [reflexivity|]. do 7 (destruct p as [p|p|]; try reflexivity; try congruence). }
    rewrite X. replace (ends_with_char (91 :: t) 93) with false; [reflexivity|]. symmetry. unfold ends_with_char. cbn [rev]. rewrite Q. cbn [app]. apply N.eqb_neq. exact X0.
Qed.
