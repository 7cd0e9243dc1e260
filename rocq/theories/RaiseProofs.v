(** Exactly which hosts make the code raise ValueError (SpecRaise.v). *)
From Coq Require Import Ascii String.
From Coq Require Import NArith ZArith Bool Arith Lia ZifyBool ZifyN ZifyNat List.
From Verif Require Import PyStr PyInt Codec Env HostModel UrlRecord Parser UrlApi SpecText SpecHost SpecUrl SpecParser.
From Verif Require Import StandardProofs.
From Verif Require Import Lemmas CodecProofs QuoteProofs PyIntProofs IPv4Proofs IPv6Proofs IPv6Conf HostProofs ParserProofs ParamProofs QueryProofs SpecPyInt IntGrammar SpecIPv6 IPv6Grammar HostStandard SpecText SpecHost SpecRaise.
Import ListNotations.
Open Scope N_scope.

(* ---------- IPv4 ---------- *)
Lemma f2_length {A B} (R : A -> B -> Prop) l m : Forall2 R l m -> length l = length m.
Proof. induction 1; cbn [length]; congruence. Qed.
Lemma numbers_err E parts e : snd (ipv4_numbers E parts) = Err e -> e = EIPv4.
Proof.
  induction parts as [|p parts IH]; intros H; [discriminate H|]. cbn [ipv4_numbers] in H. destruct (_ <? _)%Z; [now injection H|].
  rewrite snd_wbind in H. destruct (snd (parse_ipv4_number E p)); cbn [wlog wret snd] in H; rewrite snd_wbind in H; destruct (snd (ipv4_numbers E parts)); try discriminate H; apply IH; now injection H as ->.
Qed.
Lemma ipv4_raise E s : limit_ok E ->
  snd (ipv4_parse E s) = Err EValue <-> v4_value_error (int_limit E) (uni_decimal E) (uni_space E) (has_validity E) s.
Proof.
  intros HE. assert (X : snd (ipv4_parse E s) = Err EValue <-> (length (address_parts s) <= 4)%nat /\ exists ns, Forall2 (code_number E) (address_parts s) ns /\
    existsb (repr_fails E) ns = true /\ (has_validity E = true \/ (existsb (fun x => 255 <? x) (removelast ns) && (last ns 0 <=? 255) || (256 ^ (5 - N.of_nat (length ns)) <=? last ns 0)) = true)).
  { rewrite parts_eq. unfold ipv4_parse. cbv zeta. rewrite snd_wbind.
    match goal with |- context [match snd ?m with Ok _ => _ | Err _ => _ end] => replace (snd m) with (@Ok unit tt) by (destruct (last (split 46 s) []); reflexivity) end.
    set (ps := drop_last_empty (split 46 s)). destruct (4 <? length ps)%nat eqn:L; [split; [discriminate|intros (A & _); lia]|].
    rewrite snd_wbind. destruct (snd (ipv4_numbers E ps)) as [ns|e] eqn:Q.
    2:{ split; [intros H; injection H as ->; apply numbers_err in Q; discriminate Q|]. intros (_ & ns & F & _). apply numbers_exact in F. congruence. }
    pose proof (proj1 (numbers_exact E ps ns) Q) as F. cbv zeta. rewrite snd_wbind. set (bad := existsb (repr_fails E) ns) in *.
    assert (W : bad = true -> existsb (fun x => 255 <? x) ns = true).
    { intros B. apply existsb_exists in B as (x & I & R). apply existsb_exists. exists x. split; [exact I|]. apply (repr_small E x HE) in R. lia. }
    transitivity (bad = true /\ (has_validity E = true \/ (existsb (fun x => 255 <? x) (removelast ns) && (last ns 0 <=? 255) || (256 ^ (5 - N.of_nat (length ns)) <=? last ns 0)) = true)).
    2:{ split; [intros (A & B); split; [lia|]; exists ns; auto|]. intros (_ & ns' & F' & A & B). apply numbers_exact in F'. rewrite Q in F'. injection F' as <-. auto. }
    destruct bad.
    - rewrite W by reflexivity. rewrite andb_true_r. destruct (has_validity E); cbn [wfail wlog snd]; [split; auto|].
      destruct (existsb (fun x => 255 <? x) (removelast ns) && (last ns 0 <=? 255)); [split; auto|]. destruct (256 ^ (5 - N.of_nat (length ns)) <=? last ns 0); [split; auto|].
      split; [discriminate|]. intros (_ & [A|A]); discriminate A.
    - rewrite andb_false_r. split; [|intros (A & _); discriminate A]. destruct (existsb (fun x => 255 <? x) ns); cbn [wlog wret snd]; (destruct (_ && _); [discriminate|]); destruct (_ <=? _); discriminate. }
  rewrite X. clear X. unfold v4_value_error. fold (code_number E). split.
  - intros (L & ns & F & B & C). pose proof (f2_length _ _ _ F) as FL. destruct (rev_ind_inv ns) as [->|(lead & final & ->)].
    { inversion F as [Q|]; subst. symmetry in Q. now apply parts_ne in Q. }
    rewrite last_app, removelast_last, app_length in *. cbn [length] in *. exists lead, final. split; [exact F|]. split; [lia|].
    apply existsb_exists in B as (x & I & R). split; [apply Exists_exists; exists x; split; [exact I|]; intros P; apply (printable_eq E x HE) in P; congruence|].
    destruct C as [C|C]; [now left|]. right. apply orb_true_iff in C as [C|C]; [left; lia|right]. replace (4 - N.of_nat (length lead)) with (5 - N.of_nat (length lead + 1)) by lia. lia.
  - intros (lead & final & F & L & B & C). pose proof (f2_length _ _ _ F) as FL. rewrite app_length in FL. cbn [length] in FL. split; [lia|]. exists (lead ++ [final]). split; [exact F|].
    rewrite last_app, removelast_last, app_length. cbn [length].
    assert (BX : existsb (repr_fails E) (lead ++ [final]) = true).
    { apply Exists_exists in B as (x & I & P). apply existsb_exists. exists x. split; [exact I|]. destruct (repr_fails E x) eqn:R; [reflexivity|]. exfalso. now apply P, printable_eq. }
    split; [exact BX|]. destruct C as [C|C]; [now left|]. right. replace (5 - N.of_nat (length lead + 1)) with (4 - N.of_nat (length lead)) by lia.
    destruct (256 ^ (4 - N.of_nat (length lead)) <=? final) eqn:Q; [apply orb_true_r|]. rewrite orb_false_r. destruct C as [C|C]; [|lia].
    replace (final <=? 255) with true by lia. rewrite andb_true_r. apply existsb_exists in BX as (x & I & R). apply (repr_small E x HE) in R. apply existsb_exists. exists x.
    split; [|lia]. apply in_app_or in I as [I|[<-|[]]]; [exact I|lia].
Qed.

(* ---------- IPv6 ---------- *)
Lemma short_dec l p : {short_for l p} + {~ short_for l p}.
Proof. unfold short_for. destruct l as [l|]; [|left; exact I]. destruct (N.of_nat (length p) <=? l) eqn:Q; [left; lia|right; lia]. Qed.
Lemma ints_none E ps : Forall (fun x => bad_ipv4_piece x = false) ps ->
  ints E ps = None <-> Exists (fun p => ~ short_for (int_limit E) p) ps.
Proof.
  induction 1 as [|x ps B F IH]; [split; [discriminate|intros H; inversion H]|]. cbn [ints].
  assert (K : e_int E x 10 = None <-> ~ short_for (int_limit E) x).
  { apply octet_bad in B as (Nx & D & _). destruct (radix10_total x 0) as (v & V); [now rewrite bad_digits, D|].
    unfold e_int. rewrite (py_int_digits_eq _ _ _ 10 x v ltac:(auto) Nx V). unfold short_for. destruct (int_limit E) as [l|]; cbn [N.eqb Pos.eqb andb].
    - destruct (l <? N.of_nat (length x)) eqn:Q; split; intros; try discriminate; try reflexivity; try lia.
    - split; [discriminate|]. intros H. exfalso. now apply H. }
  rewrite Exists_cons, <- K, <- IH. destruct (e_int E x 10); destruct (ints E ps); split; auto; intros; try discriminate; intuition discriminate.
Qed.
Lemma chunk_raise E i p : chunk E i p = Err EValue <-> (i <= 6)%nat /\ long_quad (int_limit E) p.
Proof.
  unfold chunk, long_quad. split.
  - destruct (negb (mem 46 p)) eqn:D; [destruct (hex_chunk p); discriminate|]. destruct (6 <? i)%nat eqn:I; [discriminate|]. unfold v4_chunk. cbv zeta.
    destruct ((4 <? length (split 46 p))%nat || existsb bad_ipv4_piece (split 46 p)) eqn:Q; [discriminate|]. apply orb_false_iff in Q as [L B].
    destruct (ints E (split 46 p)) as [ns|] eqn:J; [destruct (existsb (fun n => 255 <? n) ns); [discriminate|]; destruct (length (split 46 p) <? 4)%nat; discriminate|]. intros _. split; [lia|].
    assert (BB : Forall (fun x => bad_ipv4_piece x = false) (split 46 p)) by (apply Forall_forall; intros x Hx; rewrite existsb_false in B; now apply B).
    exists (split 46 p). split; [symmetry; apply join_split|]. split; [split; [|lia]|].
    + pose proof (join_split 46 p) as JS. destruct (split 46 p) as [|x [|y t]] eqn:SP; [now apply split_not_nil in SP| |cbn [length]; lia].
      exfalso. cbn in JS. subst x. inversion BB as [|? ? B1 _]; subst. apply octet_bad in B1 as (_ & DD & _). rewrite (digits_no 46 p DD) in D; [discriminate D|lia].
    + split; [|now apply ints_none]. eapply Forall_impl; [|exact BB]. intros x B1. now apply octet_bad.
  - intros (I & ps & -> & L & F & X).
    assert (BB : Forall (fun x => bad_ipv4_piece x = false) ps) by (eapply Forall_impl; [|exact F]; intros x B1; now apply octet_bad).
    assert (SP : split 46 (join [46] ps) = ps).
    { apply split_join; [destruct ps; [cbn in L; lia|discriminate]|]. intros q Hq. rewrite Forall_forall in F. apply F in Hq as (_ & D & _). apply digits_no; [exact D|lia]. }
    replace (negb (mem 46 (join [46] ps))) with false.
    2:{ destruct ps as [|x [|y t]]; cbn [length] in L; [lia|lia|]. rewrite join_cons2, !mem_app. cbn [mem existsb app N.eqb Pos.eqb orb]. now rewrite orb_true_r. }
    replace (6 <? i)%nat with false by lia. unfold v4_chunk. cbv zeta. rewrite SP. replace (4 <? length ps)%nat with false by lia.
    replace (existsb bad_ipv4_piece ps) with false by (symmetry; apply existsb_false; intros x Hx; rewrite Forall_forall in BB; now apply BB).
    apply (ints_none E ps BB) in X. cbn [orb]. now rewrite X.
Qed.
Lemma quad_shape l q : long_quad l q -> q <> [] /\ no_colon q.
Proof.
  intros (ps & -> & L & F & _). destruct ps as [|x [|y t]]; cbn [length] in L; [lia|lia|]. split.
  - inversion F as [|? ? (N1 & _) _]; subst. destruct x; [congruence|]. rewrite join_cons2. discriminate.
  - clear L. unfold no_colon. revert x y F. induction t as [|z t IH]; intros x y F; inversion F as [|? ? (_ & D & _) F2]; subst; rewrite join_cons2, !mem_app, (digits_no 58 x D) by lia.
    + inversion F2 as [|? ? (_ & D2 & _) _]; subst. cbn [join]. rewrite (digits_no 58 y D2) by lia. reflexivity.
    + rewrite IH by exact F2. reflexivity.
Qed.
Definition reach (lim : option N) (c z : bool) (k : nat) (rest : str) : Prop :=
  exists lead q tail n, rest = lead ++ q ++ tail /\ v6_lead c z lead n /\ (k + n <= 6)%nat /\ long_quad lim q /\ (tail = [] \/ exists t, tail = 58 :: t).
Definition bz {A} (o : option A) : bool := match o with Some _ => true | None => false end.
Lemma reach_none lim c z k : ~ reach lim c z k [].
Proof.
  intros (lead & q & tail & n & Q & _ & _ & K & _). apply quad_shape in K as (K & _). destruct lead; [|discriminate Q]. destruct q; [congruence|discriminate Q].
Qed.
Lemma reach_eof lim c z k p : no_colon p -> p <> [] -> reach lim c z k p <-> (k <= 6)%nat /\ long_quad lim p.
Proof.
  intros Hc Hp. split.
  - intros (lead & q & tail & n & Q & V & L & K & T). assert (tail = []) by (destruct T as [->|(t & ->)]; [reflexivity|]; exfalso; rewrite Q, app_assoc in Hc; now apply nocolon_app in Hc). subst tail.
    rewrite app_nil_r in Q. destruct V as [c z|c z s vs t m I V|t m V].
    + cbn [app] in Q. subst q. split; [lia|exact K].
    + exfalso. rewrite Q in Hc. rewrite <- app_assoc in Hc. now apply nocolon_app in Hc.
    + exfalso. rewrite Q in Hc. unfold no_colon in Hc. discriminate Hc.
  - intros (L & K). exists [], p, [], O. split; [now rewrite app_nil_r|]. split; [constructor|]. split; [lia|]. auto.
Qed.
Lemma reach_item lim c z k p t : no_colon p -> p <> [] -> reach lim c z k (p ++ 58 :: t) <->
  ((k <= 6)%nat /\ long_quad lim p) \/ exists vs, v6_item p vs /\ reach lim true z (k + length vs) t.
Proof.
  intros Hc Hp. split.
  - intros (lead & q & tail & n & Q & V & L & K & T). destruct V as [c z|c z s vs t' m I V|t' m V].
    + cbn [app] in Q. left. destruct (quad_shape _ _ K) as (_ & NC). destruct (cut_unique q p tail t NC Hc T (eq_sym Q)) as [-> _]. split; [lia|exact K].
    + right. rewrite <- app_assoc in Q. cbn [app] in Q. destruct (cut_unique p s (58 :: t) (t' ++ q ++ tail) Hc (item_nocolon _ _ I) ltac:(eauto) Q) as [-> X]. injection X as ->.
      exists vs. split; [exact I|]. exists t', q, tail, m. split; [reflexivity|]. split; [exact V|]. split; [lia|auto].
    + exfalso. destruct p as [|x p]; [congruence|]. cbn [app] in Q. injection Q as -> _. unfold no_colon in Hc. discriminate Hc.
  - intros [(L & K)|(vs & I & lead & q & tail & n & -> & V & L & K & T)].
    + exists [], p, (58 :: t), O. split; [reflexivity|]. split; [constructor|]. split; [lia|]. eauto.
    + exists (p ++ 58 :: lead), q, tail, (length vs + n)%nat. split; [now rewrite <- app_assoc|]. split; [now apply lead_item|]. split; [lia|auto].
Qed.
Lemma reach_colon lim c z k t : reach lim c z k (58 :: t) <-> c = true /\ z = false /\ reach lim true true (S k) t.
Proof.
  split.
  - intros (lead & q & tail & n & Q & V & L & K & T). destruct V as [c z|c z s vs t' m I V|t' m V].
    + exfalso. cbn [app] in Q. destruct (quad_shape _ _ K) as (NE & NC). destruct q as [|x q]; [congruence|]. cbn [app] in Q. injection Q as <- _. unfold no_colon in NC. discriminate NC.
    + exfalso. destruct (item_shape _ _ I) as (NE & NC & _). destruct s as [|x s]; [congruence|]. cbn [app] in Q. injection Q as <- _. unfold no_colon in NC. discriminate NC.
    + cbn [app] in Q. injection Q as ->. split; [reflexivity|]. split; [reflexivity|]. exists t', q, tail, m. split; [reflexivity|]. split; [exact V|]. split; [lia|auto].
  - intros (-> & -> & lead & q & tail & n & -> & V & L & K & T). exists (58 :: lead), q, tail, (S n). split; [reflexivity|]. split; [now apply lead_short|]. split; [lia|auto].
Qed.
Section Code.
Context (E : env) (HE : limit_ok E).
Lemma loop_raise n : forall rest l comp prev, (length rest <= n)%nat -> here prev rest ->
  snd (ipv6_loop E rest (v6st l comp [] prev)) = Err EValue <-> reach (int_limit E) (bz prev) (bz comp) (length l) rest.
Proof.
  induction n as [|n IH]; intros rest l comp prev Hn Hh; (destruct (Nat.lt_ge_cases (length l) 8) as [L|L];
    [|rewrite loop_full by auto; split; [discriminate|]; intros (lead & q & tail & m & _ & _ & B & _); lia]).
  - destruct rest; [|cbn in Hn; lia]. destruct Hh as [->|(_ & c & t & ? & _)]; [|discriminate]. rewrite L_colon_eof by auto. split; [|intros R; now apply reach_none in R].
    destruct comp as [k|]; [|discriminate]. destruct (_ =? _)%nat; discriminate.
  - destruct rest as [|c0 rest0] eqn:R0; [apply (IH [] l comp prev); auto; cbn; lia|]. rewrite <- R0 in *. assert (Rn : rest <> []) by (subst; discriminate).
    destruct (chunk_split rest) as [Hc|(p & t & Q & Hc)].
    + rewrite L_piece_eof by auto. rewrite reach_eof by auto. rewrite <- (chunk_raise E). destruct (chunk E (length l) rest); split; congruence.
    + assert (Lt : (length t <= n)%nat) by (rewrite Q, app_length in Hn; cbn [length] in Hn; lia). destruct p as [|c p].
      * cbn [app] in Q. assert (P : prev = Some 58) by (destruct Hh as [|(_ & c & t' & X & Y)]; [assumption|congruence]). subst prev. rewrite Q, L_colon_colon by auto. rewrite reach_colon. destruct comp as [k|]; cbn [bz].
        -- split; [discriminate|]. intros (_ & X & _). discriminate X.
        -- rewrite IH; [|exact Lt|now left]. cbn [bz]. rewrite app_length. cbn [length]. rewrite Nat.add_1_r. intuition auto.
      * set (pp := c :: p) in *. assert (Hp : pp <> []) by discriminate. rewrite Q, L_piece_colon by auto. rewrite reach_item by auto. rewrite <- (chunk_raise E).
        destruct (chunk E (length l) pp) as [ws|e] eqn:C.
        -- rewrite IH; [|exact Lt|now left]. cbn [bz]. rewrite app_length. apply chunk_iff in C as C'; auto. destruct C' as [I B]. split.
           ++ intros R. right. exists ws. auto.
           ++ intros [X|(vs & I' & R)]; [discriminate X|]. assert (chunk E (length l) pp = Ok vs).
              { apply chunk_ok; auto. destruct R as (lead & q & tail & m & _ & _ & B' & _). lia. }
              replace vs with ws in R by congruence. exact R.
        -- split; [intros X; injection X as ->; now left|]. intros [X|(vs & I' & R)]; [injection X as ->; reflexivity|]. assert (chunk E (length l) pp = Ok vs).
           { apply chunk_ok; auto. destruct R as (lead & q & tail & m & _ & _ & B' & _). lia. }
           congruence.
Qed.
Lemma finish_raise st : snd (v6_finish st) <> Err EValue.
Proof. unfold v6_finish. destruct (v6_compress st) as [k|]; [|destruct (_ =? _)%nat; discriminate]. unfold of_opt. destruct (ipv6_swaps _ _ _ _); discriminate. Qed.
Lemma lead_any c z s n : (forall t, s <> 58 :: t) -> v6_lead c z s n -> forall c', v6_lead c' z s n.
Proof. intros H V c'. destruct V as [c z|c z s vs t m I V|t m V]; [constructor|now apply lead_item|]. exfalso. now apply (H t). Qed.
Lemma reach_any lim c c' z k x t : x <> 58 -> reach lim c z k (x :: t) -> reach lim c' z k (x :: t).
Proof.
  intros X (lead & q & tail & n & Q & V & R). exists lead, q, tail, n. split; [exact Q|]. split; [|exact R]. eapply lead_any; [|exact V]. intros t' ->. cbn [app] in Q. injection Q as ->. congruence.
Qed.
Lemma ipv6_raise s : snd (ipv6_parse E s) = Err EValue <-> v6_value_error (int_limit E) s.
Proof.
  rewrite ipv6_parse_eq.
  assert (M : forall r, match r with Ok st => snd (v6_finish st) | Err e => Err e end = Err EValue <-> r = Err EValue).
  { intros [st|e]; [|split; intros X; injection X as ->; reflexivity]. split; [intros X; now apply finish_raise in X|discriminate]. }
  assert (VE : v6_value_error (int_limit E) s <-> reach (int_limit E) false false 0 s \/ (exists t, s = 58 :: 58 :: t /\ reach (int_limit E) true true 1 t) \/ (exists t, s = 58 :: 58 :: 58 :: t /\ reach (int_limit E) true true 2 t)).
  { split.
    - intros (lead & q & tail & n & Q & B & L & R). destruct B as [b n V|b n V|b n V].
      + left. exists b, q, tail, n. repeat split; auto; apply R.
      + right. left. exists (b ++ q ++ tail). split; [exact Q|]. exists b, q, tail, n. split; [reflexivity|]. split; [exact V|]. split; [lia|exact R].
      + right. right. exists (b ++ q ++ tail). split; [exact Q|]. exists b, q, tail, n. split; [reflexivity|]. split; [exact V|]. split; [lia|exact R].
    - intros [(lead & q & tail & n & Q & V & L & R)|[(t & -> & lead & q & tail & n & -> & V & L & R)|(t & -> & lead & q & tail & n & -> & V & L & R)]].
      + exists lead, q, tail, n. split; [exact Q|]. split; [now apply begin_item|]. split; [lia|exact R].
      + exists (58 :: 58 :: lead), q, tail, (S n). split; [reflexivity|]. split; [now apply begin_short|]. split; [lia|exact R].
      + exists (58 :: 58 :: 58 :: lead), q, tail, (S (S n)). split; [reflexivity|]. split; [now apply begin_extra|]. split; [lia|exact R]. }
  rewrite VE. clear VE. destruct s as [|c s].
  { cbn [starts_with]. rewrite L_start_eof by (cbn; lia). split; [intros X; now apply finish_raise in X|]. intros [R|[(t & ? & _)|(t & ? & _)]]; [now apply reach_none in R|discriminate|discriminate]. }
  destruct (c =? 58) eqn:C.
  - apply N.eqb_eq in C. subst c. replace (starts_with [58] (58 :: s)) with true by reflexivity. destruct (starts_with [58; 58] (58 :: s)) eqn:S2.
    2:{ split; [discriminate|]. intros [R|[(t & Q & _)|(t & Q & _)]]; [apply reach_colon in R as (R & _); discriminate R| |]; injection Q as ->; discriminate S2. }
    destruct s as [|d s]; [discriminate S2|]. assert (d = 58) by (cbn [starts_with] in S2; destruct (58 =? d) eqn:D; [lia|discriminate S2]). subst d. clear S2. cbn [skipn]. rewrite M.
    transitivity (reach (int_limit E) true true 1 s \/ exists t, s = 58 :: t /\ reach (int_limit E) true true 2 t).
    2:{ split; [intros [R|(t & -> & R)]; eauto 10|]. intros [R|[(t & Q & R)|(t & Q & R)]]; [apply reach_colon in R as (R & _); discriminate R|left; congruence|right; injection Q as ->; eauto]. }
    destruct s as [|x s].
    { rewrite L_start_eof by (cbn; lia). split; [discriminate|]. intros [R|(t & Q & _)]; [now apply reach_none in R|discriminate Q]. }
    destruct (x =? 58) eqn:X.
    + apply N.eqb_eq in X. subst x. rewrite L_start_colon by (cbn; lia). rewrite (loop_raise (length s)); [|lia|now left]. cbn [app length bz]. split; [eauto|].
      intros [R|(t & Q & R)]; [apply reach_colon in R as (_ & R & _); discriminate R|]. injection Q as ->. exact R.
    + rewrite (loop_raise (length (x :: s))); [|lia|right; split; [reflexivity|]; exists x, s; split; [reflexivity|lia]]. cbn [length bz]. split.
      * intros R. left. eapply reach_any; [|exact R]. lia.
      * intros [R|(t & Q & _)]; [|injection Q as -> _; discriminate X]. eapply reach_any; [|exact R]. lia.
  - replace (starts_with [58] (c :: s)) with false by (cbn [starts_with]; now replace (58 =? c) with false by lia).
    rewrite M. rewrite (loop_raise (length (c :: s))); [|lia|right; split; [reflexivity|]; exists c, s; split; [reflexivity|lia]]. cbn [length bz]. split; [auto|].
    intros [R|[(t & Q & _)|(t & Q & _)]]; [exact R| |]; injection Q as -> _; discriminate C.
Qed.

(* ---------- hosts ---------- *)
Lemma opaque_err h e : snd (parse_opaque_host h) = Err e -> e = EHostParse.
Proof. unfold parse_opaque_host. destruct (existsb _ h); [now injection 1|]. rewrite snd_wbind. destruct (is_url_units $"%" [] h); discriminate. Qed.
Lemma domain_err d e : snd (domain_to_ascii E false d) = Err e -> e <> EValue.
Proof. unfold domain_to_ascii. destruct (icu_to_ascii E _ d) as [er dst|]; [|injection 1 as <-; discriminate]. destruct (negb _); [injection 1 as <-; discriminate|]. destruct dst; [injection 1 as <-; discriminate|discriminate]. Qed.
Lemma v4_ends d : v4_value_error (int_limit E) (uni_decimal E) (uni_space E) (has_validity E) d -> is_ends_in_a_number E d = true.
Proof.
  intros (lead & final & F & _). rewrite ends_eq. cbv zeta. apply orb_true_iff. right. assert (K : code_number E (last_label d) final).
  { rewrite <- last_label_eq. clear - F. fold (code_number E) in F. revert F. generalize (address_parts d). intros ps F. apply Forall2_app_inv_r in F as (p1 & p2 & _ & F & ->).
    inversion F as [|? ? ? ? A B]; subst. inversion B; subst. now rewrite last_app. }
  apply number_exact in K. lia.
Qed.
Theorem host_raise h o : scalar_string h ->
  snd (host_parse E h o) = Err EValue <-> host_value_error (int_limit E) (uni_decimal E) (uni_space E) (has_validity E) (code_to_ascii E) h o.
Proof.
  intros [Hp Hs]. unfold host_parse, host_value_error. destruct h as [|c t]; [split; [discriminate|]; intros [(t & Q & _)|(_ & Q & _)]; [discriminate Q|congruence]|]. destruct (c =? 91) eqn:C.
  - apply N.eqb_eq in C. subst c. destruct (rev_ind_inv t) as [->|(t' & x & ->)].
    { cbn. split; [discriminate|]. intros [(t & Q & _)|(_ & _ & Q & _)]; [destruct t; discriminate Q|now destruct (Q [])]. }
    assert (EW : ends_with_char (91 :: t' ++ [x]) 93 = (x =? 93)).
    { unfold ends_with_char. cbn [rev]. rewrite rev_app_distr. reflexivity. }
    rewrite EW, removelast_last. destruct (x =? 93) eqn:X.
    + apply N.eqb_eq in X. subst x. rewrite snd_wbind. transitivity (snd (ipv6_parse E t') = Err EValue); [destruct (snd (ipv6_parse E t')); split; intros X; first [discriminate X|injection X as ->; reflexivity]|].
      rewrite ipv6_raise. split; [intros H; left; eauto|]. intros [(t & Q & H)|(_ & _ & Q & _)]; [|now destruct (Q (t' ++ [93]))]. injection Q as Q. apply app_inj_tail in Q as (-> & _). exact H.
    + split; [discriminate|]. intros [(t & Q & _)|(_ & _ & Q & _)]; [|now destruct (Q (t' ++ [x]))]. injection Q as Q. apply app_inj_tail in Q as (_ & ->). discriminate X.
  - assert (R0 : forall P : Prop, (exists t0, c :: t = 91 :: t0 ++ [93] /\ v6_value_error (int_limit E) t0) \/ P <-> P).
    { intros P. split; [|auto]. intros [(t0 & Q & _)|Q]; [injection Q as -> _; discriminate C|exact Q]. }
    rewrite R0. clear R0. destruct o.
    + split; [|intros (Q & _); discriminate Q]. rewrite snd_wbind. destruct (snd (parse_opaque_host (c :: t))) as [a|e] eqn:Q; [discriminate|]. apply opaque_err in Q. subst e. discriminate.
    + cbv zeta. rewrite snd_wbind, utf8_decode_spec, string_percent_decode_spec, svs_free by assumption. unfold code_to_ascii. set (d0 := std_utf8_decode _).
      destruct (snd (domain_to_ascii E false d0)) as [d|e] eqn:Q.
      2:{ apply domain_err in Q. split; [congruence|]. intros (_ & _ & _ & d & X & _). discriminate X. }
      rewrite (existsb_ext' _ std_forbidden_domain) by (intros; apply forbidden_domain_eq). destruct (existsb std_forbidden_domain d) eqn:FD.
      { split; [discriminate|]. intros (_ & _ & _ & d' & X & Y & _). injection X as <-. congruence. }
      transitivity (v4_value_error (int_limit E) (uni_decimal E) (uni_space E) (has_validity E) d).
      2:{ split; [intros H; split; [reflexivity|]; split; [discriminate|]; split; [intros t0 X; injection X as -> _; discriminate C|]; eauto|]. intros (_ & _ & _ & d' & X & _ & Y). injection X as <-. exact Y. }
      rewrite <- ipv4_raise by exact HE. destruct (is_ends_in_a_number E d) eqn:EN.
      * rewrite snd_wbind. destruct (snd (ipv4_parse E d)); split; intros X; first [discriminate X|injection X as ->; reflexivity].
      * split; [discriminate|]. intros H. apply ipv4_raise, v4_ends in H; [congruence|exact HE].
Qed.
End Code.

(* ---------- the parser ---------- *)
Definition code_value_error (E : env) : str -> bool -> Prop :=
  host_value_error (int_limit E) (uni_decimal E) (uni_space E) (has_validity E) (code_to_ascii E).
Lemma arg_asked_host hp base s h o : arg_host_of hp base s h o -> scalar_string s -> good_base_arg None base -> scalar_string h.
Proof.
  intros H Hs Hb. destruct base as [|t|u]; cbn [arg_host_of good_base_arg] in *.
  - now apply asked_host in H.
  - destruct H as [H|(u & _ & H)]; apply asked_host in H; tauto.
  - now apply asked_host in H.
Qed.
Theorem url_value_error E s base enc : limit_ok E -> normalize_encoding E enc = $"utf-8" -> scalar_string s -> good_base_arg None base ->
  (snd (parse_url E s base enc) = Err EValue <->
   (exists b, arg_port_read (code_host E) base s b /\ ~ short_for (int_limit E) b) \/
   (exists h o, arg_host_of (code_host E) base s h o /\ code_value_error E h o)).
Proof.
  intros HE He Hs Hb. rewrite (StandardProofs.url_raises E s base enc He Hs Hb). split.
  - intros [H|(h & o & A & H)]; [now left|]. right. exists h, o. split; [exact A|]. apply host_raise; auto. eapply arg_asked_host; eauto.
  - intros [H|(h & o & A & H)]; [now left|]. right. exists h, o. split; [exact A|]. apply host_raise; auto. eapply arg_asked_host; eauto.
Qed.
Theorem can_parse_value_error E s base : limit_ok E -> scalar_string s -> good_base_arg None base ->
  (can_parse E s base = Err EValue <->
   (exists b, arg_port_read (code_host (with_validity E true)) base s b /\ ~ short_for (int_limit E) b) \/
   (exists h o, arg_host_of (code_host (with_validity E true)) base s h o /\ code_value_error (with_validity E true) h o)).
Proof.
  intros HE Hs Hb. rewrite <- (url_value_error (with_validity E true) s base UTF8 HE eq_refl Hs Hb). unfold can_parse.
  destruct (snd (parse_url (with_validity E true) s base UTF8)) as [u|e]; [split; discriminate|]. destruct e; cbn [is_url_error]; split; intros H; try discriminate H; reflexivity.
Qed.
