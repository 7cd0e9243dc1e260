(** The code's IPv6 parser and the standard's accept exactly the texts of the
    grammars in SpecIPv6.v. *)
From Coq Require Import Ascii String.
From Coq Require Import NArith ZArith Bool Arith Lia ZifyBool ZifyN ZifyNat List.
From Verif Require Import PyStr PyInt Codec Env ExampleEnv HostModel Lemmas CodecProofs QuoteProofs PyIntProofs IPv4Proofs IPv6Proofs IPv6Conf SpecText SpecHost SpecIPv6.
Import ListNotations.
Open Scope N_scope.

(* ---------- items ---------- *)
Lemma hex_text_chunk p v : hex_text p v <-> p <> [] /\ hex_chunk p = Some v.
Proof.
  unfold hex_text, hex_chunk. split.
  - intros ((A & B) & R). split; [intros ->; cbn in A; lia|]. now replace (4 <? length p)%nat with false by lia.
  - intros (A & B). destruct (4 <? length p)%nat eqn:Q; [discriminate|]. split; [|exact B]. destruct p; [congruence|]. cbn [length] in *. lia.
Qed.
Lemma octet_bad x : bad_ipv4_piece x = false <-> x <> [] /\ forallb std_ascii_digit x = true /\ (forall t, x = 48 :: t -> t = []).
Proof.
  unfold bad_ipv4_piece. rewrite bad_digits. split.
  - intros H. apply orb_false_iff in H as [H Z]. apply orb_false_iff in H as [L D]. split; [intros ->; discriminate L|]. split; [now destruct (forallb std_ascii_digit x)|].
    intros t ->. destruct t; [reflexivity|]. discriminate Z.
  - intros (L & -> & Z). destruct x as [|c t]; [congruence|]. cbn [length Nat.eqb negb orb].
    destruct (c =? 48) eqn:C; [|now rewrite andb_false_r]. apply N.eqb_eq in C. subst c. rewrite (Z t eq_refl). reflexivity.
Qed.
Lemma octet_text_iff x v : octet_text x v <-> bad_ipv4_piece x = false /\ std_radix_value 10 x 0 = Some v /\ v <= 255.
Proof.
  unfold octet_text. rewrite octet_bad. split.
  - intros (A & B & C & D). pose proof (radix10_digits _ _ _ B). repeat split; auto.
  - intros ((A & B & C) & D & F). repeat split; auto.
Qed.
Lemma digits_no c x : forallb std_ascii_digit x = true -> (c < 48 \/ 57 < c) -> mem c x = false.
Proof.
  intros H L. apply mem_not_In. intros I. rewrite forallb_forall in H. specialize (H c I). unfold std_ascii_digit in H. lia.
Qed.
Lemma octet_no c x v : octet_text x v -> (c < 48 \/ 57 < c) -> mem c x = false.
Proof. intros (_ & B & _) L. apply radix10_digits in B. now apply digits_no. Qed.
Lemma forall2_le ps ns : Forall2 (fun x v => std_radix_value 10 x 0 = Some v) ps ns -> existsb (fun n => 255 <? n) ns = false ->
  Forall (fun x => bad_ipv4_piece x = false) ps -> Forall2 octet_text ps ns.
Proof.
  intros F. induction F as [|x v ps ns V F IH]; intros E B; [constructor|]. cbn [existsb] in E. apply orb_false_iff in E as [E1 E2].
  inversion B; subst. constructor; [|now apply IH]. apply octet_text_iff. repeat split; auto. lia.
Qed.
Lemma v4_chunk_iff E p vs : limit_ok E -> v4_chunk E p = Ok vs <->
  exists sa sb sc sd a b c d, p = sa ++ [46] ++ sb ++ [46] ++ sc ++ [46] ++ sd /\ vs = [a * 256 + b; c * 256 + d] /\
    octet_text sa a /\ octet_text sb b /\ octet_text sc c /\ octet_text sd d.
Proof.
  intros HE. unfold v4_chunk. cbv zeta. split.
  - intros H. destruct ((4 <? length (split 46 p))%nat || existsb bad_ipv4_piece (split 46 p)) eqn:Q; [discriminate|].
    apply orb_false_iff in Q as [L4 B]. destruct (ints E (split 46 p)) as [ns|] eqn:I; [|discriminate].
    destruct (existsb (fun n => 255 <? n) ns) eqn:X; [discriminate|]. destruct (length (split 46 p) <? 4)%nat eqn:L3; [discriminate|].
    injection H as <-. assert (BB : Forall (fun x => bad_ipv4_piece x = false) (split 46 p)) by (apply Forall_forall; intros x Hx; rewrite existsb_false in B; now apply B).
    pose proof (forall2_le _ _ (ints_some E _ HE BB ns I) X BB) as O. pose proof (join_split 46 p) as J. remember (split 46 p) as ps. clear Heqps.
    destruct ps as [|sa [|sb [|sc [|sd [|]]]]]; try (cbn in *; discriminate).
    inversion O as [|? a ? ? Oa O1]; subst. inversion O1 as [|? b ? ? Ob O2]; subst. inversion O2 as [|? c ? ? Oc O3]; subst. inversion O3 as [|? d ? ? Od O4]; subst. inversion O4; subst.
    exists sa, sb, sc, sd, a, b, c, d. auto 10.
  - intros (sa & sb & sc & sd & a & b & c & d & -> & -> & Oa & Ob & Oc & Od).
    assert (S : split 46 (sa ++ [46] ++ sb ++ [46] ++ sc ++ [46] ++ sd) = [sa; sb; sc; sd]).
    { change (sa ++ [46] ++ sb ++ [46] ++ sc ++ [46] ++ sd) with (join [46] [sa; sb; sc; sd]). apply split_join; [discriminate|].
      intros q [<-|[<-|[<-|[<-|[]]]]]; eapply octet_no; eauto; lia. }
    rewrite S. assert (F : Forall2 (fun x v => std_radix_value 10 x 0 = Some v /\ v <= 255) [sa; sb; sc; sd] [a; b; c; d]).
    { repeat constructor; match goal with |- std_radix_value _ ?x _ = _ => idtac | |- _ => idtac end; first [apply Oa|apply Ob|apply Oc|apply Od]. }
    assert (B : Forall (fun x => bad_ipv4_piece x = false) [sa; sb; sc; sd]) by (repeat constructor; eapply octet_text_iff; eauto).
    rewrite (ints_intro E _ _ HE B F). cbn [length Nat.ltb Nat.leb orb existsb nth]. apply octet_text_iff in Oa as (-> & _ & La), Ob as (-> & _ & Lb), Oc as (-> & _ & Lc), Od as (-> & _ & Ld).
    cbn [orb]. clear - La Lb Lc Ld.
    replace (255 <? a) with false by lia. replace (255 <? b) with false by lia. replace (255 <? c) with false by lia. replace (255 <? d) with false by lia. reflexivity.
Qed.
Lemma chunk_iff E i p vs : limit_ok E -> p <> [] -> (i < 8)%nat -> chunk E i p = Ok vs <-> v6_item p vs /\ (i + length vs <= 8)%nat.
Proof.
  intros HE Hp Hi. unfold chunk. split.
  - intros H. destruct (negb (mem 46 p)) eqn:D.
    + destruct (hex_chunk p) as [v|] eqn:V; [|discriminate]. injection H as <-. split; [|cbn; lia]. apply item_hex, hex_text_chunk. auto.
    + destruct (6 <? i)%nat eqn:I; [discriminate|]. apply v4_chunk_iff in H as (sa & sb & sc & sd & a & b & c & d & -> & -> & Oa & Ob & Oc & Od); [|exact HE].
      split; [now apply item_quad|cbn; lia].
  - intros [[s v H|sa sb sc sd a b c d Oa Ob Oc Od] L].
    + apply hex_text_chunk in H as [_ H]. rewrite (hex_chunk_nodot _ _ H), H. reflexivity.
    + replace (negb (mem 46 (sa ++ [46] ++ sb ++ [46] ++ sc ++ [46] ++ sd))) with false.
      2:{ rewrite mem_app. cbn [mem existsb app N.eqb Pos.eqb orb]. now rewrite orb_true_r. }
      cbn [length] in L. replace (6 <? i)%nat with false by lia. apply v4_chunk_iff; [exact HE|]. exists sa, sb, sc, sd, a, b, c, d. auto 10.
Qed.
Lemma chunk_ok E i p vs : limit_ok E -> p <> [] -> (i < 8)%nat -> v6_item p vs -> (i + length vs <= 8)%nat -> chunk E i p = Ok vs.
Proof. intros. apply chunk_iff; auto. Qed.
Lemma item_shape s vs : v6_item s vs -> s <> [] /\ no_colon s /\ (1 <= length vs)%nat.
Proof.
  unfold no_colon. intros [p v ((A & B) & R)|sa sb sc sd a b c d Oa Ob Oc Od].
  - split; [intros ->; cbn in A; lia|]. split; [|cbn; lia]. apply mem_not_In. intros I. apply in_split in I as (h & q & ->). now rewrite radix_app_none in R.
  - split; [|split; [|cbn; lia]].
    + destruct Oa as (Oa & _). destruct sa; [congruence|discriminate].
    + rewrite !mem_app. rewrite (octet_no 58 sa a Oa), (octet_no 58 sb b Ob), (octet_no 58 sc c Oc), (octet_no 58 sd d Od) by lia. reflexivity.
Qed.
Lemma seq_shape s vs : v6_seq s vs -> s <> [] /\ (exists c t, s = c :: t /\ c <> 58) /\ (1 <= length vs)%nat.
Proof.
  assert (G : forall s vs t, v6_item s vs -> exists c t', s ++ t = c :: t' /\ c <> 58).
  { intros s0 vs0 t I. destruct (item_shape _ _ I) as (A & B & _). destruct s0 as [|c s0]; [congruence|]. exists c, (s0 ++ t). split; [reflexivity|].
    unfold no_colon in B. cbn [mem existsb] in B. apply orb_false_iff in B as [B _]. lia. }
  intros [p ws I|p ws t us I T]; destruct (item_shape _ _ I) as (A & B & C).
  - split; [exact A|]. split; [|exact C]. destruct (G p ws [] I) as (c & t' & Q & H). rewrite app_nil_r in Q. eauto.
  - split; [destruct p; [congruence|discriminate]|]. split; [apply (G _ _ _ I)|]. rewrite app_length. lia.
Qed.
(** the first item of a sequence is what precedes the first colon *)
Lemma seq_cut p r vs : no_colon p -> (r = [] \/ exists t, r = 58 :: t) -> v6_seq (p ++ r) vs ->
  (r = [] /\ v6_item p vs) \/ exists t ws us, r = 58 :: t /\ v6_item p ws /\ v6_seq t us /\ vs = ws ++ us.
Proof.
  intros Hp Hr H. remember (p ++ r) as s eqn:Q. destruct H as [s vs I|s ws t us I T].
  - destruct Hr as [->|(t & ->)]; [rewrite app_nil_r in Q; subst; auto|]. exfalso. destruct (item_shape _ _ I) as (_ & B & _).
    subst s. unfold no_colon in B. rewrite mem_app in B. cbn in B. now rewrite orb_true_r in B.
  - right. destruct (item_shape _ _ I) as (_ & B & _). unfold no_colon in *.
    assert (K : p = s /\ r = 58 :: t).
    { clear - Q B Hp Hr. revert p Hp Q. induction s as [|c s IH]; intros p Hp Q.
      - destruct p as [|d p]; [split; [reflexivity|now symmetry]|]. exfalso. cbn [app] in Q. injection Q as <- _. cbn in Hp. discriminate.
      - cbn [mem existsb] in B. apply orb_false_iff in B as [B1 B2]. destruct p as [|d p].
        + destruct Hr as [->|(t0 & ->)]; [discriminate|]. cbn [app] in Q. injection Q as -> _. discriminate B1.
        + cbn [app] in Q. injection Q as -> Q. cbn [mem existsb] in Hp. apply orb_false_iff in Hp as [_ Hp].
          destruct (IH B2 p Hp Q) as [-> ->]. auto. }
    destruct K as [-> ->]. eauto 8.
Qed.

Lemma repeat_shift (x : N) n l : repeat x n ++ x :: l = repeat x (S n) ++ l.
Proof. induction n as [|n IH]; [reflexivity|]. cbn [repeat app] in *. now rewrite IH. Qed.

(* ---------- the code's loop ---------- *)
Section Code.
Variable E : env.
Hypothesis HE : limit_ok E.
Lemma loop_some n : forall rest l k st, (length rest <= n)%nat -> (k <= length l)%nat ->
  snd (ipv6_loop E rest (v6st l (Some k) [] (Some 58))) = Ok st <->
  (rest = [] /\ length l = k /\ (length l < 8)%nat /\ st = v6st l (Some k) [] (Some 58)) \/
  (exists vs, v6_seq rest vs /\ (length l + length vs <= 8)%nat /\ st = v6st (l ++ vs) (Some k) [] None).
Proof.
  induction n as [|n IH]; intros rest l k st Hn Hk.
  - destruct rest; [|cbn in Hn; lia]. destruct (Nat.lt_ge_cases (length l) 8) as [L|L].
    + rewrite L_colon_eof by auto. destruct (length l =? k)%nat eqn:Q.
      * split; [intros H; injection H as <-; left; repeat split; auto; lia|]. intros [(_ & _ & _ & ->)|(vs & H & _)]; [reflexivity|].
        now destruct (seq_shape _ _ H) as (? & _).
      * split; [discriminate|]. intros [(_ & ? & _)|(vs & H & _)]; [lia|]. now destruct (seq_shape _ _ H) as (? & _).
    + rewrite loop_full by auto. split; [discriminate|]. intros [(_ & _ & ? & _)|(vs & H & _)]; [lia|]. now destruct (seq_shape _ _ H) as (? & _).
  - destruct rest as [|c0 rest0] eqn:R0; [apply (IH [] l k st); auto; cbn; lia|]. rewrite <- R0 in *. assert (Rn : rest <> []) by (subst; discriminate).
    destruct (Nat.lt_ge_cases (length l) 8) as [L|L].
    2:{ rewrite loop_full by auto. split; [discriminate|]. intros [(? & _)|(vs & H & ? & _)]; [congruence|]. destruct (seq_shape _ _ H) as (_ & _ & ?). lia. }
    destruct (chunk_split rest) as [Hc|(p & t & Q & Hc)].
    + rewrite L_piece_eof by auto. split.
      * destruct (chunk E (length l) rest) as [vs|] eqn:C; [|discriminate]. intros H. injection H as <-. right. exists vs.
        apply chunk_iff in C as [C1 C2]; auto. split; [now apply seq_one|]. auto.
      * intros [(? & _)|(vs & H & B & ->)]; [congruence|]. replace rest with (rest ++ []) in H by apply app_nil_r.
        apply seq_cut in H as [(_ & I)|(t & ws & us & ? & _)]; auto; [|discriminate].
        rewrite (proj2 (chunk_iff E (length l) rest vs HE Rn L) (conj I B)). reflexivity.
    + destruct p as [|c p].
      * cbn [app] in Q. rewrite Q. rewrite L_colon_colon by auto. split; [discriminate|]. intros [(? & _)|(vs & H & _)]; [discriminate|].
        destruct (seq_shape _ _ H) as (_ & (c & t' & X & Y) & _). congruence.
      * set (pp := c :: p) in *. assert (Hp : pp <> []) by discriminate.
        assert (Lt : (length t <= n)%nat) by (rewrite Q, app_length in Hn; cbn [length] in Hn; lia).
        rewrite Q. rewrite L_piece_colon by auto. split.
        -- destruct (chunk E (length l) pp) as [ws|] eqn:C; [|discriminate]. apply chunk_iff in C as [C1 C2]; auto.
           destruct (item_shape _ _ C1) as (_ & _ & W1). intros H. apply IH in H; [|exact Lt|rewrite app_length; lia].
           destruct H as [(_ & H & _)|(us & T & B & ->)]; [rewrite app_length in H; lia|]. right. exists (ws ++ us).
           split; [now apply (seq_more pp ws t us)|]. rewrite app_length in *. split; [lia|]. now rewrite app_assoc.
        -- intros [(H & _)|(vs & H & B & ->)]; [discriminate H|].
           apply seq_cut in H as [(? & _)|(t' & ws & us & X & I & T & ->)]; eauto; [discriminate|]. injection X as <-.
           rewrite app_length in B. rewrite (chunk_ok E (length l) pp ws HE Hp L I ltac:(lia)).
           destruct (item_shape _ _ I) as (_ & _ & W1). apply IH; [exact Lt|rewrite app_length; lia|]. right. exists us.
           rewrite app_length. split; [exact T|]. split; [lia|]. now rewrite app_assoc.
Qed.

(** before a compression *)
Definition here (prev : option N) (rest : str) : Prop := prev = Some 58 \/ (prev = None /\ exists c t, rest = c :: t /\ c <> 58).
Lemma loop_none n : forall rest l prev st, (length rest <= n)%nat -> here prev rest ->
  snd (ipv6_loop E rest (v6st l None [] prev)) = Ok st <->
  (exists vs, v6_seq rest vs /\ (length l + length vs <= 8)%nat /\ st = v6st (l ++ vs) None [] None) \/
  (exists r, prev = Some 58 /\ rest = 58 :: r /\ (length l < 8)%nat /\
     snd (ipv6_loop E r (v6st (l ++ [0]) (Some (S (length l))) [] (Some 58))) = Ok st) \/
  (exists x vs r, rest = x ++ 58 :: 58 :: r /\ v6_seq x vs /\ (length l + length vs < 8)%nat /\
     snd (ipv6_loop E r (v6st ((l ++ vs) ++ [0]) (Some (S (length (l ++ vs)))) [] (Some 58))) = Ok st).
Proof.
  induction n as [|n IH]; intros rest l prev st Hn Hh.
  - destruct rest; [|cbn in Hn; lia]. destruct Hh as [->|(_ & c & t & ? & _)]; [|discriminate].
    split.
    + destruct (Nat.lt_ge_cases (length l) 8) as [L|L]; [rewrite L_colon_eof by auto|rewrite loop_full by auto]; discriminate.
    + intros [(vs & H & _)|[(r & _ & ? & _)|(x & vs & r & ? & _)]]; [now destruct (seq_shape _ _ H) as (? & _)|discriminate|destruct x; discriminate].
  - destruct rest as [|c0 rest0] eqn:R0; [apply (IH [] l prev st); auto; cbn; lia|]. rewrite <- R0 in *. assert (Rn : rest <> []) by (subst; discriminate).
    destruct (Nat.lt_ge_cases (length l) 8) as [L|L].
    2:{ rewrite loop_full by auto. split; [discriminate|]. intros [(vs & H & ? & _)|[(r & _ & _ & ? & _)|(x & vs & r & _ & H & ? & _)]]; try lia.
        destruct (seq_shape _ _ H) as (_ & _ & ?). lia. }
    destruct (chunk_split rest) as [Hc|(p & t & Q & Hc)].
    + rewrite L_piece_eof by auto. split.
      * destruct (chunk E (length l) rest) as [vs|] eqn:C; [|discriminate]. intros H. injection H as <-. left. exists vs.
        apply chunk_iff in C as [C1 C2]; auto. split; [now apply seq_one|]. auto.
      * intros [(vs & H & B & ->)|[(r & _ & X & _)|(x & vs & r & X & _)]].
        -- replace rest with (rest ++ []) in H by apply app_nil_r.
           apply seq_cut in H as [(_ & I)|(t & ws & us & ? & _)]; auto; [|discriminate].
           rewrite (proj2 (chunk_iff E (length l) rest vs HE Rn L) (conj I B)). reflexivity.
        -- exfalso. unfold no_colon in Hc. rewrite X in Hc. discriminate Hc.
        -- exfalso. unfold no_colon in Hc. rewrite X, mem_app in Hc. cbn in Hc. now rewrite orb_true_r in Hc.
    + destruct p as [|c p].
      * cbn [app] in Q. assert (P : prev = Some 58).
        { destruct Hh as [|(_ & c & t' & X & Y)]; [assumption|congruence]. }
        subst prev. rewrite Q. rewrite L_colon_colon by auto. split.
        -- intros H. right. left. exists t. auto.
        -- intros [(vs & H & _)|[(r & _ & X & _ & H)|(x & vs & r & X & H & _)]].
           ++ destruct (seq_shape _ _ H) as (_ & (c & t' & X & Y) & _). congruence.
           ++ injection X as ->. exact H.
           ++ destruct (seq_shape _ _ H) as (_ & (c & t' & X' & Y) & _). subst x. cbn [app] in X. congruence.
      * set (pp := c :: p) in *. assert (Hp : pp <> []) by discriminate.
        assert (Lt : (length t <= n)%nat) by (rewrite Q, app_length in Hn; cbn [length] in Hn; lia).
        rewrite Q. rewrite L_piece_colon by auto. split.
        -- destruct (chunk E (length l) pp) as [ws|] eqn:C; [|discriminate]. apply chunk_iff in C as [C1 C2]; auto.
           intros H. apply IH in H; [|exact Lt|now left].
           destruct H as [(us & T & B & ->)|[(r & _ & -> & B & H)|(x & us & r & -> & T & B & H)]].
           ++ left. exists (ws ++ us). split; [now apply (seq_more pp ws t us)|]. rewrite app_length in *. split; [lia|]. now rewrite app_assoc.
           ++ right. right. exists pp, ws, r. rewrite app_length in B. split; [reflexivity|]. split; [now apply seq_one|]. auto.
           ++ right. right. exists (pp ++ [58] ++ x), (ws ++ us), r. rewrite <- app_assoc. split; [reflexivity|]. split; [now apply seq_more|].
              rewrite app_length in B. split; [rewrite app_length; lia|]. rewrite !app_assoc. exact H.
        -- intros [(vs & H & B & ->)|[(r & _ & X & _)|(x & vs & r & X & H & B & K)]].
           ++ apply seq_cut in H as [(? & _)|(t' & ws & us & X & I & T & ->)]; eauto; [discriminate|]. injection X as <-.
              rewrite app_length in B. rewrite (chunk_ok E (length l) pp ws HE Hp L I ltac:(lia)).
              apply IH; [exact Lt|now left|]. left. exists us.
              rewrite app_length. split; [exact T|]. split; [lia|]. now rewrite app_assoc.
           ++ unfold pp in X. cbn [app] in X. injection X as -> _. cbn in Hc. discriminate Hc.
           ++ (* the first item of x is pp *)
              destruct (chunk_split x) as [Hx|(q & x' & -> & Hq)].
              ** assert (KK : pp = x /\ t = 58 :: r).
                 { clear - X Hx Hc. unfold no_colon in *. revert X Hc. generalize pp. clear pp p c. intros pp X Hc. revert x X Hx.
                   induction pp as [|c pp IH]; intros [|d x] X Hx; cbn [app] in X.
                   - injection X as ->. auto.
                   - injection X as <- _. discriminate Hx.
                   - injection X as -> _. discriminate Hc.
                   - injection X as -> X. cbn [mem existsb] in Hc, Hx. apply orb_false_iff in Hc as [_ Hc], Hx as [_ Hx].
                     destruct (IH Hc x X Hx) as [-> ->]. auto. }
                 destruct KK as [<- ->]. replace pp with (pp ++ []) in H by apply app_nil_r.
                 apply seq_cut in H as [(_ & I)|(t' & ws & us & ? & _)]; auto; [|discriminate].
                 rewrite (chunk_ok E (length l) pp vs HE Hp L I ltac:(lia)). apply IH; [exact Lt|now left|].
                 right. left. exists r. rewrite app_length. repeat split; auto. rewrite <- app_length. exact K.
              ** apply seq_cut in H as [(? & _)|(t' & ws & us & X' & I & T & ->)]; eauto; [discriminate|]. injection X' as <-.
                 assert (KK : pp = q /\ t = x' ++ 58 :: 58 :: r).
                 { clear - X Hq Hc. rewrite <- app_assoc in X. cbn [app] in X. unfold no_colon in *. revert X Hc. generalize pp. clear pp p c. intros pp X Hc. revert q X Hq.
                   induction pp as [|c pp IH]; intros [|d q] X Hx; cbn [app] in X.
                   - injection X as ->. auto.
                   - injection X as <- _. discriminate Hx.
                   - injection X as -> _. discriminate Hc.
                   - injection X as -> X. cbn [mem existsb] in Hc, Hx. apply orb_false_iff in Hc as [_ Hc], Hx as [_ Hx].
                     destruct (IH Hc q X Hx) as [-> ->]. auto. }
                 destruct KK as [<- ->]. rewrite app_length in B.
                 rewrite (chunk_ok E (length l) pp ws HE Hp L I ltac:(lia)). apply IH; [exact Lt|now left|].
                 right. right. exists x', us, r. rewrite app_length. split; [reflexivity|]. split; [exact T|]. split; [lia|].
                 rewrite app_assoc in K. exact K.
Qed.

Lemma swap_value pre post : (length pre + length post <= 7)%nat ->
  std_v6_swap (length post) 7 (S (length pre)) (A8 ((pre ++ [0]) ++ post)) = pre ++ repeat 0 (8 - length pre - length post) ++ post.
Proof.
  intros B.
  do 8 (destruct pre as [|? pre];
        [do 8 (destruct post as [|? post]; [first [reflexivity | exfalso; cbn [length] in B; lia]|]);
         exfalso; cbn [length] in B; lia|]).
  exfalso; cbn [length] in B; lia.
Qed.
Lemma finish_value pre post prev : (length pre + length post <= 7)%nat ->
  snd (v6_finish (v6st ((pre ++ [0]) ++ post) (Some (S (length pre))) [] prev)) = Ok (pre ++ repeat 0 (8 - length pre - length post) ++ post).
Proof.
  intros B. pose proof (finish_std ((pre ++ [0]) ++ post) (Some (S (length pre))) prev) as F. cbv iota in F. rewrite F.
  - rewrite <- swap_value by auto. do 2 f_equal. rewrite !app_length. cbn [length]. lia.
  - rewrite !app_length. cbn [length]. lia.
  - intros k K. injection K as <-. rewrite !app_length. cbn [length]. lia.
Qed.
(** what follows "::" *)
Lemma after_compression pre r a : (length pre < 8)%nat ->
  (exists st, snd (ipv6_loop E r (v6st (pre ++ [0]) (Some (S (length pre))) [] (Some 58))) = Ok st /\ snd (v6_finish st) = Ok a) <->
  (length pre <= 6)%nat /\ exists vr, or_nothing v6_seq r vr /\ (length pre + length vr <= 7)%nat /\ a = pre ++ repeat 0 (8 - length pre - length vr) ++ vr.
Proof.
  intros L. assert (LP : length (pre ++ [0]) = S (length pre)) by (rewrite app_length; cbn; lia). split.
  - intros (st & H & F). apply (loop_some (length r)) in H; [|lia|lia]. destruct H as [(-> & _ & B & ->)|(vs & T & B & ->)].
    + split; [lia|]. exists []. pose proof (finish_value pre [] (Some 58)) as G. rewrite app_nil_r in G. rewrite G in F by (cbn; lia). injection F as <-.
      split; [left; auto|]. split; [cbn; lia|reflexivity].
    + destruct (seq_shape _ _ T) as (_ & _ & V1). rewrite LP in B. split; [lia|]. exists vs. rewrite finish_value in F by lia. injection F as <-.
      split; [right; exact T|]. split; [lia|reflexivity].
  - intros (L6 & vr & [(-> & ->)|T] & B & ->).
    + eexists. split; [apply (loop_some 0); [cbn; lia|lia|]; left; repeat split; lia|]. pose proof (finish_value pre [] (Some 58)) as G. rewrite app_nil_r in G. apply G. cbn. lia.
    + eexists. split; [apply (loop_some (length r)); [lia|lia|]; right; exists vr; split; [exact T|]; split; [lia|reflexivity]|]. now apply finish_value.
Qed.

Lemma code_v6_iff s a : snd (ipv6_parse E s) = Ok a <-> code_v6_text s a.
Proof.
  rewrite ipv6_parse_eq.
  assert (M : forall r, match r with Ok st => snd (v6_finish st) | Err e => Err e end = Ok a <-> exists st, r = Ok st /\ snd (v6_finish st) = Ok a).
  { intros [st|e]; [split; [eauto|intros (x & X & Y); injection X as <-; exact Y]|split; [discriminate|intros (x & X & _); discriminate]]. }
  destruct s as [|c s].
  - cbn [starts_with]. rewrite L_start_eof by (cbn; lia). split; [discriminate|]. intros H. exfalso. remember [] as s eqn:Q. destruct H as [s a H _|l r vl vr _ _ _ _|r vr _ _].
    + subst. now destruct (seq_shape _ _ H) as (? & _).
    + destruct l; discriminate.
    + discriminate.
  - destruct (c =? 58) eqn:C.
    + apply N.eqb_eq in C. subst c. replace (starts_with [58] (58 :: s)) with true by reflexivity.
      destruct (starts_with [58; 58] (58 :: s)) eqn:S2.
      2:{ split; [discriminate|]. intros H. exfalso. remember (58 :: s) as s' eqn:Q. destruct H as [s' a H _|l r vl vr L _ _ _|r vr _ _].
          - destruct (seq_shape _ _ H) as (_ & (c & t & X & Y) & _). congruence.
          - destruct L as [(-> & _)|L]; [rewrite Q in S2; injection Q as Q; subst s; discriminate S2|].
            destruct (seq_shape _ _ L) as (_ & (c & t & X & Y) & _). subst l. cbn [app] in Q. congruence.
          - injection Q as <-. discriminate S2. }
      destruct s as [|d s]; [discriminate S2|]. assert (d = 58) by (cbn [starts_with] in S2; destruct (58 =? d) eqn:D; [lia|discriminate S2]). subst d.
      cbn [skipn]. rewrite M. clear S2. destruct s as [|x s].
      { rewrite L_start_eof by (cbn; lia). split.
        - intros (st & H & F). injection H as <-. pose proof (finish_value [] [0] None) as G. cbn [length app] in G. rewrite G in F by lia. injection F as <-.
          apply (cv6_short [] [] [] []); [left; auto|left; auto|cbn; lia|cbn; lia].
        - intros H. exists (v6st ([0] ++ [0]) (Some 1%nat) [] None). split; [reflexivity|]. pose proof (finish_value [] [0] None) as G. cbn [length app] in G.
          cbn [app]. rewrite G by lia. f_equal. remember [58; 58] as s eqn:Q. destruct H as [s a H _|l r vl vr L R _ _|r vr _ _]; [| |discriminate].
          + destruct (seq_shape _ _ H) as (_ & (c & t & X & Y) & _). congruence.
          + destruct L as [(-> & ->)|L]; [|destruct (seq_shape _ _ L) as (_ & (c & t & X & Y) & _); subst l; cbn [app] in Q; congruence].
            cbn [app] in Q. injection Q as ->. destruct R as [(_ & ->)|R]; [reflexivity|now destruct (seq_shape _ _ R) as (? & _)]. }
      destruct (x =? 58) eqn:X.
      * apply N.eqb_eq in X. subst x. rewrite L_start_colon by (cbn; lia). cbn [app].
        assert (G : forall st, snd (ipv6_loop E s (v6st [0; 0] (Some 1%nat) [] (Some 58))) = Ok st <-> exists vs, v6_seq s vs /\ (length vs <= 6)%nat /\ st = v6st ([0; 0] ++ vs) (Some 1%nat) [] None).
        { intros st. rewrite (loop_some (length s)) by (cbn [length]; lia). cbn [length]. split.
          - intros [(_ & ? & _)|(vs & A & B & ->)]; [discriminate|]. exists vs. repeat split; auto. lia.
          - intros (vs & A & B & ->). right. exists vs. repeat split; auto. lia. }
        assert (FV : forall vs, (length vs <= 6)%nat -> snd (v6_finish (v6st ([0; 0] ++ vs) (Some 1%nat) [] None)) = Ok (repeat 0 (8 - length vs) ++ vs)).
        { intros vs B. pose proof (finish_value [] (0 :: vs) None) as F. cbn [length app] in F. cbn [app]. rewrite F by lia. f_equal.
          replace (8 - length vs)%nat with (S (8 - 0 - S (length vs))) by lia. clear F G. apply repeat_shift. }
        split.
        -- intros (st & H & F). apply G in H as (vs & T & B & ->). rewrite FV in F by auto. injection F as <-. now apply (cv6_extra s vs).
        -- intros H. remember (58 :: 58 :: 58 :: s) as s' eqn:Q. destruct H as [s' a H _|l r vl vr L R _ _|r vr R B].
           ++ destruct (seq_shape _ _ H) as (_ & (c & t & X & Y) & _). congruence.
           ++ exfalso. destruct L as [(-> & ->)|L]; [|destruct (seq_shape _ _ L) as (_ & (c & t & X & Y) & _); subst l; cbn [app] in Q; congruence].
              cbn [app] in Q. injection Q as ->. destruct R as [(? & _)|R]; [discriminate|]. destruct (seq_shape _ _ R) as (_ & (c & t & X & Y) & _). congruence.
           ++ cbn [app] in Q. injection Q as ->. exists (v6st ([0; 0] ++ vr) (Some 1%nat) [] None). split; [apply G; eauto|auto].
      * (* an item follows "::" *)
        assert (HX : exists c t, x :: s = c :: t /\ c <> 58) by (exists x, s; split; [reflexivity|lia]).
        assert (P : snd (ipv6_loop E (x :: s) (v6st [0] (Some 1%nat) [] None)) = snd (ipv6_loop E (x :: s) (v6st [0] (Some 1%nat) [] (Some 58)))).
        { destruct (chunk_split (x :: s)) as [Hc|(p & t & Q & Hc)].
          - rewrite !L_piece_eof by (auto; try discriminate; cbn; lia). reflexivity.
          - rewrite Q. assert (p <> []) by (intros ->; cbn [app] in Q; injection Q as -> _; discriminate X).
            rewrite !L_piece_colon by (auto; cbn; lia). reflexivity. }
        rewrite P. pose proof (after_compression [] (x :: s) a) as AC. cbn [length app] in AC. rewrite AC by lia. clear AC P. split.
        -- intros (_ & vr & T & B & ->). apply (cv6_short [] (x :: s) [] vr); [left; auto|exact T|cbn; lia|exact B].
        -- intros H. split; [lia|]. remember (58 :: 58 :: x :: s) as s' eqn:Q. destruct H as [s' a H _|l r vl vr L R _ B|r vr R B].
           ++ destruct (seq_shape _ _ H) as (_ & (c & t & X' & Y) & _). congruence.
           ++ destruct L as [(-> & ->)|L]; [|destruct (seq_shape _ _ L) as (_ & (c & t & X' & Y) & _); subst l; cbn [app] in Q; congruence].
              cbn [app] in Q. injection Q as ->. exists vr. auto.
           ++ cbn [app] in Q. injection Q as <- _. discriminate X.
    + replace (starts_with [58] (c :: s)) with false by (cbn [starts_with]; now replace (58 =? c) with false by lia).
      rewrite M. set (s0 := c :: s). assert (HC : exists c t, s0 = c :: t /\ c <> 58) by (exists c, s; split; [reflexivity|lia]).
      assert (LN : forall st, snd (ipv6_loop E s0 (v6st [] None [] None)) = Ok st <->
         (exists vs, v6_seq s0 vs /\ (length vs <= 8)%nat /\ st = v6st vs None [] None) \/
         (exists x vs r, s0 = x ++ 58 :: 58 :: r /\ v6_seq x vs /\ (length vs < 8)%nat /\
            snd (ipv6_loop E r (v6st (vs ++ [0]) (Some (S (length vs))) [] (Some 58))) = Ok st)).
      { intros st. rewrite (loop_none (length s0) s0 [] None st) by (try lia; right; auto). cbn [length app plus]. split.
        - intros [H|[(r & ? & _)|H]]; [left; exact H|discriminate|right; exact H].
        - intros [H|H]; [left; exact H|right; right; exact H]. }
      split.
      * intros (st & H & F). apply LN in H as [(vs & T & B & ->)|(x & vs & r & Q & T & B & H)].
        -- pose proof (finish_std vs None None B ltac:(discriminate)) as G. cbv iota in G. rewrite G in F. destruct (length vs =? 8)%nat eqn:L8; [|discriminate].
           replace (8 - length vs)%nat with O in F by lia. cbn [repeat] in F. rewrite app_nil_r in F. injection F as <-. apply cv6_full; [exact T|lia].
        -- destruct (proj1 (after_compression vs r a B)) as (L6 & vr & R & BB & ->); [eauto|]. rewrite Q. apply (cv6_short x r vs vr); auto. now right.
      * intros H. clear M. remember s0 as s' eqn:Q. destruct H as [s' a H L8|l r vl vr L R L6 B|r vr R B].
        -- exists (v6st a None [] None). split; [apply LN; left; exists a; repeat split; auto; lia|].
           pose proof (finish_std a None None ltac:(lia) ltac:(discriminate)) as G. cbv iota in G. rewrite G, L8. cbn [Nat.eqb Nat.sub repeat]. now rewrite app_nil_r.
        -- destruct L as [(-> & _)|L]; [destruct HC as (? & ? & ? & ?); cbn [app] in *; congruence|].
           destruct (proj2 (after_compression vl r (vl ++ repeat 0 (8 - length vl - length vr) ++ vr) ltac:(lia))) as (st & H & F); [eauto 10|].
           exists st. split; [|exact F]. apply LN. right. exists l, vl, r. repeat split; auto. lia.
        -- destruct HC as (? & ? & ? & ?). cbn [app] in *. congruence.
Qed.
End Code.

(* ---------- the standard's loop ---------- *)
Lemma cut_unique p s r t : no_colon p -> no_colon s -> (r = [] \/ exists t', r = 58 :: t') -> p ++ r = s ++ 58 :: t -> p = s /\ r = 58 :: t.
Proof.
  unfold no_colon. intros Hp B Hr Q. revert p Hp Q. induction s as [|c s IH]; intros p Hp Q.
  - destruct p as [|d p]; [auto|]. exfalso. cbn [app] in Q. injection Q as -> _. discriminate Hp.
  - cbn [mem existsb] in B. apply orb_false_iff in B as [B1 B2]. destruct p as [|d p].
    + destruct Hr as [->|(t0 & ->)]; [discriminate|]. cbn [app] in Q. injection Q as <- _. discriminate B1.
    + cbn [app] in Q. injection Q as -> Q. cbn [mem existsb] in Hp. apply orb_false_iff in Hp as [_ Hp].
      destruct (IH B2 p Hp Q) as [-> ->]. auto.
Qed.
Lemma hexes_seq s vs : v6_hexes s vs -> v6_seq s vs.
Proof. induction 1 as [s v H|s v t ws H T IH]; [now apply seq_one, item_hex|]. apply (seq_more s [v] t ws); [now apply item_hex|exact IH]. Qed.
Lemma std_seq_seq s vs : v6_std_seq s vs -> v6_seq s vs.
Proof. induction 1 as [s vs H|s v t ws H T IH]; [now apply seq_one|]. apply (seq_more s [v] t ws); [now apply item_hex|exact IH]. Qed.
Lemma hexes_std s vs : v6_hexes s vs -> v6_std_seq s vs.
Proof. induction 1 as [s v H|s v t ws H T IH]; [now apply std_one, item_hex|]. now apply std_more. Qed.
Lemma item_nocolon s vs : v6_item s vs -> no_colon s.
Proof. intros H. apply (item_shape s vs H). Qed.
Lemma hex_nocolon s v : hex_text s v -> no_colon s.
Proof. intros H. apply (item_nocolon s [v]). now apply item_hex. Qed.
Lemma nocolon_app p t : no_colon (p ++ 58 :: t) -> False.
Proof. unfold no_colon. rewrite mem_app. cbn. rewrite orb_true_r. discriminate. Qed.
Lemma std_cut p r vs : no_colon p -> (r = [] \/ exists t, r = 58 :: t) -> v6_std_seq (p ++ r) vs ->
  (r = [] /\ v6_item p vs) \/ exists t v us, r = 58 :: t /\ hex_text p v /\ v6_std_seq t us /\ vs = v :: us.
Proof.
  intros Hp Hr H. remember (p ++ r) as s eqn:Q. destruct H as [s vs I|s v t us I T].
  - destruct Hr as [->|(t & ->)]; [rewrite app_nil_r in Q; subst; auto|]. exfalso. subst s. apply item_nocolon in I. now apply nocolon_app in I.
  - right. destruct (cut_unique p s r t Hp (hex_nocolon _ _ I) Hr (eq_sym Q)) as [-> ->]. eauto 8.
Qed.
Lemma hexes_cut p r vs : no_colon p -> (r = [] \/ exists t, r = 58 :: t) -> v6_hexes (p ++ r) vs ->
  exists v, hex_text p v /\ ((r = [] /\ vs = [v]) \/ exists t us, r = 58 :: t /\ v6_hexes t us /\ vs = v :: us).
Proof.
  intros Hp Hr H. remember (p ++ r) as s eqn:Q. destruct H as [s v I|s v t us I T].
  - destruct Hr as [->|(t & ->)]; [rewrite app_nil_r in Q; subst; eauto|]. exfalso. subst s. apply hex_nocolon in I. now apply nocolon_app in I.
  - destruct (cut_unique p s r t Hp (hex_nocolon _ _ I) Hr (eq_sym Q)) as [-> ->]. eauto 10.
Qed.

Lemma S_last f p l comp i c a : p <> [] -> no_colon p -> (length l < 8)%nat -> (1 <= f)%nat ->
  std_v6_main (S f) p (length l) comp (A8 l) = Some (i, c, a) <->
  exists vs, v6_item p vs /\ (length l + length vs <= 8)%nat /\ i = length (l ++ vs) /\ c = comp /\ a = A8 (l ++ vs).
Proof.
  intros Hp Hc L F. assert (HE : limit_ok ascii_env) by exact ascii_env_limit. destruct (hex_chunk p) as [v|] eqn:V.
  - pose proof (S_piece_hex f p [] l comp v Hp Hc L (or_introl eq_refl) V) as H. rewrite app_nil_r in H. rewrite H.
    destruct f as [|f]; [lia|]. cbn [std_v6_main].
    assert (CK : chunk ascii_env (length l) p = Ok [v]) by (unfold chunk; now rewrite (hex_chunk_nodot _ _ V), V).
    split.
    + intros Q. injection Q as <- <- <-. exists [v]. apply chunk_iff in CK as [C1 C2]; auto. repeat split; auto. rewrite app_length. cbn. lia.
    + intros (vs & I & B & -> & -> & ->). pose proof (chunk_ok ascii_env (length l) p vs HE Hp L I B) as Q. rewrite CK in Q. injection Q as <-.
      rewrite app_length. cbn [length]. do 3 f_equal. lia.
  - pose proof (S_piece_bad ascii_env f p [] l comp HE Hp Hc L (or_introl eq_refl) V) as H. rewrite app_nil_r in H.
    destruct (std_v6_main (S f) p (length l) comp (A8 l)) as [[[i' c'] a']|].
    + destruct H as (_ & -> & vs & CK & -> & ->). split.
      * intros Q. injection Q as <- <- <-. exists vs. apply chunk_iff in CK as [C1 C2]; auto.
      * intros (ws & I & B & -> & -> & ->). pose proof (chunk_ok ascii_env (length l) p ws HE Hp L I B) as Q. rewrite CK in Q. injection Q as ->. reflexivity.
    + destruct (H eq_refl) as (e & CK). split; [discriminate|]. intros (ws & I & B & _).
      pose proof (chunk_ok ascii_env (length l) p ws HE Hp L I B) as Q. rewrite CK in Q. discriminate.
Qed.
Lemma S_more f p t l comp i c a : p <> [] -> no_colon p -> (length l < 8)%nat ->
  std_v6_main (S f) (p ++ 58 :: t) (length l) comp (A8 l) = Some (i, c, a) <->
  exists v, hex_text p v /\ t <> [] /\ std_v6_main f t (length (l ++ [v])) comp (A8 (l ++ [v])) = Some (i, c, a).
Proof.
  intros Hp Hc L. assert (HE : limit_ok ascii_env) by exact ascii_env_limit. destruct (hex_chunk p) as [v|] eqn:V.
  - assert (HR : 58 :: t = [] \/ exists t', 58 :: t = 58 :: t') by eauto. rewrite (S_piece_hex f p (58 :: t) l comp v Hp Hc L HR V).
    assert (LL : length (l ++ [v]) = S (length l)) by (rewrite app_length; cbn; lia).
    split.
    + intros H. exists v. rewrite LL in *. split; [apply hex_text_chunk; auto|]. destruct t; [discriminate|]. split; [discriminate|exact H].
    + intros (w & W & T & H). apply hex_text_chunk in W as [_ W]. rewrite V in W. injection W as <-. rewrite LL in *. destruct t; [congruence|exact H].
  - assert (HR : 58 :: t = [] \/ exists t', 58 :: t = 58 :: t') by eauto. pose proof (S_piece_bad ascii_env f p (58 :: t) l comp HE Hp Hc L HR V) as H.
    destruct (std_v6_main (S f) (p ++ 58 :: t) (length l) comp (A8 l)) as [[[i' c'] a']|].
    + now destruct H as (? & _).
    + split; [discriminate|]. intros (w & W & _). apply hex_text_chunk in W as [_ W]. congruence.
Qed.

Lemma main_some n : forall rest f l k i c a, (length rest <= n)%nat -> (length rest < f)%nat -> (length l <= 8)%nat ->
  std_v6_main f rest (length l) (Some k) (A8 l) = Some (i, c, a) <->
  exists vs, or_nothing v6_std_seq rest vs /\ (length l + length vs <= 8)%nat /\ i = length (l ++ vs) /\ c = Some k /\ a = A8 (l ++ vs).
Proof.
  induction n as [|n IH]; intros rest f l k i c a Hn Hf Hl.
  - destruct rest; [|cbn in Hn; lia]. destruct f as [|f]; [cbn in Hf; lia|]. cbn [std_v6_main]. split.
    + intros Q. injection Q as <- <- <-. exists []. rewrite app_nil_r. split; [left; auto|]. split; [cbn; lia|auto].
    + intros (vs & [(_ & ->)|H] & B & -> & -> & ->); [now rewrite app_nil_r|]. apply std_seq_seq, seq_shape in H as (? & _). congruence.
  - destruct rest as [|c0 rest0] eqn:R0; [apply (IH [] f l k); auto; cbn; lia|]. rewrite <- R0 in *. assert (Rn : rest <> []) by (subst; discriminate).
    destruct f as [|f]; [lia|].
    destruct (Nat.lt_ge_cases (length l) 8) as [L|L].
    2:{ split.
        - intros Q. exfalso. rewrite R0 in Q. cbn [std_v6_main] in Q. replace (length l =? 8)%nat with true in Q by lia. discriminate.
        - intros (vs & [(? & _)|H] & B & _); try congruence. apply std_seq_seq, seq_shape in H as (_ & _ & ?). lia. }
    destruct (chunk_split rest) as [Hc|(p & t & Q & Hc)].
    + rewrite S_last by (auto; subst; cbn [length] in *; lia). split.
      * intros (vs & I & B & -> & -> & ->). exists vs. split; [right; now apply std_one|]. auto.
      * intros (vs & [(? & _)|H] & B & -> & -> & ->); [congruence|]. replace rest with (rest ++ []) in H by apply app_nil_r.
        apply std_cut in H as [(_ & I)|(t & v & us & ? & _)]; auto; [|discriminate]. exists vs. auto.
    + destruct p as [|d p].
      * cbn [app] in Q. rewrite Q. cbn [std_v6_main]. replace (length l =? 8)%nat with false by lia. change (58 =? 58) with true. cbv iota.
        split; [discriminate|]. intros (vs & [(? & _)|H] & _); [discriminate|]. apply std_seq_seq, seq_shape in H as (_ & (c1 & t' & X & Y) & _). congruence.
      * set (pp := d :: p) in *. assert (Hp : pp <> []) by discriminate.
        assert (Lt : (length t <= n)%nat) by (rewrite Q, app_length in Hn; cbn [length] in Hn; lia).
        assert (Lf : (length t < f)%nat) by (rewrite Q, app_length in Hf; unfold pp in Hf; cbn [length] in Hf; lia).
        assert (LL : forall v, length (l ++ [v]) = S (length l)) by (intros v; rewrite app_length; cbn; lia).
        rewrite Q. rewrite S_more by auto. split.
        -- intros (v & W & T & H). apply IH in H; [|auto|auto|rewrite LL; lia]. destruct H as (vs & [(? & _)|H] & B & -> & -> & ->); [congruence|].
           exists (v :: vs). rewrite LL in B. rewrite <- !app_assoc. split; [right; now apply (std_more pp v t vs)|]. split; [cbn [length]; lia|]. auto.
        -- intros (vs & [(? & _)|H] & B & -> & -> & ->); [discriminate|].
           apply std_cut in H as [(? & _)|(t' & v & us & X & W & T & ->)]; eauto; [discriminate|]. injection X as <-. exists v. split; [exact W|].
           pose proof (std_seq_seq _ _ T) as TT. destruct (seq_shape _ _ TT) as (Tn & _). split; [exact Tn|].
           apply IH; [auto|auto|rewrite LL; lia|]. exists us. rewrite LL. rewrite <- !app_assoc. split; [now right|]. cbn [length] in B. split; [lia|]. auto.
Qed.
Lemma A8_zero l : (length l < 8)%nat -> A8 (l ++ [0]) = A8 l.
Proof.
  intros L. rewrite app_length. cbn [length]. replace (8 - length l)%nat with (S (8 - (length l + 1))) by lia. rewrite <- app_assoc. reflexivity.
Qed.
Lemma main_none n : forall rest f l i c a, (length rest <= n)%nat -> (length rest < f)%nat -> (length l <= 8)%nat ->
  std_v6_main f rest (length l) None (A8 l) = Some (i, c, a) <->
  (exists vs, or_nothing v6_std_seq rest vs /\ (length l + length vs <= 8)%nat /\ i = length (l ++ vs) /\ c = None /\ a = A8 (l ++ vs)) \/
  (exists r vr, rest = 58 :: r /\ or_nothing v6_std_seq r vr /\ (length l + length vr <= 7)%nat /\
     i = length ((l ++ [0]) ++ vr) /\ c = Some (S (length l)) /\ a = A8 ((l ++ [0]) ++ vr)) \/
  (exists x vs r vr, rest = x ++ 58 :: 58 :: r /\ v6_hexes x vs /\ or_nothing v6_std_seq r vr /\ (length (l ++ vs) + length vr <= 7)%nat /\
     i = length (((l ++ vs) ++ [0]) ++ vr) /\ c = Some (S (length (l ++ vs))) /\ a = A8 (((l ++ vs) ++ [0]) ++ vr)).
Proof.
  induction n as [|n IH]; intros rest f l i c a Hn Hf Hl.
  - destruct rest; [|cbn in Hn; lia]. destruct f as [|f]; [cbn in Hf; lia|]. cbn [std_v6_main]. split.
    + intros Q. injection Q as <- <- <-. left. exists []. rewrite app_nil_r. split; [left; auto|]. split; [cbn; lia|auto].
    + intros [(vs & [(_ & ->)|H] & B & -> & -> & ->)|[(r & vr & ? & _)|(x & vs & r & vr & ? & _)]];
        [now rewrite app_nil_r| |discriminate|destruct x; discriminate]. apply std_seq_seq, seq_shape in H as (? & _). congruence.
  - destruct rest as [|c0 rest0] eqn:R0; [apply (IH [] f l); auto; cbn; lia|]. rewrite <- R0 in *. assert (Rn : rest <> []) by (subst; discriminate).
    destruct f as [|f]; [lia|].
    destruct (Nat.lt_ge_cases (length l) 8) as [L|L].
    2:{ split.
        - intros Q. exfalso. rewrite R0 in Q. cbn [std_v6_main] in Q. replace (length l =? 8)%nat with true in Q by lia. discriminate.
        - intros [(vs & [(? & _)|H] & B & _)|[(r & vr & _ & _ & B & _)|(x & vs & r & vr & _ & _ & _ & B & _)]]; try congruence; try (rewrite app_length in B; lia); try lia.
          apply std_seq_seq, seq_shape in H as (_ & _ & ?). lia. }
    assert (LL : forall v, length (l ++ [v]) = S (length l)) by (intros v; rewrite app_length; cbn; lia).
    destruct (chunk_split rest) as [Hc|(p & t & Q & Hc)].
    + rewrite S_last by (auto; subst; cbn [length] in *; lia). split.
      * intros (vs & I & B & -> & -> & ->). left. exists vs. split; [right; now apply std_one|]. auto.
      * intros [(vs & [(? & _)|H] & B & -> & -> & ->)|[(r & vr & X & _)|(x & vs & r & vr & X & _)]]; [congruence| | |].
        -- replace rest with (rest ++ []) in H by apply app_nil_r. apply std_cut in H as [(_ & I)|(t & v & us & ? & _)]; auto; [|discriminate]. exists vs. auto.
        -- rewrite X in Hc. now apply (nocolon_app []) in Hc.
        -- rewrite X in Hc. now apply nocolon_app in Hc.
    + destruct p as [|d p].
      * cbn [app] in Q. rewrite Q. cbn [std_v6_main]. replace (length l =? 8)%nat with false by lia. change (58 =? 58) with true. cbv iota.
        rewrite <- (LL 0), <- (A8_zero l) by auto. rewrite (main_some (length t)) by first [lia|rewrite Q in Hf; cbn [length] in Hf; lia|rewrite LL; lia].
        rewrite LL. split.
        -- intros (vs & T & B & -> & -> & ->). right. left. exists t, vs. repeat split; auto. lia.
        -- intros [(vs & [(? & _)|H] & _)|[(r & vr & X & T & B & -> & -> & ->)|(x & vs & r & vr & X & H & _)]]; [discriminate| | |].
           ++ apply std_seq_seq, seq_shape in H as (_ & (c1 & t' & X & Y) & _). congruence.
           ++ injection X as <-. exists vr. repeat split; auto. lia.
           ++ apply hexes_seq, seq_shape in H as (_ & (c1 & t' & -> & Y) & _). cbn [app] in X. congruence.
      * set (pp := d :: p) in *. assert (Hp : pp <> []) by discriminate.
        assert (Lt : (length t <= n)%nat) by (rewrite Q, app_length in Hn; cbn [length] in Hn; lia).
        assert (Lf : (length t < f)%nat) by (rewrite Q, app_length in Hf; unfold pp in Hf; cbn [length] in Hf; lia).
        rewrite Q. rewrite S_more by auto. split.
        -- intros (v & W & T & H). apply IH in H; [|auto|auto|rewrite LL; lia].
           destruct H as [(vs & [(? & _)|H] & B & -> & -> & ->)|[(r & vr & -> & R & B & -> & -> & ->)|(x & vs & r & vr & -> & H & R & B & -> & -> & ->)]]; [congruence| | |].
           ++ left. exists (v :: vs). rewrite LL in B. rewrite <- !app_assoc. split; [right; now apply (std_more pp v t vs)|]. split; [cbn [length]; lia|]. auto.
           ++ right. right. exists pp, [v], r, vr. repeat split; auto. now apply hexes_one.
           ++ right. right. exists (pp ++ [58] ++ x), (v :: vs), r, vr. split; [now rewrite <- app_assoc|]. split; [now apply hexes_more|].
              replace (l ++ v :: vs) with ((l ++ [v]) ++ vs) by now rewrite <- app_assoc. auto.
        -- intros [(vs & [(? & _)|H] & B & -> & -> & ->)|[(r & vr & X & _)|(x & vs & r & vr & X & H & R & B & -> & -> & ->)]]; [discriminate| | |].
           ++ apply std_cut in H as [(? & _)|(t' & v & us & X & W & T & ->)]; eauto; [discriminate|]. injection X as <-. exists v. split; [exact W|].
              pose proof (std_seq_seq _ _ T) as TT. destruct (seq_shape _ _ TT) as (Tn & _). split; [exact Tn|].
              apply IH; [auto|auto|rewrite LL; lia|]. left. exists us. rewrite LL. rewrite <- !app_assoc. split; [now right|]. cbn [length] in B. split; [lia|]. auto.
           ++ unfold pp in X. cbn [app] in X. injection X as -> _. discriminate Hc.
           ++ destruct (chunk_split x) as [Hx|(q & x' & -> & Hq)].
              ** destruct (cut_unique pp x (58 :: t) (58 :: r) Hc Hx) as [<- Y]; eauto. injection Y as ->.
                 replace pp with (pp ++ []) in H by apply app_nil_r. apply hexes_cut in H as (v & W & [(_ & ->)|(t' & us & ? & _)]); auto; [|discriminate].
                 exists v. split; [exact W|]. split; [discriminate|]. apply IH; [auto|auto|rewrite LL; lia|]. right. left. exists r, vr. auto 10.
              ** apply hexes_cut in H as (v & W & [(? & _)|(t' & us & Y & T & ->)]); eauto; [discriminate|]. injection Y as <-.
                 rewrite <- app_assoc in X. cbn [app] in X.
                 destruct (cut_unique pp q (58 :: t) (x' ++ 58 :: 58 :: r) Hc Hq) as [<- Y]; eauto. injection Y as ->.
                 exists v. split; [exact W|]. split; [destruct x'; discriminate|]. apply IH; [auto|auto|rewrite LL; lia|]. right. right. exists x', us, r, vr.
                 replace ((l ++ [v]) ++ us) with (l ++ v :: us) by now rewrite <- app_assoc. auto 10.
Qed.

Lemma swap_after pre post : (length pre + length post <= 7)%nat ->
  std_v6_swap (length ((pre ++ [0]) ++ post) - S (length pre)) 7 (S (length pre)) (A8 ((pre ++ [0]) ++ post)) = pre ++ repeat 0 (8 - length pre - length post) ++ post.
Proof. intros B. rewrite <- swap_value by auto. f_equal. rewrite !app_length. cbn [length]. lia. Qed.
Lemma std_v6_iff s a : std_ipv6_parse s = Some a <-> std_v6_text s a.
Proof.
  unfold std_ipv6_parse.
  assert (FIN : forall r : option (nat * option nat * list N), match r with
    | None => None
    | Some (idx, compress, a) => match compress with Some k => Some (std_v6_swap (idx - k) 7 k a) | None => if (idx =? 8)%nat then Some a else None end
    end = Some a <-> exists i c a0, r = Some (i, c, a0) /\ match c with Some k => Some (std_v6_swap (i - k) 7 k a0) | None => if (i =? 8)%nat then Some a0 else None end = Some a).
  { intros [[[i c] a0]|]; [|split; [discriminate|intros (? & ? & ? & ? & _); discriminate]]. split; [eauto 8|]. intros (i' & c' & a' & Q & H). injection Q as <- <- <-. exact H. }
  destruct s as [|x s].
  { cbv zeta. split; [discriminate|]. intros H. remember [] as s eqn:Q. destruct H as [s a H _|l r vl vr _ _ _].
    - apply std_seq_seq, seq_shape in H as (? & _). congruence.
    - destruct l; discriminate. }
  destruct (x =? 58) eqn:X.
  - assert (x = 58) by lia. subst x. cbv zeta. destruct s as [|d s].
    { split; [discriminate|]. intros H. remember [58] as s eqn:Q. destruct H as [s a H _|l r vl vr _ _ _].
      - apply std_seq_seq, seq_shape in H as (_ & (c & t & Y & Z) & _). congruence.
      - destruct l as [|? l]; [discriminate|destruct l; discriminate]. }
    destruct (d =? 58) eqn:D.
    2:{ split; [discriminate|]. intros H. exfalso. remember (58 :: d :: s) as s' eqn:Q. destruct H as [s' a H _|l r vl vr L _ _].
        - apply std_seq_seq, seq_shape in H as (_ & (c & t & Y & Z) & _). congruence.
        - destruct L as [(-> & _)|L]; [cbn [app] in Q; injection Q as <- _; discriminate D|].
          apply hexes_seq, seq_shape in L as (_ & (c & t & -> & Z) & _). cbn [app] in Q. congruence. }
    assert (d = 58) by lia. subst d.
    assert (M : forall i c a, std_v6_main (S (length s)) s 1 (Some 1%nat) (repeat 0 8) = Some (i, c, a) <->
      exists vs, or_nothing v6_std_seq s vs /\ (length vs <= 7)%nat /\ i = length (([] ++ [0]) ++ vs) /\ c = Some 1%nat /\ a = A8 (([] ++ [0]) ++ vs)).
    { intros i c a0. pose proof (main_some (length s) s (S (length s)) [0] 1 i c a0 (le_n _) (le_n _) ltac:(cbn; lia)) as M.
      change (A8 [0]) with (repeat 0 8) in M. change (length [0]) with 1%nat in M. rewrite M. split; intros (vs & T & B & R); exists vs; (split; [exact T|]); (split; [lia|exact R]). }
    rewrite FIN. split.
    + intros (i & c & a0 & H & F). apply M in H as (vs & T & B & -> & -> & ->). pose proof (eq_trans (eq_sym (f_equal Some (swap_after [] vs B))) F) as F'. injection F' as <-.
      apply (sv6_short [] s [] vs); [left; auto|exact T|exact B].
    + intros H. remember (58 :: 58 :: s) as s' eqn:Q. destruct H as [s' a H _|l r vl vr L R BB].
      * apply std_seq_seq, seq_shape in H as (_ & (c & t & Y & Z) & _). congruence.
      * destruct L as [(-> & ->)|L]; [|apply hexes_seq, seq_shape in L as (_ & (c & t & -> & Z) & _); cbn [app] in Q; congruence].
        cbn [app] in Q. injection Q as ->. do 3 eexists. split; [apply M; exists vr; repeat split; auto|]. exact (f_equal Some (swap_after [] vr BB)).
  - cbv zeta. rewrite FIN. clear FIN. set (s0 := x :: s). assert (HC : forall c t, s0 = c :: t -> c <> 58) by (intros c t Q; injection Q as <- _; lia).
    assert (M : forall i c a, std_v6_main (S (length s0)) s0 0 None (repeat 0 8) = Some (i, c, a) <->
      (exists vs, v6_std_seq s0 vs /\ (length vs <= 8)%nat /\ i = length vs /\ c = None /\ a = A8 vs) \/
      (exists x vs r vr, s0 = x ++ 58 :: 58 :: r /\ v6_hexes x vs /\ or_nothing v6_std_seq r vr /\ (length vs + length vr <= 7)%nat /\
         i = length ((vs ++ [0]) ++ vr) /\ c = Some (S (length vs)) /\ a = A8 ((vs ++ [0]) ++ vr))).
    { intros i c a0. pose proof (main_none (length s0) s0 (S (length s0)) [] i c a0 (le_n _) (le_n _) ltac:(cbn; lia)) as M.
      change (A8 []) with (repeat 0 8) in M. change (length []) with 0%nat in M. rewrite M. clear M. split.
      - intros [(vs & [(Z & _)|T] & B & H)|[(r & vr & Q & _)|H]]; [discriminate Z|left; exists vs; auto| |right; exact H]. exfalso. now apply (HC 58 r Q).
      - intros [(vs & T & B & H)|H]; [left; exists vs; split; [now right|]; auto|right; right; exact H]. }
    split.
    + intros (i & c & a0 & H & F). apply M in H as [(vs & T & B & -> & -> & ->)|(y & vs & r & vr & Q & H & R & B & -> & -> & ->)].
      * destruct (length vs =? 8)%nat eqn:L8; [|discriminate]. replace (8 - length vs)%nat with O in F by lia. cbn [repeat] in F. rewrite app_nil_r in F. injection F as <-.
        apply sv6_full; [exact T|lia].
      * rewrite swap_after in F by exact B. injection F as <-. rewrite Q. apply (sv6_short y r vs vr); [now right|exact R|exact B].
    + intros H. remember s0 as s' eqn:Q. destruct H as [s' a H L8|l r vl vr L R B].
      * do 3 eexists. split; [apply M; left; exists a; repeat split; auto; lia|]. cbv beta iota. rewrite L8. cbn [Nat.eqb Nat.sub repeat]. now rewrite app_nil_r.
      * destruct L as [(-> & _)|L]; [exfalso; now apply (HC 58 (58 :: r))|]. do 3 eexists. split; [apply M; right; exists l, vl, r, vr; repeat split; auto|].
        cbv beta iota. rewrite swap_after by exact B. reflexivity.
Qed.

(* ---------- where the two grammars differ ---------- *)
Lemma dot_nodot s : ~ dot_before_colon s <-> no_dot_colon s.
Proof.
  unfold dot_before_colon, no_dot_colon. split.
  - intros H p t ->. apply mem_not_In. intros I. apply in_split in I as (h & q & ->). apply H. exists h, q, t. rewrite <- app_assoc. reflexivity.
  - intros H (p & q & r & ->). specialize (H (p ++ 46 :: q) r). rewrite <- app_assoc in H. specialize (H eq_refl). rewrite mem_app in H. cbn in H. now rewrite orb_true_r in H.
Qed.
Lemma hex_nodot s v : hex_text s v -> mem 46 s = false.
Proof. intros H. apply hex_text_chunk in H as [_ H]. now apply hex_chunk_nodot in H. Qed.
Lemma item_nodot s vs : v6_item s vs -> mem 46 s = false -> exists v, vs = [v] /\ hex_text s v.
Proof.
  intros [p v H|sa sb sc sd a b c d _ _ _ _] D; [eauto|]. exfalso. rewrite mem_app in D. apply orb_false_iff in D as [_ D]. discriminate D.
Qed.
Lemma seq_hexes s vs : v6_seq s vs -> mem 46 s = false -> v6_hexes s vs.
Proof.
  induction 1 as [s vs I|s vs t ws I T IH]; intros D.
  - apply item_nodot in I as (v & -> & H); [now apply hexes_one|exact D].
  - rewrite mem_app in D. apply orb_false_iff in D as [D1 D2]. apply item_nodot in I as (v & -> & H); [|exact D1]. apply hexes_more; [exact H|]. now apply IH.
Qed.
Lemma seq_std s vs : v6_seq s vs -> no_dot_colon s -> v6_std_seq s vs.
Proof.
  induction 1 as [s vs I|s vs t ws I T IH]; intros D; [now apply std_one|].
  apply item_nodot in I as (v & -> & H); [|now apply (D s t)]. apply (std_more s v t ws); [exact H|]. apply IH. now apply no_dot_colon_tail in D.
Qed.
Lemma code_std s a : code_v6_text s a -> starts_with [58; 58; 58] s = false -> ~ dot_before_colon s -> std_v6_text s a.
Proof.
  rewrite dot_nodot. intros [s' a' H L|l r vl vr L R L6 B|r vr R B] N3 D.
  - apply sv6_full; [now apply seq_std|exact L].
  - apply sv6_short; [| |exact B].
    + destruct L as [L|L]; [now left|right]. apply seq_hexes; [exact L|]. now apply (D l (58 :: r)).
    + destruct R as [R|R]; [now left|right]. apply seq_std; [exact R|]. cbn [app] in D.
      change (l ++ 58 :: 58 :: r) with (l ++ [58] ++ 58 :: r) in D. apply no_dot_colon_tail in D. change (58 :: r) with ([] ++ 58 :: r) in D. now apply no_dot_colon_tail in D.
  - discriminate N3.
Qed.
Lemma hexes_nodot s vs : v6_hexes s vs -> mem 46 s = false.
Proof. induction 1 as [s v H|s v t ws H T IH]; [now apply hex_nodot in H|]. rewrite !mem_app. now rewrite (hex_nodot _ _ H), IH. Qed.
(** no '.' before a ':' in p ++ ':' ++ t when there is none in p and t is such *)
Lemma no_dot_cons p t : mem 46 p = false -> no_dot_colon t -> no_dot_colon (p ++ 58 :: t).
Proof.
  unfold no_dot_colon. intros P T q r Q. revert p P Q. induction q as [|c q IH]; intros p P Q; [reflexivity|].
  destruct p as [|d p]; cbn [app] in Q.
  - injection Q as <- Q. cbn [mem existsb]. change (46 =? 58) with false. exact (T q r Q).
  - injection Q as -> Q. cbn [mem existsb] in *. apply orb_false_iff in P as [-> P]. exact (IH p P Q).
Qed.
Lemma no_dot_plain s : no_colon s -> no_dot_colon s.
Proof. intros H p t ->. now apply nocolon_app in H. Qed.
Lemma std_seq_nodot s vs : v6_std_seq s vs -> no_dot_colon s.
Proof.
  induction 1 as [s vs I|s v t ws H T IH]; [apply no_dot_plain; now apply item_nocolon in I|]. apply no_dot_cons; [now apply hex_nodot in H|exact IH].
Qed.
Lemma std_shape s a : std_v6_text s a -> starts_with [58; 58; 58] s = false /\ ~ dot_before_colon s.
Proof.
  rewrite dot_nodot.
  assert (R0 : forall r vr, or_nothing v6_std_seq r vr -> no_dot_colon r) by (intros r vr [(-> & _)|R]; [now apply no_dot_plain|now apply std_seq_nodot in R]).
  assert (H0 : forall r vr, or_nothing v6_std_seq r vr -> forall t, r <> 58 :: t).
  { intros r vr [(-> & _)|R] t; [discriminate|]. intros ->. apply std_seq_seq, seq_shape in R as (_ & (c & t' & X & Y) & _). congruence. }
  intros [s' a' H L|l r vl vr L R B].
  - split; [|now apply std_seq_nodot in H]. apply std_seq_seq, seq_shape in H as (_ & (c & t & -> & Y) & _). cbn [starts_with]. now replace (58 =? c) with false by lia.
  - split.
    + destruct L as [(-> & _)|L].
      * destruct r as [|c r]; [reflexivity|]. cbn [app starts_with]. destruct (58 =? c) eqn:C; [|reflexivity]. exfalso. apply (H0 _ _ R r). f_equal. lia.
      * apply hexes_seq, seq_shape in L as (_ & (c & t & -> & Y) & _). cbn [app starts_with]. now replace (58 =? c) with false by lia.
    + change (l ++ [58; 58] ++ r) with (l ++ 58 :: [] ++ 58 :: r). apply no_dot_cons.
      * destruct L as [(-> & _)|L]; [reflexivity|now apply hexes_nodot in L].
      * apply no_dot_cons; [reflexivity|]. now apply (R0 r vr).
Qed.
Lemma loop_hexes E x vs : limit_ok E -> v6_hexes x vs -> forall l r prev, (length l + length vs < 8)%nat ->
  snd (ipv6_loop E (x ++ 58 :: 58 :: r) (v6st l None [] prev)) = snd (ipv6_loop E r (v6st ((l ++ vs) ++ [0]) (Some (S (length (l ++ vs)))) [] (Some 58))).
Proof.
  intros HE. induction 1 as [s v H|s v t ws H T IH]; intros l r prev B.
  - pose proof (item_hex _ _ H) as I. destruct (item_shape _ _ I) as (Sn & Sc & _). rewrite L_piece_colon by (auto; lia).
    cbn [length] in B. rewrite (chunk_ok E (length l) s [v] HE Sn ltac:(lia) I ltac:(cbn; lia)). rewrite L_colon_colon; [reflexivity|]. rewrite app_length. cbn. lia.
  - pose proof (item_hex _ _ H) as I. destruct (item_shape _ _ I) as (Sn & Sc & _). rewrite <- app_assoc. cbn [app]. rewrite L_piece_colon by (auto; lia).
    cbn [length] in B. rewrite (chunk_ok E (length l) s [v] HE Sn ltac:(lia) I ltac:(cbn; lia)). rewrite IH by (rewrite app_length; cbn; lia).
    replace ((l ++ [v]) ++ ws) with (l ++ v :: ws) by now rewrite <- app_assoc. reflexivity.
Qed.
Lemma seven E l vl : limit_ok E -> v6_hexes l vl -> length vl = 7%nat -> exists e, snd (ipv6_parse E (l ++ [58; 58])) = Err e.
Proof.
  intros HE H L. rewrite ipv6_parse_eq. pose proof (hexes_seq _ _ H) as T. destruct (seq_shape _ _ T) as (_ & (c & t & -> & Y) & _).
  cbn [app starts_with]. replace (58 =? c) with false by lia. cbn [andb]. change (c :: t ++ [58; 58]) with ((c :: t) ++ 58 :: 58 :: []).
  rewrite (loop_hexes E _ _ HE H) by (cbn; lia). rewrite loop_full by (rewrite !app_length; cbn; lia). eauto.
Qed.
Lemma std_code E s a : limit_ok E -> std_v6_text s a ->
  snd (ipv6_parse E s) = Ok a \/ exists l vl e, s = l ++ [58; 58] /\ v6_hexes l vl /\ length vl = 7%nat /\ snd (ipv6_parse E s) = Err e.
Proof.
  intros HE [s' a' H L|l r vl vr L R B].
  - left. apply code_v6_iff; [exact HE|]. apply cv6_full; [now apply std_seq_seq|exact L].
  - destruct (Nat.eq_dec (length vl) 7) as [L7|L7].
    + right. destruct L as [(-> & ->)|L]; [discriminate L7|]. assert (vr = []) by (destruct vr; [reflexivity|cbn in B; lia]). subst vr.
      assert (r = []) by (destruct R as [(-> & _)|R]; [reflexivity|apply std_seq_seq, seq_shape in R as (_ & _ & ?); cbn in *; lia]). subst r.
      destruct (seven E l vl HE L L7) as (e & Q). exists l, vl, e. auto.
    + left. apply code_v6_iff; [exact HE|]. apply cv6_short; [| |lia|exact B].
      * destruct L as [L|L]; [now left|right; now apply hexes_seq].
      * destruct R as [R|R]; [now left|right; now apply std_seq_seq].
Qed.

(** the two parsers agree exactly outside [odd_v6] *)
Lemma ipv6_same E s : limit_ok E ->
  match std_ipv6_parse s with
  | Some a => snd (ipv6_parse E s) = Ok a
  | None => exists e, snd (ipv6_parse E s) = Err e
  end <-> ~ odd_v6 s.
Proof.
  intros HE. split.
  - intros H [(a & C & D)|(l & vl & -> & L & L7)].
    + apply (code_v6_iff E HE) in C. destruct (std_ipv6_parse s) as [b|] eqn:Q.
      * apply std_v6_iff, std_shape in Q as [Q1 Q2]. destruct D as [D|D]; [congruence|contradiction].
      * destruct H as (e & H). congruence.
    + destruct (seven E l vl HE L L7) as (e & F).
      pose proof (sv6_short l [] vl [] (or_intror L) (or_introl (conj eq_refl eq_refl)) ltac:(cbn; lia)) as T.
      apply std_v6_iff in T. cbn [app] in T. rewrite T in H. congruence.
  - intros N. destruct (std_ipv6_parse s) as [a|] eqn:Q.
    + apply std_v6_iff in Q. destruct (std_code E s a HE Q) as [H|(l & vl & e & -> & L & L7 & _)]; [exact H|]. exfalso. apply N. right. eauto.
    + destruct (snd (ipv6_parse E s)) as [a|e] eqn:C; [|eauto]. exfalso. apply (code_v6_iff E HE) in C.
      assert (S3 : starts_with [58; 58; 58] s = false) by (destruct (starts_with [58; 58; 58] s) eqn:S3; [exfalso; apply N; left; eauto|reflexivity]).
      assert (D : ~ dot_before_colon s) by (intros D; apply N; left; eauto).
      pose proof (code_std s a C S3 D) as T. apply std_v6_iff in T. congruence.
Qed.
Lemma code_v6_exact E s a : limit_ok E -> snd (ipv6_parse E s) = Ok a <-> code_v6_text s a.
Proof. intros HE. now apply code_v6_iff. Qed.
(** both accept: the same address *)
Lemma ipv6_agree E s a b : limit_ok E -> snd (ipv6_parse E s) = Ok a -> std_ipv6_parse s = Some b -> a = b.
Proof.
  intros HE A B. apply std_v6_iff in B. destruct (std_code E s b HE B) as [H|(l & vl & e & _ & _ & _ & H)]; congruence.
Qed.
