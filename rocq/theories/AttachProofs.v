(** All programs of World.v, those that connect URLSearchParams objects to records
    included: an object shows the query of its record as long as nobody else writes it. *)
From Coq Require Import Ascii String.
From Coq Require Import NArith ZArith Bool Arith Lia List.
From Verif Require Import PyStr PyInt Codec Env HostModel UrlRecord Parser SearchParams UrlApi ParamProofs FlatParser Lemmas CodecProofs QuoteProofs LoopProofs FlatProofs WfProofs RoundTrip LooseProofs SetterProofs ParserProofs UrlProps ApiProofs ObjProofs HeapParser HeapProofs World WorldProofs.
From Verif Require Import SpecText SpecApi SpecWorld.
Import ListNotations.
Open Scope N_scope.

Definition known (w : world) (r : nat) : Prop :=
  (exists i u, nth_error (w_urls w) i = Some u /\ u_rec u = r) \/ (exists k, nth_error (w_recs w) k = Some r) \/
  (exists p q, nth_error (w_params w) p = Some q /\ p_rec q = Some r).
Definition fine (E : env) (h : heap) (r : nat) : Prop := (r < length (objs h))%nat /\ loose (EE E) (read h r).
Record good (E : env) (w : world) : Prop := {
  g_own : own_ok (w_heap w);
  g_rec : forall r, known w r -> fine E (w_heap w) r;
  g_param : forall i u, nth_error (w_urls w) i = Some u -> (u_params u < length (w_params w))%nat;
  g_list : forall p q, nth_error (w_params w) p = Some q -> (p_list q < length (w_lists w))%nat;
  g_usv : Forall usv_pairs (w_lists w);
  g_inj : forall p p' q q', nth_error (w_params w) p = Some q -> nth_error (w_params w) p' = Some q' -> p_list q = p_list q' -> p = p' }.

Lemma good_empty E : good E empty_world.
Proof.
  assert (Z : forall A i (x : A), nth_error [] i <> Some x) by (intros A [|i] x; discriminate).
  constructor; cbn [empty_world w_heap w_urls w_params w_lists w_recs]; try (intros; exfalso; eapply Z; eassumption); [|intros r K|constructor].
  - split; [intros i l L|intros i j l L]; cbn [objs length] in L; lia.
  - exfalso. destruct K as [(i & u & K & _)|[(k & K)|(p & q & K & _)]]; cbn [empty_world w_urls w_recs w_params] in K; exact (Z _ _ _ K).
Qed.
Lemma good_heap E w h : good E w -> own_ok h -> (forall r, known w r -> fine E h r) -> good E (with_heap h w).
Proof. intros [A B C D F G] O K. constructor; auto. Qed.
Lemma good_iters E w its : good E w -> good E (mkworld (w_heap w) (w_lists w) (w_params w) (w_urls w) its (w_recs w)).
Proof. intros [A B C D F G]. constructor; auto. Qed.
Lemma good_add E w l : good E w -> usv_pairs l -> good E (add_params l w).
Proof.
  intros [A B C D F G] U. constructor; cbn [add_params w_heap w_lists w_params w_urls w_iters w_recs]; auto.
  - intros r K. apply B. destruct K as [K|[K|(p & q & K1 & K2)]]; [left; exact K|right; left; exact K|].
    cbn [add_params w_params] in K1. apply ne_snoc_inv in K1 as [[K1 _]|[_ ->]]; [right; right; eauto|discriminate K2].
  - intros i u Hu. rewrite app_length. cbn [length]. specialize (C i u Hu). lia.
  - intros p q Hq. rewrite app_length. cbn [length]. apply ne_snoc_inv in Hq as [[Hq _]|[_ ->]]; [specialize (D p q Hq); lia|cbn [p_list]; lia].
  - apply Forall_app. split; [exact F|]. constructor; [exact U|constructor].
  - intros p p' q q' H1 H2 K. apply ne_snoc_inv in H1 as [[H1 L1]|[-> ->]]; apply ne_snoc_inv in H2 as [[H2 L2]|[-> ->]]; cbn [p_list] in K; auto.
    + exact (G p p' q q' H1 H2 K).
    + specialize (D p q H1). lia.
    + specialize (D p' q' H2). lia.
Qed.
Lemma good_attach E w p r : good E w -> (p < length (w_params w))%nat -> fine E (w_heap w) r -> good E (attach p r w).
Proof.
  intros [A B C D F G] Lp R. constructor; cbn [attach w_heap w_lists w_params w_urls w_iters w_recs]; auto.
  - intros x K. destruct K as [K|[K|(y & q & K1 & K2)]]; [apply B; left; exact K|apply B; right; left; exact K|].
    cbn [attach w_params] in K1. apply ne_upd_inv in K1 as [[_ ->]|[_ K1]]; [|apply B; right; right; eauto|exact Lp].
    cbn [p_rec] in K2. injection K2 as <-. exact R.
  - intros i u Hu. rewrite upd_length. eauto.
  - intros y q Hq. rewrite app_length. cbn [length]. apply ne_upd_inv in Hq as [[_ ->]|[_ Hq]]; [cbn [p_list]; lia|specialize (D y q Hq); lia|exact Lp].
  - apply Forall_app. split; [exact F|]. constructor; [|constructor]. apply (attach_usv (EE E)). apply R.
  - intros y y' q q' H1 H2 K. apply ne_upd_inv in H1; [|exact Lp]. apply ne_upd_inv in H2; [|exact Lp].
    destruct H1 as [[-> ->]|[N1 H1]], H2 as [[-> ->]|[N2 H2]]; cbn [p_list] in K; auto.
    + specialize (D y' q' H2). lia.
    + specialize (D y q H1). lia.
    + exact (G y y' q q' H1 H2 K).
Qed.
Lemma good_url E w r p : good E w -> (p < length (w_params w))%nat -> fine E (w_heap w) r ->
  good E (mkworld (w_heap w) (w_lists w) (w_params w) (w_urls w ++ [mkuobj r p]) (w_iters w) (w_recs w)).
Proof.
  intros [A B C D F G] Lp R. constructor; cbn [w_heap w_lists w_params w_urls w_iters w_recs]; auto.
  - intros x K. destruct K as [(i & u & K1 & K2)|[K|K]]; [|apply B; right; left; exact K|apply B; right; right; exact K].
    cbn [w_urls] in K1. apply ne_snoc_inv in K1 as [[K1 _]|[_ ->]]; [apply B; left; eauto|]. cbn [u_rec] in K2. now subst x.
  - intros i u Hu. apply ne_snoc_inv in Hu as [[Hu _]|[_ ->]]; [eauto|exact Lp].
Qed.
Lemma good_upd E w i r p : good E w -> (i < length (w_urls w))%nat -> (p < length (w_params w))%nat -> fine E (w_heap w) r ->
  good E (mkworld (w_heap w) (w_lists w) (w_params w) (upd i (mkuobj r p) (w_urls w)) (w_iters w) (w_recs w)).
Proof.
  intros [A B C D F G] Li Lp R. constructor; cbn [w_heap w_lists w_params w_urls w_iters w_recs]; auto.
  - intros x K. destruct K as [(j & u & K1 & K2)|[K|K]]; [|apply B; right; left; exact K|apply B; right; right; exact K].
    cbn [w_urls] in K1. apply ne_upd_inv in K1 as [[_ ->]|[_ K1]]; [|apply B; left; eauto|exact Li]. cbn [u_rec] in K2. now subst x.
  - intros j u Hu. apply ne_upd_inv in Hu as [[_ ->]|[_ Hu]]; [exact Lp|eauto|exact Li].
Qed.
Lemma good_know E w r : good E w -> fine E (w_heap w) r ->
  good E (mkworld (w_heap w) (w_lists w) (w_params w) (w_urls w) (w_iters w) (w_recs w ++ [r])).
Proof.
  intros [A B C D F G] R. constructor; cbn [w_heap w_lists w_params w_urls w_iters w_recs]; auto.
  intros x K. destruct K as [K|[(k & K)|K]]; [apply B; left; exact K| |apply B; right; right; exact K].
  cbn [w_recs] in K. apply ne_snoc_inv in K as [[K _]|[_ ->]]; [apply B; right; left; eauto|exact R].
Qed.
Lemma good_write E w k l : good E w -> usv_pairs l -> good E (mkworld (w_heap w) (upd k l (w_lists w)) (w_params w) (w_urls w) (w_iters w) (w_recs w)).
Proof.
  intros [A B C D F G] U. constructor; cbn [w_heap w_lists w_params w_urls w_iters w_recs]; auto.
  - intros p q Hq. rewrite upd_length. eauto.
  - clear - F U. revert k. induction F as [|x t X F IH]; intros [|k]; cbn [upd]; constructor; auto.
Qed.

(* ---------- what happens to records ---------- *)
Lemma fine_new E w h r : good E w -> new_only (w_heap w) h -> known w r -> fine E h r.
Proof. intros G (N1 & N2 & N3) K. destruct (g_rec _ _ G r K) as [L1 L2]. split; [lia|]. now rewrite (proj2 (N3 _ L1)). Qed.
Lemma fine_target E w h x r : good E w -> target_only (w_heap w) h x -> loose (EE E) (read h x) -> known w r -> fine E h r.
Proof.
  intros G (T1 & T2 & T3) LX K. destruct (g_rec _ _ G r K) as [L1 L2]. split; [lia|]. destruct (Nat.eq_dec r x) as [->|Ne]; [exact LX|]. now rewrite (proj2 (T3 _ L1 Ne)).
Qed.
Lemma update_loose E l u : usv_pairs l -> loose (EE E) u -> loose (EE E) (params_update E l u) /\ attach_list (params_update E l u) = l.
Proof.
  intros U HL. unfold params_update. destruct (sp_str l) as [|c t] eqn:S.
  - pose proof (sp_str_nil l S) as L. rewrite L. split; [now apply drop_query|]. unfold attach_list. rewrite rstrip_query. reflexivity.
  - rewrite <- S. split; [apply keep_query; auto; now apply urlencode_safe, usv_pystr|]. unfold attach_list. cbn [query set_query]. now rewrite qsl_str_id.
Qed.
Lemma setter_loose E s u : is_pystr (text_of s) -> loose (EE E) u -> loose (EE E) (o_url (fst (set_attr E s (UrlApi.mkobj u (attach_list u))))).
Proof. intros H L. apply (set_attr_inv E s _ H (inv_intro E u L)). Qed.
Lemma parsed_loose E s b u : is_pystr s -> match b with BNone => True | BStr t => is_pystr t | BRec v => loose (EE E) v end ->
  snd (parse_url (with_validity E false) s b UTF8) = Ok u -> loose (EE E) u.
Proof.
  intros Hs Hb P. assert (U : url_new E s b = Ok (UrlApi.mkobj u (attach_list u))) by (unfold url_new; now rewrite P). exact (proj1 (url_new_inv E s b _ Hs Hb U)).
Qed.
Lemma setter_query E s u l : (forall v, s <> SetSearch v) -> (forall v, s <> SetHref v) -> query (o_url (fst (set_attr E s (UrlApi.mkobj u l)))) = query u.
Proof.
  intros N1 N2. destruct s as [v|v|v|v|v|v|v|v|v|v]; cbn [set_attr o_url]; cbv zeta; try (now destruct (N1 v)); try (now destruct (N2 v)).
  - destruct v; [cbn [fst o_url]; now rewrite rstrip_query|]. rewrite reparse_fragment. reflexivity.
  - destruct (has_opaque_path u); [reflexivity|]. rewrite reparse_host. unfold with_url. cbn [fst o_url]. apply put_host_query.
  - destruct (has_opaque_path u); [reflexivity|]. rewrite reparse_hostname. unfold with_url. cbn [fst o_url]. apply put_host_query.
  - destruct (cannot_have_username_password_port u); reflexivity.
  - destruct (has_opaque_path u); [reflexivity|]. rewrite reparse_path. reflexivity.
  - destruct (cannot_have_username_password_port u); [reflexivity|]. destruct v; [reflexivity|]. rewrite reparse_port. unfold with_url. cbn [fst o_url]. apply put_port_query.
  - rewrite reparse_scheme. destruct (scheme_split _) as [[s t]|]; [|reflexivity]. destruct (scheme_blocked _ _); [reflexivity|]. unfold with_url. cbn [fst o_url]. apply put_scheme_query.
  - destruct (cannot_have_username_password_port u); reflexivity.
Qed.
Lemma url_known w i u : nth_error (w_urls w) i = Some u -> known w (u_rec u).
Proof. intros H. left. eauto. Qed.
Lemma init_usv i : wop_ok (WParams i) -> usv_pairs (init_list i).
Proof.
  intros H. destruct i as [s|l|l|]; cbn [wop_ok init_list] in *.
  - apply reachable_ok. now constructor.
  - apply reachable_ok. now constructor.
  - apply reachable_ok. now constructor.
  - constructor.
Qed.

Definition insync (w : world) (p : nat) : Prop :=
  forall q r, nth_error (w_params w) p = Some q -> p_rec q = Some r -> list_of w q = attach_list (read (w_heap w) r).
Lemma param_known w p q r : nth_error (w_params w) p = Some q -> p_rec q = Some r -> known w r.
Proof. intros H1 H2. right. right. eauto. Qed.
Lemma sync_grow E w h p : good E w -> new_only (w_heap w) h -> insync w p -> insync (with_heap h w) p.
Proof.
  intros G (N1 & N2 & N3) S q r Hq Hr. cbn [with_heap w_params w_heap] in *. destruct (g_rec _ _ G r (param_known _ _ _ _ Hq Hr)) as [L _].
  rewrite (proj2 (N3 _ L)). exact (S q r Hq Hr).
Qed.
Lemma sync_add E w l p : good E w -> insync w p -> insync (add_params l w) p.
Proof.
  intros G S q r Hq Hr. cbn [add_params w_params w_heap] in *. apply ne_snoc_inv in Hq as [[Hq _]|[_ ->]]; [|discriminate Hr].
  rewrite <- (S q r Hq Hr). unfold list_of. cbn [add_params w_lists]. apply nth_add. exact (g_list _ _ G p q Hq).
Qed.
Lemma sync_attach E w x y p : good E w -> (x < length (w_params w))%nat -> p = x \/ insync w p -> insync (attach x y w) p.
Proof.
  intros G Lx S q r Hq Hr. cbn [attach w_params w_heap] in *. apply ne_upd_inv in Hq as [[-> ->]|[Ne Hq]]; [| |exact Lx].
  - cbn [p_rec] in Hr. injection Hr as <-. unfold list_of. cbn [attach w_lists p_list]. apply nth_last.
  - destruct S as [S|S]; [congruence|]. rewrite <- (S q r Hq Hr). unfold list_of. cbn [attach w_lists]. apply nth_add. exact (g_list _ _ G p q Hq).
Qed.
Lemma attach_query u v : query u = query v -> attach_list u = attach_list v.
Proof. intros H. unfold attach_list. now rewrite H. Qed.

Lemma step_good E w o : good E w -> wop_ok o ->
  good E (fst (wstep E o w)) /\ forall p, ~ foreign w o p -> insync w p -> insync (fst (wstep E o w)) p.
Proof.
  intros G OK. destruct o as [s b|i s|i|x|x op|s b|k|x k|x|x|x|k]; cbn [wstep].
  - (* URL(s, base) *)
    assert (B : forall v, base_of_url w b = Some v -> arg_in (w_heap w) v /\ match arg_val (w_heap w) v with BNone => True | BStr t => is_pystr t | BRec u => loose (EE E) u end).
    { cbn [wop_ok] in OK. destruct OK as [_ K]. intros v Hv. destruct b as [|t|i]; cbn [base_of_url] in Hv; try (injection Hv as <-; cbn [arg_in arg_val]; auto).
      destruct (nth_error (w_urls w) i) as [u|] eqn:Hu; [|discriminate]. injection Hv as <-. exact (g_rec _ _ G _ (url_known _ _ _ Hu)). }
    destruct (base_of_url w b) as [v|]; [|auto]. destruct (B v eq_refl) as [B1 B2]. cbn [wop_ok] in OK.
    destruct (url_frame (with_validity E false) s v UTF8 (w_heap w) (g_own _ _ G) B1) as (N1 & N2 & N3).
    pose proof (parsed_loose E s (arg_val (w_heap w) v)) as PL. rewrite N3 in PL. cbn [fst snd] in PL.
    destruct (hparse_url (with_validity E false) s v UTF8 (w_heap w)) as [l [h [r|e]]]; cbn [fst snd val] in *.
    + assert (FR : fine E h r) by (split; [apply (N2 r eq_refl)|apply (PL _ (proj1 OK) B2 eq_refl)]).
      assert (G1 : good E (with_heap h w)) by (apply good_heap; [exact G|apply N1|intros; now apply (fine_new E w)]).
      assert (G2 : good E (add_params [] (with_heap h w))) by (apply good_add; [exact G1|constructor]).
      assert (LP : (length (w_params w) < length (w_params (add_params [] (with_heap h w))))%nat) by (cbn [add_params with_heap w_params]; rewrite app_length; cbn [length]; lia).
      pose proof (good_attach E _ (length (w_params w)) r G2 LP FR) as G3. split.
      * apply (good_url E _ r (length (w_params w)) G3); [|exact FR]. cbn [attach w_params]. rewrite upd_length. exact LP.
      * intros p _ S. apply (sync_attach E _ (length (w_params w)) r p G2 LP). right. apply (sync_add E _ _ _ G1). now apply (sync_grow E).
    + split; [apply good_heap; [exact G|apply N1|intros; now apply (fine_new E w)]|intros p _ S; now apply (sync_grow E)].
  - (* setters *) destruct (nth_error (w_urls w) i) as [u|] eqn:Hu; [|auto].
    pose proof (g_rec _ _ G _ (url_known _ _ _ Hu)) as [L LU]. pose proof (g_param _ _ G i u Hu) as Lp. pose proof (ne_lt _ _ _ Hu) as Li.
    assert (DEF : (forall v, s <> SetHref v) ->
      target_only (w_heap w) (fst (snd (hset_attr E (u_rec u) s (w_heap w)))) (u_rec u) /\
      read (fst (snd (hset_attr E (u_rec u) s (w_heap w)))) (u_rec u) = o_url (fst (set_attr E s (UrlApi.mkobj (read (w_heap w) (u_rec u)) (attach_list (read (w_heap w) (u_rec u)))))) /\
      good E (with_heap (fst (snd (hset_attr E (u_rec u) s (w_heap w)))) w) /\
      snd (snd (hset_attr E (u_rec u) s (w_heap w))) = snd (set_attr E s (UrlApi.mkobj (read (w_heap w) (u_rec u)) (attach_list (read (w_heap w) (u_rec u)))))).
    { intros NH. destruct (set_frame E s (w_heap w) (u_rec u) (attach_list (read (w_heap w) (u_rec u))) (g_own _ _ G) L NH) as (T & S & RD).
      split; [exact T|]. split; [exact RD|]. split; [|exact S]. apply good_heap; [exact G|apply T|]. intros r K. apply (fine_target E w _ (u_rec u) r G T); [|exact K].
      rewrite RD. apply setter_loose; [exact OK|exact LU]. }
    assert (OTHER : (forall v, s <> SetHref v) -> (forall v, s <> SetSearch v) ->
       forall p, insync w p -> insync (with_heap (fst (snd (hset_attr E (u_rec u) s (w_heap w)))) w) p).
    { intros NH NS p S q r Hq Hr. destruct (DEF NH) as ((T1 & T2 & T3) & RD & _). cbn [with_heap w_params w_heap] in *.
      change (list_of w q = attach_list (read (fst (snd (hset_attr E (u_rec u) s (w_heap w)))) r)). rewrite (S q r Hq Hr).
      apply attach_query. destruct (Nat.eq_dec r (u_rec u)) as [->|Ne].
      - rewrite RD. symmetry. now apply setter_query.
      - destruct (g_rec _ _ G r (param_known _ _ _ _ Hq Hr)) as [Lr _]. now rewrite (proj2 (T3 _ Lr Ne)). }
    destruct s as [v|v|v|v|v|v|v|v|v|v];
      try (destruct (DEF ltac:(discriminate)) as (_ & _ & D & _); pose proof (OTHER ltac:(discriminate) ltac:(discriminate)) as O1; clear DEF OTHER;
           destruct (snd (hset_attr E (u_rec u) _ (w_heap w))) as [h r]; cbn [fst snd] in *; split; [exact D|intros p _ S; exact (O1 p S)]).
    + (* href *) clear DEF OTHER. pose proof (new_frame (with_validity E false) v None UTF8 (w_heap w) (g_own _ _ G) I) as NF. cbv zeta in NF. cbn [option_map] in NF.
      destruct NF as (N1 & N2 & N3). pose proof (parsed_loose E v BNone) as PL. rewrite parse_url_none in PL. rewrite N3 in PL. cbn [fst snd] in PL.
      destruct (hparse_new (with_validity E false) v None UTF8 (w_heap w)) as [l [h [r|e]]]; cbn [fst snd val] in *.
      * assert (FR : fine E h r) by (split; [apply (N2 r eq_refl)|apply (PL _ OK I eq_refl)]).
        assert (G1 : good E (with_heap h w)) by (apply good_heap; [exact G|apply N1|intros; now apply (fine_new E w)]).
        pose proof (good_upd E _ i r (u_params u) G1 Li Lp FR) as G2. split; [exact (good_attach E _ (u_params u) r G2 Lp FR)|].
        intros p _ S. apply (sync_attach E _ (u_params u) r p G2 Lp). right. exact (sync_grow E w h p G N1 S).
      * split; [apply good_heap; [exact G|apply N1|intros; now apply (fine_new E w)]|intros p _ S; now apply (sync_grow E)].
    + (* search *) destruct (DEF ltac:(discriminate)) as (T & RD & D & A). clear DEF OTHER.
      assert (AOK : snd (set_attr E (SetSearch v) (UrlApi.mkobj (read (w_heap w) (u_rec u)) (attach_list (read (w_heap w) (u_rec u))))) = Ok tt).
      { cbn [set_attr]. destruct v; [reflexivity|]. rewrite reparse_query. reflexivity. }
      rewrite AOK in A. destruct (snd (hset_attr E (u_rec u) (SetSearch v) (w_heap w))) as [h r]. cbn [fst snd] in *. subst r.
      assert (FR : fine E h (u_rec u)) by exact (g_rec _ _ D _ (url_known (with_heap h w) i u Hu)).
      split; [exact (good_attach E _ (u_params u) (u_rec u) D Lp FR)|].
      intros p NF S. apply (sync_attach E (with_heap h w) (u_params u) (u_rec u) p D Lp). destruct (Nat.eq_dec p (u_params u)) as [Q|Np]; [now left|right].
      intros q r Hq Hr. cbn [with_heap w_params w_heap] in *. change (list_of w q = attach_list (read h r)). rewrite (S q r Hq Hr). f_equal.
      assert (Ne : r <> u_rec u) by (intros ->; apply NF; exists q, (u_rec u); split; [exact Hq|split; [exact Hr|]]; exists u; repeat split; auto).
      destruct T as (T1 & T2 & T3). destruct (g_rec _ _ G r (param_known _ _ _ _ Hq Hr)) as [Lr _]. now rewrite (proj2 (T3 _ Lr Ne)).
  - split; [apply good_add; [exact G|now apply init_usv]|intros p _ S; now apply (sync_add E)].
  - destruct (nth_error (w_params w) x) as [q|] eqn:Hq; [|auto].
    assert (U : usv_pairs (list_of w q)) by (apply (proj1 (Forall_nth _ _) (g_usv _ _ G)); exact (g_list _ _ G x q Hq)).
    split; [apply good_add; [exact G|now rewrite copy_id]|intros p _ S; now apply (sync_add E)].
  - destruct (nth_error (w_params w) x) as [q|] eqn:Hq; [|auto].
    assert (U : usv_pairs (list_of w q)) by (apply (proj1 (Forall_nth _ _) (g_usv _ _ G)); exact (g_list _ _ G x q Hq)).
    pose proof (usv_apply op (list_of w q) OK U) as U2. cbv zeta. set (l := sp_apply op (list_of w q)) in *.
    pose proof (good_write E w (p_list q) l G U2) as G1.
    assert (SO : forall p, p <> x -> insync w p -> insync (mkworld (w_heap w) (upd (p_list q) l (w_lists w)) (w_params w) (w_urls w) (w_iters w) (w_recs w)) p).
    { intros p Np S q' r Hq' Hr. cbn [w_params w_heap] in *. rewrite <- (S q' r Hq' Hr). unfold list_of. cbn [w_lists]. apply nth_upd_other.
      intros X. apply Np. exact (g_inj _ _ G _ _ _ _ Hq' Hq (eq_sym X)). }
    destruct (p_rec q) as [r|] eqn:Hr.
    + destruct (g_rec _ _ G r (param_known _ _ _ _ Hq Hr)) as [L LR]. destruct (update_frame E (w_heap w) r l (g_own _ _ G) L) as [T RD].
      destruct (update_loose E l _ U2 LR) as [L2 AL]. cbn [fst]. set (h := fst (snd (hupdate E r l (w_heap w)))) in *. rewrite <- RD in L2, AL. split.
      * apply good_heap; [exact G1|apply T|]. intros y K. exact (fine_target E w h r y G T L2 K).
      * intros p NF S. destruct (Nat.eq_dec p x) as [->|Np].
        -- intros q' r' Hq' Hr'. cbn [with_heap w_params w_heap] in *. assert (q' = q) by congruence. subst q'. assert (r' = r) by congruence. subst r'.
           rewrite AL. unfold list_of. cbn [with_heap w_lists]. apply nth_upd_same. exact (g_list _ _ G x q Hq).
        -- intros q' r' Hq' Hr'. pose proof (SO p Np S q' r' Hq' Hr') as K. cbn [with_heap w_params w_heap] in *.
           assert (Ne : r' <> r) by (intros ->; apply NF; exists q', r; repeat split; auto; exists q; auto).
           destruct T as (T1 & T2 & T3). destruct (g_rec _ _ G r' (param_known _ _ _ _ Hq' Hr')) as [Lr _]. rewrite (proj2 (T3 _ Lr Ne)). exact K.
    + cbn [fst]. split; [exact G1|]. intros p _ S. destruct (Nat.eq_dec p x) as [->|Np]; [|exact (SO p Np S)].
      intros q' r' Hq' Hr'. cbn [w_params] in Hq'. congruence.
  - (* parse_url *)
    assert (B : forall v, base_of_rec w b = Some v -> arg_in (w_heap w) v /\ match arg_val (w_heap w) v with BNone => True | BStr t => is_pystr t | BRec u => loose (EE E) u end).
    { cbn [wop_ok] in OK. destruct OK as [_ K]. intros v Hv. destruct b as [|t|k]; cbn [base_of_rec] in Hv; try (injection Hv as <-; cbn [arg_in arg_val]; auto).
      destruct (nth_error (w_recs w) k) as [r|] eqn:Hr; [|discriminate]. injection Hv as <-. apply (g_rec _ _ G). right. left. eauto. }
    destruct (base_of_rec w b) as [v|]; [|auto]. destruct (B v eq_refl) as [B1 B2]. cbn [wop_ok] in OK.
    destruct (url_frame (with_validity E false) s v UTF8 (w_heap w) (g_own _ _ G) B1) as (N1 & N2 & N3).
    pose proof (parsed_loose E s (arg_val (w_heap w) v)) as PL. rewrite N3 in PL. cbn [fst snd] in PL.
    destruct (hparse_url (with_validity E false) s v UTF8 (w_heap w)) as [l [h [r|e]]]; cbn [fst snd val] in *.
    + assert (FR : fine E h r) by (split; [apply (N2 r eq_refl)|apply (PL _ (proj1 OK) B2 eq_refl)]).
      assert (G1 : good E (with_heap h w)) by (apply good_heap; [exact G|apply N1|intros; now apply (fine_new E w)]).
      split; [exact (good_know E _ r G1 FR)|]. intros p _ S. exact (sync_grow E w h p G N1 S).
    + split; [apply good_heap; [exact G|apply N1|intros; now apply (fine_new E w)]|intros p _ S; now apply (sync_grow E)].
  - destruct (nth_error (w_recs w) k) as [r|] eqn:Hr; [|auto]. assert (FR : fine E (w_heap w) r) by (apply (g_rec _ _ G); right; left; eauto).
    assert (G1 : good E (add_params [] w)) by (apply good_add; [exact G|constructor]).
    assert (LP : (length (w_params w) < length (w_params (add_params [] w)))%nat) by (cbn [add_params w_params]; rewrite app_length; cbn [length]; lia).
    split; [exact (good_attach E _ _ r G1 LP FR)|]. intros p _ S. apply (sync_attach E _ _ r p G1 LP). right. now apply (sync_add E).
  - destruct (nth_error (w_recs w) k) as [r|] eqn:Hr; [|auto]. destruct (nth_error (w_params w) x) as [q|] eqn:Hq; [|auto].
    assert (FR : fine E (w_heap w) r) by (apply (g_rec _ _ G); right; left; eauto). pose proof (ne_lt _ _ _ Hq) as LP.
    split; [exact (good_attach E w x r G LP FR)|]. intros p _ S. apply (sync_attach E _ _ r p G LP). now right.
  - destruct (nth_error (w_params w) x) as [q0|]; [|auto]. split; [now apply good_iters|]. intros p _ S. exact S.
  - destruct (nth_error (w_params w) x) as [q0|]; [|auto]. split; [now apply good_iters|]. intros p _ S. exact S.
  - destruct (nth_error (w_params w) x) as [q0|]; [|auto]. split; [now apply good_iters|]. intros p _ S. exact S.
  - cbv zeta. destruct (nth_error (w_iters w) k) as [[[l|] j|[|y t]]|]; cbn [fst]; try (split; [exact G|auto]; fail).
    + destruct (nth_error (nth l (w_lists w) []) j) as [nv|]; cbn [fst]; (split; [now apply good_iters|]; intros p _ S; exact S).
    + split; [now apply good_iters|]. intros p _ S. exact S.
Qed.

Lemma run_good E prog : forall w, good E w -> Forall wop_ok prog -> good E (fst (wrun E prog w)).
Proof.
  induction prog as [|o t IH]; intros w G F; [exact G|]. inversion F; subst. rewrite wrun_cons. apply IH; [|assumption]. now apply step_good.
Qed.
Lemma run_insync E p prog : forall w, good E w -> insync w p -> Forall wop_ok prog -> unshared E p prog w -> insync (fst (wrun E prog w)) p.
Proof.
  induction prog as [|o t IH]; intros w G S F U; [exact S|]. inversion F; subst. cbn [unshared] in U. destruct U as [U1 U2]. rewrite wrun_cons.
  apply IH; auto; now apply step_good.
Qed.
Lemma loose_pairs E u : loose E u -> attach_list u = pairs_of_query u.
Proof.
  intros (_ & _ & C & _). unfold attach_list, pairs_of_query. rewrite parse_qsl_spec. f_equal. apply utf8_encode_spec.
  destruct (query u) as [q|] eqn:Q; [|constructor]. specialize (C q eq_refl). apply qs_ascii in C. eapply Forall_impl; [|exact C]. cbv beta. intros; lia.
Qed.
Lemma unshared_shows E prog p : Forall wop_ok prog -> unshared E p prog empty_world -> shows_record (fst (wrun E prog empty_world)) p.
Proof.
  intros F U. set (w := fst (wrun E prog empty_world)). assert (G : good E w) by (apply run_good; [apply good_empty|exact F]).
  assert (S : insync w p) by (apply run_insync; auto; [apply good_empty|intros q r Hq; destruct p; discriminate Hq]).
  intros q r Hq Hr. unfold see_params. rewrite Hq. rewrite (S q r Hq Hr). f_equal. apply (loose_pairs (EE E)).
  apply (g_rec _ _ G r (param_known _ _ _ _ Hq Hr)).
Qed.
Lemma unattached_shows E prog i : Forall unattached prog -> Forall wop_ok prog -> shows_url (fst (wrun E prog empty_world)) i.
Proof. intros F K o H. apply (reached_sync E). exact (programs_reached E prog i o F K H). Qed.
