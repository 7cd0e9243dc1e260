(** The debug records: states, indices and number. *)
From Coq Require Import Ascii String.
From Coq Require Import NArith ZArith Bool Arith Lia ZifyBool ZifyN ZifyNat List.
From Verif Require SpecParser FlatParser StandardProofs.
From Verif Require Import PyStr PyInt Codec Env HostModel UrlRecord Parser SearchParams UrlApi Repr Message MsgHost MsgParser MsgProofs MsgParserProofs TermProofs Trace SpecTrace.
Import ListNotations.
Open Scope N_scope.

(* ---------- the trace and MsgParser ---------- *)
Lemma recorded_app l k : recorded (l ++ k) = recorded l ++ recorded k. Proof. apply flat_map_app. Qed.
Lemma steps_app l k : steps (l ++ k) = steps l ++ steps k. Proof. apply flat_map_app. Qed.
Lemma recorded_notes l : recorded (map Note l) = l. Proof. induction l as [|e l IH]; [reflexivity|]. cbn [map recorded flat_map app]. f_equal. exact IH. Qed.
Lemma steps_notes l : steps (map Note l) = []. Proof. induction l as [|e l IH]; [reflexivity|exact IH]. Qed.
Section Same.
Context (X : menv).
Lemma run_same base enc so s fuel : forall st i u,
  recorded (fst (t_run X fuel base enc so st s i u)) = fst (m_run X fuel base enc so st s i u)
  /\ snd (t_run X fuel base enc so st s i u) = snd (m_run X fuel base enc so st s i u).
Proof.
  induction fuel as [|f IH]; intros st i u; [destruct st; split; reflexivity|].
  assert (G : forall st, st <> EOF ->
     t_run X (S f) base enc so st s i u
     = match m_step X base enc so st s i u with
       | (l, (u', MErr e t)) => (map Note l, (u', MErr e t))
       | (l, (u', MOk r)) => let (l', res) := t_run X f base enc so (fst r) s (snd r) u' in (map Note l ++ Step st (fst r) (snd r) u' :: l', res)
       end
     /\ m_run X (S f) base enc so st s i u = (r <m m_step X base enc so st s i ;; m_run X f base enc so (fst r) s (snd r)) u).
  { intros st' N'. destruct st'; try (split; reflexivity). now destruct N'. }
  assert (D : st = EOF \/ st <> EOF) by (destruct st; first [now left | right; discriminate]). destruct D as [->|D]; [split; reflexivity|].
  destruct (G st D) as (-> & ->). unfold mm_bind. destruct (m_step X base enc so st s i u) as [l [u' [r|e t]]]; [|cbn [fst snd]; rewrite recorded_notes; split; reflexivity].
  specialize (IH (fst r) (snd r) u'). destruct (t_run X f base enc so (fst r) s (snd r) u') as [l' res]. destruct (m_run X f base enc so (fst r) s (snd r) u') as [l2 res2]. cbn [fst snd] in *. destruct IH as (IH1 & IH2).
  rewrite recorded_app, recorded_notes. cbn [recorded flat_map app]. fold (recorded l'). now rewrite IH1.
Qed.
Lemma cleaned_same b msg s k (m : MM unit) u :
  recorded (fst k) = fst (m u) -> snd k = snd (m u) ->
  recorded (fst (t_cleaned X b msg s k u)) = fst ((mm_when b (mm_note X msg [PStr s]) >m m) u)
  /\ snd (t_cleaned X b msg s k u) = snd ((mm_when b (mm_note X msg [PStr s]) >m m) u).
Proof.
  intros H K. unfold t_cleaned, mm_when, mm_note, mm_lift, mm_bind, mm_ret. destruct b.
  - destruct (noted X INFO msg [PStr s]) as [l [a|e t]]; cbn [fst snd]; [|rewrite recorded_notes; split; reflexivity]. destruct (m u) as [l' r]. cbn [fst snd] in *. rewrite recorded_app, recorded_notes, H. now split.
  - destruct (m u) as [l' r]. cbn [fst snd app] in *. now split.
Qed.
Lemma into_same s base enc so u :
  recorded (fst (t_parse_into X s base enc so u)) = fst (m_parse_into X s base enc so u)
  /\ snd (t_parse_into X s base enc so u) = snd (m_parse_into X s base enc so u).
Proof. unfold t_parse_into, m_parse_into. apply cleaned_same; apply run_same. Qed.
Lemma new_same s base enc :
  recorded (fst (t_parse_new X s base enc)) = fst (m_parse_new X s base enc)
  /\ snd (t_parse_new X s base enc) = snd (m_parse_new X s base enc).
Proof.
  unfold t_parse_new, m_parse_new. pose proof (into_same (strip_c0 s) base enc None new_url) as (H & K).
  match goal with |- context [t_cleaned X ?b ?m s ?k new_url] => destruct (cleaned_same b m s k (m_parse_into X (strip_c0 s) base enc None) new_url H K) as (C1 & C2);
    destruct (t_cleaned X b m s k new_url) as [l [u r]] end. destruct ((_ >m _) new_url) as [l2 [u2 r2]]. cbn [fst snd] in *. injection C2 as -> ->. destruct r2; cbn [fst snd]; now split.
Qed.
Lemma url_same s base enc :
  recorded (fst (t_parse_url X s base enc)) = fst (m_parse_url X s base enc)
  /\ snd (t_parse_url X s base enc) = snd (m_parse_url X s base enc).
Proof.
  unfold t_parse_url, m_parse_url, mw_bind, mw_ret. destruct base as [|bs|b].
  - pose proof (new_same s None enc) as (H & K). destruct (m_parse_new X s None enc) as [l r]. exact (conj H K).
  - pose proof (new_same bs None enc) as (H & K). destruct (t_parse_new X bs None enc) as [l r]. destruct (m_parse_new X bs None enc) as [l2 r2]. cbn [fst snd] in *. subst r. destruct r2 as [b|e t]; [|now split].
    pose proof (new_same s (Some b) enc) as (H2 & K2). destruct (t_parse_new X s (Some b) enc) as [l3 r3]. destruct (m_parse_new X s (Some b) enc) as [l4 r4]. cbn [fst snd] in *. rewrite recorded_app, H, H2, app_nil_r. now split.
  - pose proof (new_same s (Some b) enc) as (H & K). destruct (m_parse_new X s (Some b) enc) as [l r]. exact (conj H K).
Qed.
End Same.

(* ---------- one state ---------- *)
(** what a computation can return *)
Definition gr {A} (R : A -> Prop) (m : MM A) : Prop := forall u l v a, m u = (l, (v, MOk a)) -> R a.
Section States.
Context (X : menv).
Lemma gr_true {A} (m : MM A) : gr (fun _ => True) m. Proof. intros u l v a _. exact I. Qed.
Lemma gr_ret {A} (R : A -> Prop) a : R a -> gr R (mm_ret a). Proof. intros H u l v b [= _ _ <-]. exact H. Qed.
Lemma gr_exc {A} (R : A -> Prop) e : gr R (mm_exc e). Proof. intros u l v b [=]. Qed.
Lemma gr_bind2 {A B} (P : A -> Prop) (R : B -> Prop) (m : MM A) (f : A -> MM B) : gr P m -> (forall a, P a -> gr R (f a)) -> gr R (mm_bind m f).
Proof.
  intros H K u l v b. unfold mm_bind. destruct (m u) as [l1 [w [a|e t]]] eqn:Q; [|intros [=]]. destruct (f a w) as [l2 r] eqn:Q2. intros [= _ ->]. exact (K a (H u l1 w a Q) w l2 v b Q2).
Qed.
Lemma gr_bind {A B} (R : B -> Prop) (m : MM A) (f : A -> MM B) : (forall a, gr R (f a)) -> gr R (mm_bind m f).
Proof. intros K. apply (gr_bind2 (fun _ => True)); [apply gr_true|]. intros a _. apply K. Qed.
Lemma gr_raise {A} (R : A -> Prop) e fmt args : gr R (@mm_raise A X e fmt args).
Proof. intros u l v b. unfold mm_raise, raised. destruct (py_mod X fmt args); intros [=]. Qed.
Lemma gr_fail {A} (R : A -> Prop) msg args e fmt args' : gr R (@mm_fail A X msg args e fmt args').
Proof. apply gr_bind. intros _. apply gr_raise. Qed.

Ltac gr1 :=
  lazymatch goal with
  | |- gr _ (mm_ret _) => apply gr_ret
  | |- gr _ (mm_exc _) => apply gr_exc
  | |- gr _ (mm_fail _ _ _ _ _ _) => apply gr_fail | |- gr _ (mm_raise _ _ _ _) => apply gr_raise
  | |- gr _ (mm_bind _ _) => apply gr_bind; intros
  | |- gr _ (let _ := _ in _) => cbv zeta
  | |- gr _ (if ?b then _ else _) => destruct b eqn:?
  | |- gr _ (match ?x with _ => _ end) => destruct x
  end.
Definition succs (so : option pstate) : pstate -> list pstate := match so with None => successors | Some _ => override_successors end.
(** a step from [st] at [i] in [s] *)
Definition step_ok (so : option pstate) (s : str) (st : pstate) (i : nat) (r : pstate * nat) : Prop :=
  In (fst r) (succs so st) /\ (i <= snd r <= length s)%nat
  /\ (fst r = OPAQUE_PATH -> st = PATH -> snd r = length s) /\ (st = OPAQUE_PATH -> i = length s -> fst r = EOF).
Lemma step_plain so s st i next j : In next (succs so st) -> (i <= j <= length s)%nat -> st <> PATH -> st <> OPAQUE_PATH -> step_ok so s st i (next, j).
Proof. intros H K A B. split; [exact H|]. split; [exact K|]. split; intros C D; contradiction. Qed.
Ltac mem_ := cbn [succs successors override_successors In]; repeat first [left; reflexivity | right].
Ltac plain := apply step_plain; [mem_|try lia|discriminate|discriminate].
Ltac grs := repeat gr1.
(* the loops: [l] is the input from [j] on *)
Definition at_ (s : str) (i j : nat) (l : str) : Prop := skipn j s = l /\ (i <= j <= length s)%nat.
Lemma at_cons s i j c t : at_ s i j (c :: t) -> at_ s i (j + 1) t /\ (i <= j /\ j + 1 <= length s)%nat.
Proof. intros (H & K). destruct (skip_cons j s c t H) as (H1 & _ & H2). repeat split; try assumption; lia. Qed.
Lemma at_nil s i j : at_ s i j [] -> (j = length s /\ i <= j)%nat.
Proof. intros (H & K). assert (L : length (skipn j s) = 0%nat) by now rewrite H. rewrite skipn_length in L. lia. Qed.
Lemma at_from s i : (i <= length s)%nat -> at_ s i i (from i s). Proof. intros H. split; [reflexivity|lia]. Qed.
Ltac loop l i L :=
  pose proof (at_from _ _ L) as AT; revert AT; set (l := from i _); clearbody l.

Lemma starts_len p s : starts_with p s = true -> (length p <= length s)%nat.
Proof. revert s. induction p as [|c p IH]; intros [|d s]; cbn [starts_with length]; try lia; try discriminate. intros H. apply andb_true_iff in H as (_ & H). specialize (IH s H). lia. Qed.
Lemma gr_scheme so base s i : (i <= length s)%nat -> gr (step_ok so s SCHEME_START i) (m_parse_scheme X s i base so).
Proof.
  intros L. unfold m_parse_scheme. cbv zeta. rewrite slice_1. destruct (cur (skipn i s)) as [c|] eqn:Q.
  - apply cur_skip in Q as (_ & Q). destruct (mem c ASCII_ALPHA).
    + assert (AT : at_ s i (i + 1) (from (i + 1) s)) by (split; [reflexivity|lia]). revert AT. set (l := from (i + 1) s). clearbody l. generalize (i + 1)%nat [c]. induction l as [|d t IH]; intros j b AT; cbn [m_scheme_loop]; unfold m_no_colon.
      * destruct so; cbn [overridden andb negb]; grs; plain.
      * apply at_cons in AT as (AT & LT). destruct (_ || _); [now apply IH|]. destruct (d =? 58).
        -- unfold m_scheme_colon. cbv zeta. apply gr_bind. intros u. destruct so as [o|]; cbn [overridden andb].
           ++ grs; plain.
           ++ grs; try plain. match goal with H : starts_with $"/" _ = true |- _ => apply starts_len in H; unfold from in H; rewrite skipn_length in H; change (length $"/") with 1%nat in H; lia end.
        -- destruct so; cbn [overridden andb negb]; grs; plain.
    + destruct so; cbn [overridden]; unfold m_no_alpha; grs; plain.
  - destruct so; cbn [overridden]; unfold m_no_alpha; grs; plain.
Qed.
Lemma gr_authority s i : (i <= length s)%nat -> gr (step_ok None s AUTHORITY i) (m_parse_authority X s i).
Proof.
  intros L. unfold m_parse_authority. apply (gr_bind2 (fun k => (i <= k <= length s)%nat)); [|intros k K; grs; plain].
  loop l i L. cut (forall j b x y, at_ s i j l -> (i + length b <= j)%nat -> gr (fun k => (i <= k <= length s)%nat) (m_authority_loop X s l j b x y)); [intros H AT; apply H; [exact AT|cbn [length]; lia]|].
  induction l as [|c t IH]; intros j b x y AT B; cbn [m_authority_loop]; unfold m_authority_end.
  - apply at_nil in AT. grs. lia.
  - apply at_cons in AT as (AT & LT). grs; try (apply IH; [exact AT|rewrite ?app_length; cbn [length]; lia]). lia.
Qed.
Lemma gr_host so s i st : (i <= length s)%nat -> (st = HOST \/ st = HOSTNAME /\ so = Some HOSTNAME) -> gr (step_ok so s st i) (m_parse_host X s i so).
Proof.
  intros L D. unfold m_parse_host. apply gr_bind. intros u. destruct (overridden so && _) eqn:Q.
  { destruct so as [o|]; [|discriminate Q]. grs. destruct D as [->|(-> & _)]; plain. }
  loop l i L. generalize i at 2 4. generalize ([] : str) false. induction l as [|c t IH]; intros b x j AT; cbn [m_host_loop]; unfold m_host_end.
  - apply at_nil in AT. destruct D as [->|(-> & ->)]; [destruct so as [o|]|]; cbn [overridden andb negb]; grs; plain.
  - apply at_cons in AT as (AT & LT). destruct D as [->|(-> & ->)]; [destruct so as [o|]|]; cbn [overridden is_hostname_override andb negb]; grs; try (now apply IH); try plain.
Qed.
Lemma gr_port so s i : (i <= length s)%nat -> gr (step_ok so s PORT i) (m_parse_port X s i so).
Proof.
  intros L. unfold m_parse_port. loop l i L. generalize i at 2 4. generalize ([] : str). induction l as [|c t IH]; intros b j AT; cbn [m_port_loop]; unfold m_port_end.
  - apply at_nil in AT. destruct so; cbn [overridden andb negb]; grs; plain.
  - apply at_cons in AT as (AT & LT). destruct (mem c ASCII_DIGITS); [now apply IH|]. apply gr_bind. intros u. destruct (_ || overridden so); [|grs]. apply gr_bind. intros _. destruct so; cbn [overridden andb negb]; grs; plain.
Qed.
Lemma gr_file_host so s i : (i <= length s)%nat -> gr (step_ok so s FILE_HOST i) (m_parse_file_host X s i so).
Proof.
  intros L. unfold m_parse_file_host. loop l i L. cut (forall j b, at_ s i j l -> (i + length b <= j)%nat -> gr (step_ok so s FILE_HOST i) (m_file_host_loop X so s l j b)); [intros H AT; apply H; [exact AT|cbn [length]; lia]|].
  induction l as [|c t IH]; intros j b AT B; cbn [m_file_host_loop]; unfold m_file_host_end.
  - apply at_nil in AT. destruct so; cbn [overridden negb andb]; grs; plain.
  - apply at_cons in AT as (AT & LT). destruct (mem c _); [|apply IH; [exact AT|rewrite ?app_length; cbn [length]; lia]]. destruct so; cbn [overridden negb andb]; grs; plain.
Qed.
Lemma gr_ignore s i : (i <= length s)%nat -> gr (step_ok None s SPECIAL_AUTHORITY_IGNORE_SLASHES i) (m_parse_ignore_slashes X s i).
Proof.
  intros L. unfold m_parse_ignore_slashes. loop l i L. generalize i at 2 4. induction l as [|c t IH]; intros j AT; cbn [m_ignore_slashes_loop].
  - apply at_nil in AT. grs; plain.
  - apply at_cons in AT as (AT & LT). grs; try (now apply IH). plain.
Qed.
Lemma gr_path so s i : (i <= length s)%nat -> gr (step_ok so s PATH i) (m_parse_path X s i so).
Proof.
  intros L. unfold m_parse_path. loop l i L. generalize i at 2 4. generalize ([] : str). induction l as [|c t IH]; intros b j AT; cbn [m_path_loop].
  - apply at_nil in AT. grs. split; [destruct so; mem_|]. split; [cbn [snd]; lia|]. split; [now intros _ _|discriminate].
  - apply at_cons in AT as (AT & LT). apply gr_bind. intros u. destruct (_ || _ || _) eqn:Q; [|apply gr_bind; intros _; now apply IH].
    destruct so as [o|]; cbn [overridden negb andb] in Q.
    + assert (N1 : (c =? 63) = false) by lia. assert (N2 : (c =? 35) = false) by lia. rewrite N1, N2. grs. now apply IH.
    + grs; try (now apply IH); (split; [mem_|split; [cbn [snd]; lia|split; discriminate]]).
Qed.
Lemma gr_opaque so s i : (i <= length s)%nat -> (so = None \/ i = length s) -> gr (step_ok so s OPAQUE_PATH i) (m_parse_opaque_path X s i).
Proof.
  intros L D. unfold m_parse_opaque_path. destruct (Nat.eq_dec i (length s)) as [->|NE].
  - unfold from. rewrite skipn_all. cbn [m_opaque_path_loop]. grs. split; [destruct so; mem_|]. split; [cbn [snd]; lia|]. split; [discriminate|reflexivity].
  - destruct D as [->|D]; [|contradiction]. loop l i L. generalize i at 2 4. induction l as [|c t IH]; intros j AT; cbn [m_opaque_path_loop].
    + apply at_nil in AT. grs. split; [mem_|split; [cbn [snd]; lia|split; [discriminate|reflexivity]]].
    + apply at_cons in AT as (AT & LT). grs; try (now apply IH); (split; [mem_|split; [cbn [snd]; lia|split; [discriminate|]]]); intros _ K; contradiction.
Qed.
Lemma gr_query so s i enc : (i <= length s)%nat -> gr (step_ok so s QUERY i) (m_parse_query X s i so enc).
Proof.
  intros L. unfold m_parse_query. loop l i L. generalize i at 2 4. generalize ([] : str). induction l as [|c t IH]; intros b j AT; cbn [m_query_loop].
  - apply at_nil in AT. destruct so; grs; plain.
  - apply at_cons in AT as (AT & LT). grs; try (now apply IH). destruct so; plain.
Qed.
Lemma gr_fragment so s i : (i <= length s)%nat -> gr (step_ok so s FRAGMENT i) (m_parse_fragment X s i).
Proof.
  intros L. unfold m_parse_fragment. loop l i L. generalize i at 2 4. generalize ([] : str). induction l as [|c t IH]; intros b j AT; cbn [m_fragment_loop].
  - apply at_nil in AT. destruct so; grs; plain.
  - apply at_cons in AT as (AT & LT). apply gr_bind. intros _. now apply IH.
Qed.
Ltac cur_ :=
  rewrite ?slice_1; repeat match goal with |- context [cur (skipn ?i ?s)] => let Q := fresh "Q" in let c := fresh "c" in destruct (cur (skipn i s)) as [c|] eqn:Q; [apply cur_skip in Q as (_ & Q)|]; cbn [isc iscp iseof negb andb] end.
Lemma gr_step so base enc st s i : (i <= length s)%nat ->
  match so with None => ~ In st [HOSTNAME; SCHEME; EOF]
  | Some o => In st [SCHEME_START; HOST; HOSTNAME; FILE_HOST; PORT; PATH_START; PATH; OPAQUE_PATH; QUERY; FRAGMENT]
              /\ (st = OPAQUE_PATH -> i = length s) /\ (st = HOSTNAME -> o = HOSTNAME) end ->
  gr (step_ok so s st i) (m_step X base enc so st s i).
Proof.
  intros L D. destruct st; cbn [m_step];
    first [ apply gr_scheme; exact L | apply gr_port; exact L | apply gr_file_host; exact L | apply gr_path; exact L | apply gr_query; exact L | apply gr_fragment; exact L
          | apply gr_host; [exact L|now left]
          | idtac ].
  all: try (destruct so as [o|]; [destruct D as (D & _); cbn [In] in D; repeat destruct D as [D|D]; discriminate || contradiction|]).
  all: try (destruct D; cbn [In]; tauto).
  all: try (apply gr_authority; exact L). all: try (apply gr_ignore; exact L).
  all: try (unfold m_parse_no_scheme, m_missing_scheme, m_special_slashes, m_parse_path_or_authority, m_parse_relative, m_parse_relative_slash, m_parse_file, m_parse_file_slash; cbv zeta; cur_; grs; plain; fail).
  - destruct so as [o|]; [|destruct D; now left]. apply gr_host; [exact L|]. right. split; [reflexivity|]. f_equal. now apply D.
  - apply gr_opaque; [exact L|]. destruct so as [o|]; [right|now left]. now apply D.
  - unfold m_parse_path_start. cbv zeta. cur_; apply gr_bind; intros u; destruct so as [o|]; cbn [overridden andb negb]; grs; plain; match goal with |- context [if ?b then _ else _] => destruct b end; lia.
  - unfold m_special_slashes. cbv zeta. rewrite slice_1. destruct (isc _ 47 && _) eqn:Q; grs; [|plain]. apply andb_true_iff in Q as (_ & Q). apply starts_len in Q. unfold from in Q. rewrite skipn_length in Q. change (length $"/") with 1%nat in Q. plain.
  - unfold m_special_slashes. cbv zeta. rewrite slice_1. destruct (isc _ 47 && _) eqn:Q; grs; [|plain]. apply andb_true_iff in Q as (_ & Q). apply starts_len in Q. unfold from in Q. rewrite skipn_length in Q. change (length $"/") with 1%nat in Q. plain.
Qed.

(* ---------- the run ---------- *)
Definition ok_state (so : option pstate) (s : str) (st : pstate) (i : nat) : Prop :=
  match so with None => ~ In st [HOSTNAME; SCHEME]
  | Some o => In st [EOF; SCHEME_START; HOST; HOSTNAME; FILE_HOST; PORT; PATH_START; PATH; OPAQUE_PATH; QUERY; FRAGMENT]
              /\ (st = OPAQUE_PATH -> i = length s) /\ (st = HOSTNAME -> o = HOSTNAME) end.
Lemma ok_next so s st i r : ok_state so s st i -> step_ok so s st i r -> ok_state so s (fst r) (snd r).
Proof.
  intros D (H & _ & P & _). destruct r as [next j]. cbn [fst snd] in *. destruct so as [o|]; cbn [ok_state succs] in *.
  - destruct st; cbn [override_successors In] in H; repeat (destruct H as [H|H]; [subst next|]); try contradiction; (split; [cbn [In]; tauto|split; try discriminate]).
    intros _. now apply P.
  - destruct st; cbn [successors In] in H; repeat (destruct H as [H|H]; [subst next|]); try contradiction; intros K; cbn [In] in K; repeat (destruct K as [K|K]; [discriminate K|]); exact K.
Qed.
(** an upper bound on the number of records still to come *)
Definition left_ (so : option pstate) (s : str) (st : pstate) (i : nat) : nat :=
  match so with
  | None => rank st (skipn i s)
  | Some _ => match st with EOF => 0 | PATH_START => 3 | QUERY | PATH | HOST | HOSTNAME => 2 | _ => 1 end
  end%nat.
Lemma left_less so s st i r : ok_state so s st i -> (i <= length s)%nat -> step_ok so s st i r -> (left_ so s (fst r) (snd r) < left_ so s st i)%nat.
Proof.
  intros D L (H & _ & P & P2). destruct r as [next j]. cbn [fst snd] in *. destruct so as [o|]; cbn [left_ succs] in *.
  - destruct st; cbn [override_successors In] in H; repeat (destruct H as [H|H]; [subst next|]); try contradiction; lia.
  - destruct st; cbn [successors In] in H; repeat (destruct H as [H|H]; [subst next|]); try contradiction; cbn [rank]; try lia.
    all: try (destruct (skipn j s); lia).
    all: try (rewrite (P eq_refl eq_refl), skipn_all; lia).
    all: destruct (skipn i s) as [|c t] eqn:Q; try lia.
    all: specialize (P2 eq_refl); assert (K : i = length s) by (assert (Z' : length (skipn i s) = 0%nat) by (now rewrite Q); rewrite skipn_length in Z'; lia); now apply P2 in K.
Qed.
Lemma run_chain so base enc s fuel : forall st i u, (i <= length s)%nat -> ok_state so s st i ->
  let '(l, (u', r)) := t_run X fuel base enc so st s i u in
  chain (succs so) (length s) st i (steps l) /\ (length (steps l) <= left_ so s st i)%nat
  /\ match r with MOk _ => last_state st (steps l) = EOF /\ last_url u l = u' | MErr _ _ => last_state st (steps l) <> EOF end.
Proof.
  assert (NU : forall u l, last_url u (map Note l) = u) by (intros u; induction l as [|e l IH]; [reflexivity|exact IH]).
  induction fuel as [|f IH]; intros st i u L D.
  - destruct st; cbn [t_run steps flat_map]; (split; [constructor|split; [cbn [length]; lia|]]); try discriminate; split; reflexivity.
  - assert (C : st = EOF \/ st <> EOF) by (destruct st; first [now left | right; discriminate]). destruct C as [->|NE]; [cbn [t_run steps flat_map]; (split; [constructor|split; [cbn [length]; lia|]]); split; reflexivity|].
    assert (G : t_run X (S f) base enc so st s i u
     = match m_step X base enc so st s i u with
       | (l, (u', MErr e t)) => (map Note l, (u', MErr e t))
       | (l, (u', MOk r)) => let (l', res) := t_run X f base enc so (fst r) s (snd r) u' in (map Note l ++ Step st (fst r) (snd r) u' :: l', res)
       end) by (destruct st; try reflexivity; contradiction).
    rewrite G. destruct (m_step X base enc so st s i u) as [l [u' [r|e t]]] eqn:Q.
    + assert (SO : step_ok so s st i r).
      { refine (gr_step so base enc st s i L _ u l u' r Q). destruct so as [o|]; cbn [ok_state] in D.
        - destruct D as (D1 & D2). split; [|exact D2]. destruct D1 as [<-|D1]; [contradiction|exact D1].
        - intros K. apply D. cbn [In] in *. destruct K as [K|[K|[K|[]]]]; [now left|now (right; left)|now symmetry in K]. }
      pose proof (ok_next so s st i r D SO) as D'. pose proof (left_less so s st i r D L SO) as LL. destruct SO as (S1 & S2 & _).
      specialize (IH (fst r) (snd r) u' (proj2 S2) D'). destruct (t_run X f base enc so (fst r) s (snd r) u') as [l' [u2 res]]. destruct IH as (I1 & I2 & I3).
      assert (ST : steps (map Note l ++ Step st (fst r) (snd r) u' :: l') = (st, fst r, snd r) :: steps l') by (rewrite steps_app, steps_notes; reflexivity). rewrite ST.
      split; [now constructor|]. split; [cbn [length]; lia|]. cbn [last_state fold_left fst snd]. fold (last_state (fst r) (steps l')). destruct res; [|exact I3]. split; [apply I3|].
      unfold last_url. rewrite fold_left_app. fold (last_url u (map Note l)). rewrite NU. cbn [fold_left]. apply I3.
    + rewrite steps_notes. split; [constructor|]. split; [cbn [length]; lia|exact NE].
Qed.
End States.
Lemma cleaned_run X b msg s k u : let '(l, (u', r)) := t_cleaned X b msg s k u in
  (steps l = steps (fst k) /\ (u', r) = snd k /\ last_url u l = last_url u (fst k)) \/ (steps l = [] /\ exists e t, r = MErr e t).
Proof.
  assert (NU : forall u l, last_url u (map Note l) = u) by (intros v; induction l as [|e l IH]; [reflexivity|exact IH]).
  unfold t_cleaned. destruct b; [|destruct k as [l [u' r]]; left; now repeat split]. destruct (noted X INFO msg [PStr s]) as [l [a|e t]].
  - destruct k as [l' [u' r]]. left. cbn [fst snd]. rewrite steps_app, steps_notes. unfold last_url at 1. rewrite fold_left_app. fold (last_url u (map Note l)). rewrite NU. now repeat split.
  - right. rewrite steps_notes. split; [reflexivity|]. now exists e, t.
Qed.
Lemma trace_into X s base enc so u : match so with None => True | Some o => In o setter_states end ->
  let '(l, (u', r)) := t_parse_into X s base enc so u in
  let start := match so with None => SCHEME_START | Some o => o end in
  m_parse_into X s base enc so u = (recorded l, (u', r))
  /\ chain (match so with None => successors | Some _ => override_successors end) (length (remove_tabs s)) start 0 (steps l)
  /\ (length (steps l) <= match so with None => 12 | Some _ => 3 end)%nat
  /\ match r with MOk _ => last_state start (steps l) = EOF /\ last_url u l = u' | MErr _ _ => last_state start (steps l) <> EOF end.
Proof.
  intros D. pose proof (into_same X s base enc so u) as (E1 & E2). unfold t_parse_into in *. set (start := match so with Some st => st | None => SCHEME_START end) in *.
  match goal with |- context [t_run X ?f base ?e so start ?s' 0 u] => pose proof (run_chain X so base e s' f start 0 u ltac:(lia)) as H; destruct (t_run X f base e so start s' 0 u) as [l0 [u0 r0]] end.
  match goal with |- context [t_cleaned X ?b ?m s ?k u] => pose proof (cleaned_run X b m s k u) as C; destruct (t_cleaned X b m s k u) as [l [u' r]] end. cbn [fst snd] in *. cbv zeta.
  assert (OK : ok_state so (remove_tabs s) start 0).
  { destruct so as [o|]; subst start; cbn [ok_state]; [|intros K; cbn [In] in K; destruct K as [K|[K|[]]]; discriminate K].
    unfold setter_states in D. cbn [In] in D. repeat (destruct D as [<-|D]; [split; [cbn [In]; tauto|split; [discriminate|first [discriminate|reflexivity]]]|]). destruct D. }
  specialize (H OK). destruct H as (H1 & H2 & H3).
  assert (SN : start <> EOF) by (subst start; destruct so as [o|]; [intros ->; unfold setter_states in D; cbn [In] in D; repeat destruct D as [D|D]; first [discriminate D|exact D]|discriminate]).
  split; [destruct (m_parse_into X s base enc so u) as [l2 [u2 r2]]; cbn [fst snd] in *; now rewrite E1, E2|].
  destruct C as [(-> & C2 & C3)|(-> & e & t & ->)].
  - injection C2 as -> ->. split; [destruct so; exact H1|]. split.
    + etransitivity; [exact H2|]. subst start. destruct so as [o|]; cbn [left_ rank]; [destruct o|]; lia.
    + destruct r0; [|exact H3]. now rewrite C3.
  - split; [constructor|]. split; [cbn [length]; lia|]. exact SN.
Qed.
Lemma trace_new X s base enc :
  let '(l, r) := t_parse_new X s base enc in
  m_parse_new X s base enc = (recorded l, r)
  /\ chain successors (length (SpecParser.std_input s)) SCHEME_START 0 (steps l)
  /\ (length (steps l) <= 12)%nat
  /\ match r with MOk u => last_state SCHEME_START (steps l) = EOF /\ last_url new_url l = u | MErr _ _ => last_state SCHEME_START (steps l) <> EOF end.
Proof.
  rewrite StandardProofs.input_eq. change (FlatParser.clean s) with (remove_tabs (strip_c0 s)).
  pose proof (new_same X s base enc) as (E1 & E2). unfold t_parse_new in *. pose proof (trace_into X (strip_c0 s) base enc None new_url I) as H.
  destruct (t_parse_into X (strip_c0 s) base enc None new_url) as [l0 [u0 r0]]. cbv zeta in H. destruct H as (_ & H1 & H2 & H3).
  match goal with |- context [t_cleaned X ?b ?m s ?k new_url] => pose proof (cleaned_run X b m s k new_url) as C; destruct (t_cleaned X b m s k new_url) as [l [u' r]] end.
  destruct C as [(C1 & C2 & C3)|(C1 & e & t & ->)].
  - cbn [fst snd] in *. injection C2 as -> ->. destruct r0 as [a|e t]; cbn [fst snd] in *; rewrite C1; (split; [destruct (m_parse_new X s base enc) as [l2 r2]; cbn [fst snd] in *; now rewrite E1, E2|]); (split; [exact H1|]); (split; [exact H2|]); [now rewrite C3|exact H3].
  - cbn [fst snd] in *. rewrite C1. split; [destruct (m_parse_new X s base enc) as [l2 r2]; cbn [fst snd] in *; now rewrite E1, E2|]. split; [constructor|]. split; [cbn [length]; lia|discriminate].
Qed.
(* a URL record and its base *)
Lemma trace_url X s base enc : m_parse_url X s base enc = (recorded (fst (t_parse_url X s base enc)), snd (t_parse_url X s base enc)).
Proof. pose proof (url_same X s base enc) as (H & K). destruct (m_parse_url X s base enc). cbn [fst snd] in *. now rewrite H, K. Qed.
Lemma mod_r X o t args : py_mod X (37 :: 114 :: t) (o :: args) = cat (py_repr (m_env X) (m_print X) o) (py_mod X t args). Proof. reflexivity. Qed.
Lemma mod_s X o t args : py_mod X (37 :: 115 :: t) (o :: args) = cat (conv_s X o) (py_mod X t args). Proof. reflexivity. Qed.
Lemma mod_d X o t args : py_mod X (37 :: 100 :: t) (o :: args) = cat (conv_d X o) (py_mod X t args). Proof. reflexivity. Qed.
Lemma step_text_ok X s base so prev next i u b r :
  match base with None => b = $"None" | Some v => record_repr (m_env X) (m_print X) v = Ok b end ->
  record_repr (m_env X) (m_print X) u = Ok r -> repr_fails (m_env X) (N.of_nat i) = false ->
  step_text X s base so prev next i u =
  Ok ($"input=" ++ repr_str (m_print X) s ++ $", base=" ++ b ++ $", state_override=" ++ match so with None => $"None" | Some st => state_repr st end
      ++ $", state=" ++ state_repr prev ++ [32; 8594; 32] ++ state_repr next ++ $", index=" ++ dec_str (N.of_nat i) ++ $", url=" ++ r).
Proof.
  intros H K F. unfold step_text. rewrite K. assert (B : (match base with None => Ok $"None" | Some v => record_repr (m_env X) (m_print X) v end) = Ok b) by (destruct base; [exact H|now subst b]). rewrite B.
  change ($"input=%r, base=%s, state_override=%s, state=%s " ++ [8594] ++ $" %s, index=%d, url=%s")
    with ($"input=" ++ 37 :: 114 :: $", base=" ++ 37 :: 115 :: $", state_override=" ++ 37 :: 115 :: $", state=" ++ 37 :: 115 :: [32; 8594; 32] ++ 37 :: 115 :: $", index=" ++ 37 :: 100 :: $", url=" ++ 37 :: 115 :: []).
  repeat first [rewrite mod_plain by (vm_compute; reflexivity) | rewrite mod_r | rewrite mod_s | rewrite mod_d].
  cbn [py_repr conv_s conv_d py_mod]. rewrite F. cbn [cat]. rewrite app_nil_r. reflexivity.
Qed.
