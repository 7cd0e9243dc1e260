(** Levels of the log calls of MsgHost.v, MsgParser.v and MsgApi.v. *)
From Coq Require Import Ascii String.
From Coq Require Import NArith ZArith Bool Arith Lia ZifyBool ZifyN ZifyNat List.
From Verif Require Import PyStr PyInt Codec Env HostModel UrlRecord Parser SearchParams UrlApi Repr Message MsgHost MsgParser MsgApi MsgProofs SpecLevels.
Import ListNotations.
Open Scope N_scope.

(* formatting raises no URL errors *)
Lemma repr_err E pr : forall o e, py_repr E pr o = Err e -> is_url_error e = false.
Proof.
  fix F 1. intros [|n|s|tp l] e; cbn [py_repr]; try discriminate.
  - destruct (repr_fails E n); [|discriminate]. now intros [= <-].
  - destruct (all_ok (map (py_repr E pr) l)) as [ts|e'] eqn:Q; [discriminate|]. intros [= <-]. revert Q.
    induction l as [|o l IH]; cbn [map all_ok]; [discriminate|]. destruct (py_repr E pr o) as [a|e1] eqn:Q1; [|intros [= <-]; exact (F o e1 Q1)].
    destruct (all_ok (map (py_repr E pr) l)) as [r|e2]; [discriminate|]. intros [= <-]. now apply IH.
Qed.
Lemma cat_err a b e : (forall e, a = Err e -> is_url_error e = false) -> (forall e, b = Err e -> is_url_error e = false) -> cat a b = Err e -> is_url_error e = false.
Proof. intros H K. unfold cat. destruct a as [x|e1]; [destruct b as [y|e2]; [discriminate|]|]; intros [= <-]; auto. Qed.
Lemma conv_err X k o e : match k with 0 => py_repr (m_env X) (m_print X) o | 1 => conv_s X o | 2 => conv_d X o | _ => conv_x o end = Err e -> is_url_error e = false.
Proof.
  destruct k as [|[p|p|]]; [apply repr_err| | |]; try (destruct p); unfold conv_s, conv_d, conv_x; destruct o; try discriminate; try apply repr_err; now intros [= <-].
Qed.
Lemma mod_err X : forall n fmt args e, (length fmt <= n)%nat -> py_mod X fmt args = Err e -> is_url_error e = false.
Proof.
  induction n as [|n IH]; intros [|c t] args e L; cbn [length] in L; try lia; cbn [py_mod].
  - destruct args; [discriminate|]. now intros [= <-].
  - destruct args; [discriminate|]. now intros [= <-].
  - destruct (negb (c =? 37)); [apply cat_err; [discriminate|]; intros e'; apply IH; lia|].
    destruct t as [|k t1]; [now intros [= <-]|]. cbn [length] in L. destruct (k =? 37); [apply cat_err; [discriminate|]; intros e'; apply IH; lia|].
    destruct args as [|o args]; [now intros [= <-]|].
    destruct (k =? 114); [apply cat_err; [intros e'; apply (conv_err X 0)|intros e'; apply IH; lia]|].
    destruct (k =? 115); [apply cat_err; [intros e'; apply (conv_err X 1)|intros e'; apply IH; lia]|].
    destruct (k =? 100); [apply cat_err; [intros e'; apply (conv_err X 2)|intros e'; apply IH; lia]|].
    destruct t1 as [|k2 [|k3 t3]]; try (now intros [= <-]). cbn [length] in L. destruct (_ && _); [|now intros [= <-]].
    apply cat_err; [intros e'; apply (conv_err X 3)|intros e'; apply IH; lia].
Qed.

Section Levels.
Context (X : menv) (Q : Prop).
Local Notation E := (m_env X).
Definition gw {A} (m : MW A) : Prop := levels Q (fst m) (snd m).
Definition gm {A} (R : A -> Prop) (m : MM A) : Prop := forall u, levels Q (fst (m u)) (snd (snd (m u))) /\ forall a, snd (snd (m u)) = MOk a -> R a.

Lemma noted_info msg args : gw (noted X INFO msg args).
Proof.
  unfold noted, gw. destruct (format_msg X msg args) as [t|e] eqn:F; cbn [fst snd levels]; [repeat constructor|].
  assert (Ue : is_url_error e = false) by (unfold format_msg in F; destruct args; [discriminate F|]; exact (mod_err X _ _ _ _ (le_n _) F)).
  destruct (has_validity E); cbn [levels]; [right; split; [repeat constructor|]; congruence|repeat constructor].
Qed.
Lemma info_app l l' : informs l -> informs l' -> informs (l ++ l').
Proof. intros H K. apply Forall_app. now split. Qed.
Lemma levels_more {A} l l' (r : mres A) : informs l -> levels Q l' r -> levels Q (l ++ l') r.
Proof.
  intros H. destruct r as [a|e t]; cbn [levels]; [now apply info_app|]. intros [(l0 & en & -> & K1 & K2)|(K1 & K2)].
  - left. exists (l ++ l0), en. split; [apply app_assoc|]. split; [now apply info_app|exact K2].
  - right. split; [now apply info_app|exact K2].
Qed.
Lemma gw_ret {A} (a : A) : gw (mw_ret a). Proof. constructor. Qed.
Lemma gw_exc {A} e : is_url_error e = false -> gw (@mw_exc A e).
Proof. intros H. right. split; [constructor|]. congruence. Qed.
Lemma gw_opt {A} e (o : option A) : is_url_error e = false -> gw (mw_opt e o).
Proof. intros H. destruct o; [apply gw_ret|now apply gw_exc]. Qed.
Lemma gw_bind {A B} (m : MW A) (f : A -> MW B) : gw m -> (forall a, gw (f a)) -> gw (mw_bind m f).
Proof.
  unfold gw, mw_bind. destruct m as [l [a|e t]]; cbn [fst snd]; intros H K; [|exact H]. specialize (K a). destruct (f a) as [l' r]. cbn [fst snd] in *. now apply levels_more.
Qed.
Lemma gw_note msg args : gw (mw_note X msg args). Proof. apply noted_info. Qed.
Lemma fail_alarms msg args : alarms (fst (noted X ERROR msg args)).
Proof. unfold noted. destruct (format_msg X msg args); eexists [], _; (split; [reflexivity|split; [constructor|reflexivity]]). Qed.
Lemma gw_fail {A} msg args e fmt args' : gw (@mw_fail A X msg args e fmt args').
Proof.
  unfold gw, mw_fail, mw_bind. pose proof (fail_alarms msg args) as H. destruct (noted X ERROR msg args) as [l [a|e' t]]; cbn [fst snd] in *; [|now left].
  rewrite app_nil_r. unfold raised. destruct (py_mod X fmt args'); now left.
Qed.
Ltac gw1 :=
  lazymatch goal with
  | |- gw (mw_ret _) => apply gw_ret | |- gw (mw_exc _) => apply gw_exc; reflexivity | |- gw (mw_opt _ _) => apply gw_opt; reflexivity
  | |- gw (mw_fail _ _ _ _ _ _) => apply gw_fail | |- gw (mw_note _ _ _) => apply gw_note | |- gw (mw_bind _ _) => apply gw_bind; [|intros]
  | |- gw (let _ := _ in _) => cbv zeta
  | |- gw (if ?b then _ else _) => destruct b | |- gw (match ?x with _ => _ end) => destruct x
  end.
Ltac gws := repeat gw1.
Lemma gw_ascii s d : gw (m_domain_to_ascii X s d). Proof. unfold m_domain_to_ascii. gws. Qed.
Lemma gw_unicode s d : gw (m_domain_to_unicode X s d). Proof. unfold m_domain_to_unicode. gws. Qed.
Lemma gw_v4 a : gw (m_ipv4_parse X a).
Proof.
  assert (K : forall ps, gw (m_ipv4_numbers X a ps)) by (induction ps as [|p t IH]; cbn [m_ipv4_numbers]; cbv zeta; [apply gw_ret|]; destruct (fst _ <? 0)%Z; [apply gw_fail|]; apply gw_bind; [gws|]; intros _; apply gw_bind; [exact IH|]; intros; apply gw_ret).
  unfold m_ipv4_parse. cbv zeta. apply gw_bind; [gws|]. intros _. destruct (4 <? _)%nat; [apply gw_fail|]. apply gw_bind; [apply K|]. intros ns. gws.
Qed.
Lemma gw_v6 a : gw (m_ipv6_parse X a).
Proof.
  assert (P : forall c st, gw (m_ipv6_piece X a c st)) by (intros; unfold m_ipv6_piece; gws).
  assert (S' : forall c st, gw (m_ipv6_sep X a c st)) by (intros; unfold m_ipv6_sep, m_ipv6_ends; gws; apply P).
  assert (Lp : forall r st, gw (m_ipv6_loop X a r st)) by (induction r as [|c t IH]; intros st; cbn [m_ipv6_loop]; gws; first [apply S'|apply IH]).
  unfold m_ipv6_parse. gws. apply Lp.
Qed.
Lemma gw_host h ns : gw (m_host_parse X h ns).
Proof. unfold m_host_parse, m_parse_opaque_host. repeat first [apply gw_v6|apply gw_ascii|apply gw_v4|gw1]. Qed.

Lemma gm_ret {A} (R : A -> Prop) a : R a -> gm R (mm_ret a). Proof. intros H u. split; [constructor|]. now intros b [= <-]. Qed.
Lemma gm_exc {A} (R : A -> Prop) e : is_url_error e = false -> gm R (mm_exc e). Proof. intros H u. split; [|discriminate]. right. split; [constructor|]. congruence. Qed.
Lemma gm_get : gm (fun _ => True) mm_get. Proof. intros u. split; [constructor|trivial]. Qed.
Lemma gm_set f : gm (fun _ => True) (mm_set f). Proof. intros u. split; [constructor|trivial]. Qed.
Lemma gm_bind {A B} (R : B -> Prop) (m : MM A) (f : A -> MM B) : gm (fun _ => True) m -> (forall a, gm R (f a)) -> gm R (mm_bind m f).
Proof.
  intros H K u. unfold mm_bind. destruct (H u) as (H1 & _). destruct (m u) as [l [v [a|e t]]]; cbn [fst snd] in *; [|split; [exact H1|discriminate]]. destruct (K a v) as (K1 & K2). destruct (f a v) as [l' [w r]]. cbn [fst snd] in *. split; [now apply levels_more|exact K2].
Qed.
Lemma gm_bind2 {A B} (P : A -> Prop) (R : B -> Prop) (m : MM A) (f : A -> MM B) : gm P m -> (forall a, P a -> gm R (f a)) -> gm R (mm_bind m f).
Proof.
  intros H K u. unfold mm_bind. destruct (H u) as (H1 & H2). destruct (m u) as [l [v [a|e t]]]; cbn [fst snd] in *; [|split; [exact H1|discriminate]]. destruct (K a (H2 a eq_refl) v) as (K1 & K2). destruct (f a v) as [l' [w r]]. cbn [fst snd] in *. split; [now apply levels_more|exact K2].
Qed.
Lemma gm_when b m : gm (fun _ => True) m -> gm (fun _ => True) (mm_when b m). Proof. intros H. destruct b; [exact H|now apply gm_ret]. Qed.
Lemma gm_lift {A} (w : MW A) : gw w -> gm (fun _ => True) (mm_lift w). Proof. intros H u. split; [exact H|trivial]. Qed.
Lemma gm_note msg args : gm (fun _ => True) (mm_note X msg args). Proof. apply gm_lift, noted_info. Qed.
Lemma gm_fail {A} (R : A -> Prop) msg args e fmt args' : gm R (@mm_fail A X msg args e fmt args').
Proof.
  intros u. split.
  - pose proof (@gw_fail A msg args e fmt args') as W. unfold mm_fail, mm_bind, mm_lift, mm_raise, gw, mw_fail, mw_bind in *. destruct (noted X ERROR msg args) as [l [a|e0 t]]; exact W.
  - unfold mm_fail, mm_bind, mm_lift, mm_raise, raised. destruct (noted X ERROR msg args) as [l [a|e0 t]]; cbn [fst snd]; [|discriminate]. destruct (py_mod X fmt args'); discriminate.
Qed.
Lemma gm_raise {A} (R : A -> Prop) fmt args e : Q -> gm R (@mm_raise A X e fmt args).
Proof. intros H u. unfold mm_raise, raised. destruct (py_mod X fmt args); (split; [right; split; [constructor|now intros _]|discriminate]). Qed.
Lemma gm_act {A} (m : M A) : quiet m -> gm (fun _ => True) (act m).
Proof. intros H u. split; [|trivial]. destruct (H u) as (_ & H2). unfold act. destruct (m u) as [l [v [a|e]]]; cbn [fst snd] in *; [constructor|]. right. split; [constructor|congruence]. Qed.

Context (so : option pstate).
(* no state goes back to the first one *)
Definition on (r : pstate * nat) : Prop := fst r <> SCHEME_START.
Ltac gm1 :=
  lazymatch goal with
  | |- gm _ (mm_ret _) => apply gm_ret; first [exact I | (unfold on; discriminate)]
  | |- gm _ (mm_exc _) => apply gm_exc; reflexivity | |- gm _ mm_get => apply gm_get | |- gm _ (mm_set _) => apply gm_set
  | |- gm _ (mm_fail _ _ _ _ _ _) => apply gm_fail | |- gm _ (mm_note _ _ _) => apply gm_note | |- gm _ (mm_when _ _) => apply gm_when
  | |- gm _ (act _) => apply gm_act; first [apply q_append | apply q_shorten | apply q_fragment | apply q_extend | apply q_flush | apply q_query]
  | |- gm _ (note_solidus _ _ _) => apply gm_note
  | |- gm _ (mm_lift (m_host_parse _ _ _)) => apply gm_lift, gw_host | |- gm _ (mm_bind _ _) => apply gm_bind; [|intros]
  | |- gm _ (let _ := _ in _) => cbv zeta
  | |- gm _ (if ?b then _ else _) => destruct b eqn:? | |- gm _ (match ?x with _ => _ end) => destruct x
  end.
Ltac gms := repeat gm1.
Lemma gm_unit s i c : gm (fun _ => True) (m_check_unit X s i c). Proof. unfold m_check_unit. gms. Qed.
Ltac gmu := repeat first [gm1|apply gm_unit].
Lemma gm_scheme base s i : (overridden so = true -> Q) -> gm on (m_parse_scheme X s i base so).
Proof.
  intros HQ. unfold m_parse_scheme, m_no_alpha. cbv zeta. destruct (cur (slice i (i + 1) s)) as [c|]; [destruct (mem c ASCII_ALPHA)|]; [|gms; now apply gm_raise, HQ|gms; now apply gm_raise, HQ].
  set (l := from (i + 1) s). clearbody l. generalize (i + 1)%nat [c]. induction l as [|d t IH]; intros j b; cbn [m_scheme_loop]; unfold m_no_colon; [gms; now apply gm_raise, HQ|].
  destruct (_ || _); [apply IH|]. destruct (d =? 58); [unfold m_scheme_colon; gms|]. gms. now apply gm_raise, HQ.
Qed.
Lemma gm_authority s i : gm on (m_parse_authority X s i).
Proof. unfold m_parse_authority. apply gm_bind; [|intros; gms]. set (l := from i s). clearbody l. cut (forall j b x y, gm (fun _ => True) (m_authority_loop X s l j b x y)); [intros H; apply H|]. induction l as [|c t IH]; intros j b x y; cbn [m_authority_loop]; unfold m_authority_end; gms; apply IH. Qed.
Lemma gm_host s i : gm on (m_parse_host X s i so).
Proof. unfold m_parse_host. gms. set (l := from i s). clearbody l. generalize i ([] : str) false. induction l as [|c t IH]; intros j b x; cbn [m_host_loop]; unfold m_host_end; gms; apply IH. Qed.
Lemma gm_port s i : gm on (m_parse_port X s i so).
Proof. unfold m_parse_port. set (l := from i s). clearbody l. generalize i ([] : str). induction l as [|c t IH]; intros j b; cbn [m_port_loop]; unfold m_port_end; gms; apply IH. Qed.
Lemma gm_file_host s i : gm on (m_parse_file_host X s i so).
Proof. unfold m_parse_file_host. set (l := from i s). clearbody l. generalize i ([] : str). induction l as [|c t IH]; intros j b; cbn [m_file_host_loop]; unfold m_file_host_end; gms; apply IH. Qed.
Lemma gm_ignore s i : gm on (m_parse_ignore_slashes X s i).
Proof. unfold m_parse_ignore_slashes. set (l := from i s). clearbody l. generalize i. induction l as [|c t IH]; intros j; cbn [m_ignore_slashes_loop]; gms; apply IH. Qed.
Lemma gm_path s i : gm on (m_parse_path X s i so).
Proof. unfold m_parse_path. set (l := from i s). clearbody l. generalize i ([] : str). induction l as [|c t IH]; intros j b; cbn [m_path_loop]; gmu; apply IH. Qed.
Lemma gm_opaque s i : gm on (m_parse_opaque_path X s i).
Proof. unfold m_parse_opaque_path. set (l := from i s). clearbody l. generalize i. induction l as [|c t IH]; intros j; cbn [m_opaque_path_loop]; gmu; apply IH. Qed.
Lemma gm_query s i enc : gm on (m_parse_query X s i so enc).
Proof. unfold m_parse_query. set (l := from i s). clearbody l. generalize i ([] : str). induction l as [|c t IH]; intros j b; cbn [m_query_loop]; gmu; apply IH. Qed.
Lemma gm_fragment s i : gm on (m_parse_fragment X s i).
Proof. unfold m_parse_fragment. set (l := from i s). clearbody l. generalize i ([] : str). induction l as [|c t IH]; intros j b; cbn [m_fragment_loop]; gmu; apply IH. Qed.
Lemma gm_step base enc st s i : (st = SCHEME_START -> overridden so = true -> Q) -> gm on (m_step X base enc so st s i).
Proof.
  intros HQ. destruct st; cbn [m_step];
    first [apply gm_scheme; now apply HQ | apply gm_authority | apply gm_host | apply gm_port | apply gm_file_host | apply gm_ignore | apply gm_path | apply gm_opaque | apply gm_query | apply gm_fragment
          | unfold m_parse_no_scheme, m_missing_scheme, m_special_slashes, m_parse_path_or_authority, m_parse_relative, m_parse_relative_slash, m_parse_file, m_parse_file_slash, m_parse_path_start; solve [gms]].
Qed.
Lemma gm_run base enc fuel : forall st s i, (st = SCHEME_START -> overridden so = true -> Q) -> gm (fun _ => True) (m_run X fuel base enc so st s i).
Proof.
  induction fuel as [|f IH]; intros st s i HQ.
  - destruct st; cbn [m_run]; first [now apply gm_exc | now apply gm_ret].
  - assert (G : gm (fun _ => True) (r <m m_step X base enc so st s i ;; m_run X f base enc so (fst r) s (snd r))).
    { eapply gm_bind2; [apply gm_step; exact HQ|]. intros r Hr. apply IH. intros K. contradiction. }
    destruct st; cbn [m_run]; first [exact G | now apply gm_ret].
Qed.
Lemma gm_into s base enc : (so = Some SCHEME_START -> Q) -> gm (fun _ => True) (m_parse_into X s base enc so).
Proof.
  intros HQ. unfold m_parse_into. apply gm_bind; [apply gm_when, gm_note|]. intros _. apply gm_run. destruct so as [st|]; [|discriminate]. intros K _. apply HQ. now f_equal.
Qed.
End Levels.

Lemma gw_new X s base enc : gw False (m_parse_new X s base enc).
Proof.
  unfold m_parse_new.
  assert (H : gm False (fun _ => True) (mm_when (needs_strip s) (mm_note X $"invalid-URL-unit: remove any leading and trailing C0 control or space from %r" [PStr s]) >m m_parse_into X (strip_c0 s) base enc None)).
  { apply gm_bind; [apply gm_when, gm_note|]. intros _. apply gm_into. discriminate. }
  destruct (H new_url) as (H' & _). destruct ((_ >m _) new_url) as [l [u [a|e t]]]; exact H'.
Qed.
Lemma gw_parse_url X s base enc : gw False (m_parse_url X s base enc).
Proof. unfold m_parse_url. apply gw_bind; [destruct base; first [apply gw_ret | (apply gw_bind; [apply gw_new|intros; apply gw_ret])]|intros; apply gw_new]. Qed.
Lemma gw_url_new X s base : gw False (m_url_new X s base).
Proof. unfold m_url_new. apply gw_bind; [apply gw_parse_url|intros; apply gw_ret]. Qed.
Lemma gs_attr X s o : levels (exists v, s = SetProtocol v) (fst (m_set_attr X s o)) (snd (snd (m_set_attr X s o))).
Proof.
  assert (R : forall (Q : Prop) so v u, (so = SCHEME_START -> Q) -> levels Q (fst (m_reparse X v so u)) (snd (snd (m_reparse X v so u)))).
  { intros Q so v u H. unfold m_reparse. apply (gm_into (unchecked X) Q (Some so)). intros [= K]. now apply H. }
  set (Q := exists w, s = SetProtocol w). assert (K : forall w, s = SetProtocol w -> Q) by (intros w H; now exists w). clearbody Q.
  destruct s as [v|v|v|v|v|v|v|v|v|v]; cbn [m_set_attr]; cbv zeta; unfold m_with_url;
    repeat match goal with |- levels _ (fst (if ?b then _ else _)) _ => destruct b | |- levels _ (fst (match ?x with _ => _ end)) _ => is_var x; destruct x end;
    cbn [fst snd levels]; try (constructor; fail); try (apply R; first [discriminate | (intros _; eapply K; reflexivity)]).
  - assert (H : gw Q (m_parse_new (unchecked X) v None UTF8)).
    { pose proof (gw_new (unchecked X) v None UTF8) as G. unfold gw, levels in *. destruct (snd (m_parse_new (unchecked X) v None UTF8)); [exact G|]. destruct G as [G|(G1 & G2)]; [now left|]. right. split; [exact G1|]. intros U. now apply G2 in U. }
    unfold gw in H. destruct (m_parse_new (unchecked X) v None UTF8) as [l [u|e t]]; exact H.
  - destruct v as [|c v]; [constructor|]. match goal with |- context [m_reparse X ?a ?b ?c] => pose proof (R Q b a c ltac:(discriminate)) as H; destruct (m_reparse X a b c) as [l [u [[]|e t]]] end; exact H.
Qed.
