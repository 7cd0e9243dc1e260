(** Termination of the state machine and the log: at most 12 state-function
    calls, no exception invented by the model, and no silent rejection. *)
From Coq Require Import Ascii String.
From Coq Require Import NArith ZArith Bool Arith Lia ZifyBool ZifyN ZifyNat List.
From Verif Require Import PyStr PyInt Codec Env HostModel UrlRecord Parser SpecText SpecHost FlatParser.
From Verif Require Import Lemmas IPv6Proofs HostProofs LoopProofs.
Import ListNotations.
Open Scope N_scope.

(** an exception carrying this log is acceptable: it is not [EFuel], and a
    URLParseError comes with at least one log entry (when [L] holds) *)
Definition loud (L : Prop) (l : log) (e : exc) : Prop :=
  e <> EFuel /\ (L -> is_url_error e = true -> l <> []).
Lemma loud_app_r L l l' e : loud L l' e -> loud L (l ++ l') e.
Proof. intros [H1 H2]. split; [auto|]. intros HL H. specialize (H2 HL H). destruct l; [auto|discriminate]. Qed.

(* ---------- hosts ---------- *)
Definition wloud {A} (w : W A) : Prop := match snd w with Ok _ => True | Err e => loud True (fst w) e end.
Lemma wloud_bind {A B} (m : W A) (k : A -> W B) : wloud m -> (forall a, wloud (k a)) -> wloud (wbind m k).
Proof.
  unfold wloud, wbind. destruct m as [l [a|e]]; cbn [fst snd]; [|auto]. intros _ H. specialize (H a).
  destruct (k a) as [l' [b|e]]; cbn [fst snd] in *; [auto|]. now apply loud_app_r.
Qed.
Lemma wloud_ret {A} (a : A) : wloud (wret a). Proof. exact I. Qed.
Lemma wloud_log v : wloud (wlog v). Proof. exact I. Qed.
Lemma wloud_fail {A} v e : e <> EFuel -> wloud (@wfail A v e). Proof. intros H. split; [auto|]. discriminate. Qed.
Lemma wloud_opt {A} e (o : option A) : e <> EFuel -> is_url_error e = false -> wloud (of_opt e o).
Proof. intros H1 H2. destruct o; [exact I|]. split; [auto|]. cbn [fst]. congruence. Qed.
Ltac wl := repeat first
  [ apply wloud_ret | apply wloud_log | apply wloud_fail; discriminate
  | apply wloud_opt; [discriminate|reflexivity] | apply wloud_bind; [|intros ?]
  | match goal with |- wloud (if ?b then _ else _) => destruct b
                  | |- wloud (match ?x with _ => _ end) => destruct x end
  | progress cbv zeta ].
Lemma ipv4_numbers_loud E parts : wloud (ipv4_numbers E parts).
Proof. induction parts; cbn [ipv4_numbers]; [apply wloud_ret|]. wl. exact IHparts. Qed.
Lemma ipv4_parse_loud E s : wloud (ipv4_parse E s).
Proof.
  unfold ipv4_parse. wl; try apply ipv4_numbers_loud; apply wloud_fail; destruct (existsb (repr_fails E) _); discriminate.
Qed.
Lemma ipv6_piece_loud E c st : wloud (ipv6_piece E c st).
Proof. unfold ipv6_piece. wl. Qed.
Lemma ipv6_sep_loud E c st : wloud (ipv6_sep E c st).
Proof. unfold ipv6_sep. wl; apply ipv6_piece_loud. Qed.
Lemma ipv6_loop_loud E rest : forall st, wloud (ipv6_loop E rest st).
Proof.
  induction rest as [|c t IH]; intros st; cbn [ipv6_loop]; wl; try apply ipv6_sep_loud; apply IH.
Qed.
Lemma ipv6_parse_loud E s : wloud (ipv6_parse E s).
Proof. unfold ipv6_parse. wl. apply ipv6_loop_loud. Qed.
Lemma domain_to_ascii_loud E b d : wloud (domain_to_ascii E b d).
Proof. unfold domain_to_ascii. wl. Qed.
Lemma host_parse_loud E h ns : wloud (host_parse E h ns).
Proof.
  unfold host_parse, parse_opaque_host.
  repeat first [ apply ipv6_parse_loud | apply domain_to_ascii_loud | apply ipv4_parse_loud
    | match goal with |- wloud (wfail _ _) => apply wloud_fail; discriminate | |- wloud (wret _) => apply wloud_ret | |- wloud (wlog _) => apply wloud_log
      | |- wloud (wbind _ _) => apply wloud_bind; [|intros ?] | |- wloud (if ?b then _ else _) => destruct b
      | |- wloud (match ?x with _ => _ end) => destruct x end
    | progress cbv zeta ].
Qed.

(* ---------- the machine ---------- *)
(** what a computation can return, whatever the record it starts from *)
Definition post (L : Prop) {A} (m : M A) (Q : A -> Prop) : Prop :=
  forall u, match snd (run m u) with Ok a => Q a | Err e => loud L (fst (m u)) e end.
Section Post.
Context (L : Prop).
Lemma post_bind {A B} (m : M A) (k : A -> M B) P Q :
  post L m P -> (forall a, P a -> post L (k a) Q) -> post L (bind m k) Q.
Proof.
  intros H1 H2 u. specialize (H1 u). unfold run, bind in *. destruct (m u) as [l [u' [a|e]]]; cbn [fst snd] in *; [|exact H1].
  specialize (H2 a H1 u'). unfold run in H2. destruct (k a u') as [l' [u'' [b|e]]]; cbn [fst snd] in *; [auto|].
  now apply loud_app_r.
Qed.
Lemma post_bind0 {A B} (m : M A) (k : A -> M B) Q :
  post L m (fun _ => True) -> (forall a, post L (k a) Q) -> post L (bind m k) Q.
Proof. intros H1 H2. eapply post_bind; [exact H1|]. auto. Qed.
Lemma post_ret {A} (a : A) (Q : A -> Prop) : Q a -> post L (ret a) Q. Proof. intros H u. exact H. Qed.
Lemma post_get : post L get (fun _ => True). Proof. intros u. exact I. Qed.
Lemma post_modify f : post L (modify f) (fun _ => True). Proof. intros u. exact I. Qed.
Lemma post_logm e : post L (logm e) (fun _ => True). Proof. intros u. exact I. Qed.
Lemma post_raise {A} e (Q : A -> Prop) : e <> EFuel -> (L -> is_url_error e = false) -> post L (raise e) Q.
Proof. intros H H2 u. split; [auto|]. intros HL. rewrite H2 by auto. discriminate. Qed.
Lemma post_fail {A} v e (Q : A -> Prop) : e <> EFuel -> post L (fail v e) Q.
Proof. intros H u. split; [auto|]. discriminate. Qed.
Lemma post_when b m : post L m (fun _ => True) -> post L (when b m) (fun _ => True).
Proof. destruct b; [auto|]. intros _ u. exact I. Qed.
Lemma post_lift {A} (w : W A) : wloud w -> post L (lift w) (fun _ => True).
Proof.
  intros H u. unfold lift, run. cbn [fst snd]. unfold wloud in H. destruct (snd w); [auto|].
  destruct H as [H1 H2]. split; auto.
Qed.
Ltac po := repeat first
  [ apply post_get | apply post_modify | apply post_logm | apply post_fail; discriminate
  | apply post_raise; [discriminate|reflexivity] | apply post_lift; apply host_parse_loud
  | apply post_when | apply post_bind0; [|intros ?]
  | match goal with |- post _ (if ?b then _ else _) _ => destruct b eqn:?
                  | |- post _ (match ?x with _ => _ end) _ => destruct x eqn:? end
  | progress cbv zeta ].
Lemma post_append x : post L (path_append x) (fun _ => True). Proof. unfold path_append. po. Qed.
Lemma post_shorten : post L shorten_path (fun _ => True). Proof. unfold shorten_path. po. Qed.
Lemma post_check c t : post L (check_unit c t) (fun _ => True). Proof. unfold check_unit. po. Qed.
Lemma post_flush c b : post L (path_flush c b) (fun _ => True).
Proof. unfold path_flush. po; auto using post_append, post_shorten. Qed.
Lemma post_query_flush E enc b : post L (query_flush E enc b) (fun _ => True).
Proof. unfold query_flush, query_append. po. Qed.

(** an upper bound on the number of state-function calls still to come *)
Definition rank (st : pstate) (rest : str) : nat :=
  match st with
  | EOF => 0
  | FRAGMENT | SCHEME => 1
  | QUERY => 2
  | OPAQUE_PATH => match rest with [] => 1 | _ => 3 end
  | PATH => 3
  | PATH_START => 4
  | PORT | FILE_HOST => 5
  | HOST | HOSTNAME | FILE_SLASH => 6
  | AUTHORITY | FILE => 7
  | SPECIAL_AUTHORITY_IGNORE_SLASHES | PATH_OR_AUTHORITY => 8
  | RELATIVE_SLASH | SPECIAL_AUTHORITY_SLASHES => 9
  | RELATIVE => 10
  | SPECIAL_RELATIVE_OR_AUTHORITY | NO_SCHEME => 11
  | SCHEME_START => 12
  end%nat.
Definition below (n : nat) (rest : str) (r : pstate * nat) : Prop :=
  (rank (fst r) (skipn (snd r) rest) < n)%nat.
Ltac fin := apply post_ret; unfold below; cbn [fst snd rank]; lia.

Lemma rank_scheme base so rest0 n t i b : (11 < n)%nat -> post L (scheme_colon base so t i b) (below n rest0).
Proof.
  intros Hn. unfold scheme_colon. po; try fin.
  apply post_ret. unfold below. cbn [fst snd rank]. destruct (skipn _ _); lia.
Qed.
Lemma overridden_L {A} so e (Q : A -> Prop) : overridden so = true -> e <> EFuel -> (L -> so = None) -> post L (raise e) Q.
Proof. intros H He HL. apply post_raise; [auto|]. intros l. rewrite (HL l) in H. discriminate. Qed.
Lemma rank_scheme_loop base so rest0 n t : (L -> so = None) -> (11 < n)%nat ->
  forall i b, post L (scheme_loop base so t i b) (below n rest0).
Proof.
  intros HL Hn. induction t as [|c t IH]; intros i b; cbn [scheme_loop].
  - destruct (overridden so) eqn:O; [now apply (overridden_L so)|fin].
  - destruct (_ || _); [apply IH|]. destruct (c =? 58); [now apply rank_scheme|].
    destruct (overridden so) eqn:O; [now apply (overridden_L so)|fin].
Qed.
Lemma rank_file_host_loop E so rest0 n t : (4 < n)%nat -> forall i b, post L (file_host_loop E so t i b) (below n rest0).
Proof.
  intros Hn. induction t as [|c t IH]; intros i b; cbn [file_host_loop]; [|destruct (mem c _); [|apply IH]];
    unfold file_host_end; po; fin.
Qed.
Lemma rank_host_loop E so rest0 n t : (5 < n)%nat -> forall i b br, post L (host_loop E so t i b br) (below n rest0).
Proof.
  intros Hn. induction t as [|c t IH]; intros i b br; cbn [host_loop].
  - unfold host_end; po; fin.
  - apply post_bind0; [apply post_get|intros u]. destruct (_ && negb br); [po; fin|].
    destruct (_ || _); [unfold host_end; po; fin|]. apply IH.
Qed.
Lemma rank_port_loop E so rest0 n t : (4 < n)%nat -> forall i b, post L (port_loop E so t i b) (below n rest0).
Proof.
  intros Hn. induction t as [|c t IH]; intros i b; cbn [port_loop].
  - unfold port_end; po; fin.
  - destruct (mem c ASCII_DIGITS); [apply IH|]. unfold port_end; po; fin.
Qed.
Lemma rank_authority_loop t : forall i b x y, post L (authority_loop t i b x y) (fun _ => True).
Proof.
  induction t as [|c t IH]; intros i b x y; cbn [authority_loop].
  - unfold authority_end. po.
  - destruct (c =? 64).
    + cbv zeta. apply post_bind0; [apply post_logm|intros _].
      destruct (if y then _ else _) as [[? ?] ?]. po. apply IH.
    + po; [|apply IH]. unfold authority_end. po.
Qed.
Lemma rank_opaque_loop rest0 n t : (2 < n)%nat -> forall i, post L (opaque_path_loop t i) (below n rest0).
Proof.
  intros Hn. induction t as [|c t IH]; intros i; cbn [opaque_path_loop]; [fin|].
  destruct (c =? 63); [po; fin|]. destruct (c =? 35); [po; fin|].
  apply post_bind0; [apply post_check|intros _]. unfold path_extend. apply post_bind0; [apply post_modify|intros _]. apply IH.
Qed.
Lemma rank_path_loop so rest0 t : forall i b, skipn i rest0 = t -> post L (path_loop so t i b) (below 3 rest0).
Proof.
  induction t as [|c t IH]; intros i b Hi; cbn [path_loop].
  - apply post_bind0; [apply post_flush|intros _]. apply post_ret. unfold below. cbn [fst snd rank]. rewrite Hi. lia.
  - assert (Hs : skipn (S i) rest0 = t).
    { clear - Hi. revert rest0 Hi. induction i as [|i IHi]; intros [|x r] Hi; cbn [skipn] in *; try discriminate; [congruence|].
      now apply IHi. }
    apply post_bind0; [apply post_get|intros u]. destruct (_ || _ || _).
    + apply post_bind0; [po|intros _]. apply post_bind0; [apply post_flush|intros _].
      destruct (c =? 63); [po; fin|]. destruct (c =? 35); [po; fin|]. now apply IH.
    + apply post_bind0; [apply post_check|intros _]. now apply IH.
Qed.
Lemma rank_query_loop E so enc rest0 t : forall i b, post L (query_loop E so enc t i b) (below 2 rest0).
Proof.
  induction t as [|c t IH]; intros i b; cbn [query_loop].
  - apply post_bind0; [apply post_when, post_query_flush|intros _]. fin.
  - destruct (_ && _).
    + apply post_bind0; [apply post_query_flush|intros _]. po. fin.
    + apply post_bind0; [apply post_check|intros _]. apply IH.
Qed.
Lemma rank_fragment_loop rest0 t : forall i b, post L (fragment_loop t i b) (below 1 rest0).
Proof.
  induction t as [|c t IH]; intros i b; cbn [fragment_loop].
  - unfold fragment_append. po; fin.
  - apply post_bind0; [apply post_check|intros _]. apply IH.
Qed.
Lemma rank_ignore rest0 t : forall i, post L (ignore_slashes_loop t i) (below 8 rest0).
Proof.
  induction t as [|c t IH]; intros i; cbn [ignore_slashes_loop]; [fin|]. destruct (mem c _); [|fin].
  apply post_bind0; [apply post_logm|intros _]. apply IH.
Qed.
Lemma rank_step E base enc so st rest : (L -> so = None) -> st <> EOF ->
  post L (step E base enc so st rest) (below (rank st rest) rest).
Proof.
  intros HL Hst. destruct st; cbn [step]; try congruence.
  - unfold parse_authority. apply post_bind0; [apply rank_authority_loop|intros k]. fin.
  - apply rank_file_host_loop. cbn; lia.
  - unfold parse_file_slash. po; try fin; try apply post_append; apply post_ret; exact I.
  - unfold parse_file. po; try fin; apply post_shorten.
  - apply rank_fragment_loop.
  - unfold parse_host. po; [fin|]. apply rank_host_loop. cbn; lia.
  - unfold parse_host. po; [fin|]. apply rank_host_loop. cbn; lia.
  - unfold parse_no_scheme. po; fin.
  - unfold parse_opaque_path. destruct rest as [|c t]; [cbn [opaque_path_loop]; fin|].
    apply rank_opaque_loop. cbn [rank]. lia.
  - unfold parse_path_or_authority. po; fin.
  - unfold parse_path_start. po; try fin; try apply post_append.
  - apply rank_path_loop. reflexivity.
  - apply rank_port_loop. cbn; lia.
  - apply rank_query_loop.
  - unfold parse_relative_slash. po; fin.
  - unfold parse_relative. po; try fin; apply post_shorten.
  - unfold parse_scheme. assert (G : post L (if overridden so then raise EURLParse else ret (NO_SCHEME, 0%nat)) (below (rank SCHEME_START rest) rest)).
    { destruct (overridden so) eqn:O; [now apply (overridden_L so)|fin]. }
    destruct rest as [|c t] eqn:R; [exact G|]. destruct (mem c ASCII_ALPHA); [|exact G]. apply rank_scheme_loop; [auto|cbn; lia].
  - apply post_raise; [discriminate|reflexivity].
  - apply rank_ignore.
  - unfold parse_special_authority_slashes. po; fin.
  - unfold parse_special_relative_or_authority. po; fin.
Qed.
Lemma run_fsm_S n E base enc so st rest : st <> EOF -> run_fsm (S n) E base enc so st rest =
  bind (step E base enc so st rest) (fun r => run_fsm n E base enc so (fst r) (skipn (snd r) rest)).
Proof. intros H. destruct st; try reflexivity; congruence. Qed.
Lemma post_fsm E base enc so : (L -> so = None) -> forall n st rest, (rank st rest <= n)%nat ->
  post L (run_fsm n E base enc so st rest) (fun _ => True).
Proof.
  intros HL. induction n as [|n IH]; intros st rest Hn.
  - destruct st; cbn [rank] in Hn; try lia; [|destruct rest; lia]. now apply post_ret.
  - assert (st = EOF \/ st <> EOF) as [->|Hst] by (destruct st; auto; right; discriminate); [now apply post_ret|].
    rewrite run_fsm_S by auto. eapply post_bind; [now apply rank_step|]. intros r Hr. apply IH. unfold below in Hr. lia.
Qed.
End Post.

Lemma rank_le st rest : (rank st rest <= 12)%nat.
Proof. destruct st; cbn [rank]; try lia. destruct rest; lia. Qed.

(** number of state-function calls made by the loop (parse.py:4198-4305) *)
Inductive calls (E : env) (base : option urlrec) (enc : str) (so : option pstate) :
  nat -> pstate -> str -> urlrec -> Prop :=
| calls_eof rest u : calls E base enc so 0 EOF rest u
| calls_raise st rest u u' e : st <> EOF -> run (step E base enc so st rest) u = (u', Err e) ->
    calls E base enc so 1 st rest u
| calls_next n st rest u st' k u' : st <> EOF -> run (step E base enc so st rest) u = (u', Ok (st', k)) ->
    calls E base enc so n st' (skipn k rest) u' -> calls E base enc so (S n) st rest u.

Lemma calls_rank E base enc so : forall m st rest u, (rank st rest <= m)%nat ->
  exists n, (n <= rank st rest)%nat /\ calls E base enc so n st rest u.
Proof.
  induction m as [|m IH]; intros st rest u Hm.
  - exists 0%nat. split; [lia|]. destruct st; cbn [rank] in Hm; try lia; [|destruct rest; lia]. constructor.
  - assert (st = EOF \/ st <> EOF) as [->|Hst] by (destruct st; auto; right; discriminate).
    + exists 0%nat. split; [lia|constructor].
    + pose proof (rank_step False E base enc so st rest (fun f => match f with end) Hst u) as R.
      destruct (run (step E base enc so st rest) u) as [u' [[st' k]|e]] eqn:Q; cbn [snd fst] in R.
      * unfold below in R. cbn [fst snd] in R. destruct (IH st' (skipn k rest) u') as (n & Hn & C); [lia|].
        exists (S n). split; [lia|]. eapply calls_next; eauto.
      * exists 1%nat. split; [|eapply calls_raise; eauto]. destruct st; cbn [rank]; try lia; [congruence|destruct rest; lia].
Qed.
Lemma calls_bounded E base enc so st rest u : exists n, (n <= 12)%nat /\ calls E base enc so n st rest u.
Proof.
  destruct (calls_rank E base enc so _ st rest u (le_n _)) as (n & H & C). exists n. split; auto.
  pose proof (rank_le st rest). lia.
Qed.
Lemma calls_fun E base enc so n st rest u : calls E base enc so n st rest u ->
  forall m, calls E base enc so m st rest u -> n = m.
Proof.
  induction 1; intros m H'; inversion H'; subst; try congruence.
  f_equal. apply IHcalls. congruence.
Qed.
Lemma calls_le E base enc so n st rest u : calls E base enc so n st rest u -> (n <= 12)%nat.
Proof.
  intros H. destruct (calls_bounded E base enc so st rest u) as (m & Hm & C).
  now rewrite (calls_fun _ _ _ _ _ _ _ _ H _ C).
Qed.

Lemma fsm_no_fuel_error E base enc so n st rest u : (12 <= n)%nat ->
  snd (run (run_fsm n E base enc so st rest) u) <> Err EFuel.
Proof.
  intros Hn. pose proof (rank_le st rest).
  pose proof (post_fsm False E base enc so (fun f => match f with end) n st rest ltac:(lia) u) as P.
  destruct (snd (run _ u)); [discriminate|]. destruct P as [P _]. congruence.
Qed.
Lemma bind_ext {A B} (m : M A) (f g : A -> M B) u : (forall l u' a, m u = (l, (u', Ok a)) -> f a u' = g a u') ->
  bind m f u = bind m g u.
Proof. intros H. unfold bind. destruct (m u) as [l [u' [a|e]]]; auto. now rewrite (H l u' a). Qed.
(** the fuel of the model does not matter *)
Lemma fsm_fuel E base enc so : forall n m st rest u, (rank st rest <= n)%nat -> (rank st rest <= m)%nat ->
  run_fsm n E base enc so st rest u = run_fsm m E base enc so st rest u.
Proof.
  induction n as [|n IH]; intros m st rest u Hn Hm.
  - assert (st = EOF) as -> by (destruct st; cbn [rank] in Hn; try lia; [reflexivity|destruct rest; lia]). destruct m; reflexivity.
  - assert (st = EOF \/ st <> EOF) as [->|Hst] by (destruct st; auto; right; discriminate); [destruct m; reflexivity|].
    destruct m as [|m].
    { exfalso. destruct st; cbn [rank] in Hm; try lia; [congruence|destruct rest; lia]. }
    rewrite !run_fsm_S by auto. apply bind_ext. intros l u' a Ha.
    pose proof (rank_step False E base enc so st rest (fun f => match f with end) Hst u) as R.
    unfold run in R. rewrite Ha in R. cbn [fst snd] in R. unfold below in R. apply IH; lia.
Qed.

(** whoever rejects a URL with a URLParseError has logged something *)
Lemma parse_new_loud E s base encoding e :
  snd (parse_new E s base encoding) = Err e -> is_url_error e = true -> fst (parse_new E s base encoding) <> [].
Proof.
  intros H1 H2. unfold parse_new in *.
  assert (P : post True (when (needs_strip s) (logm VInvalidURLUnit);; parse_into E (strip_c0 s) base encoding None) (fun _ => True)).
  { apply post_bind0; [apply post_when, post_logm|intros _]. unfold parse_into.
    apply post_bind0; [apply post_when, post_logm|intros _]. apply post_fsm; auto. pose proof (rank_le SCHEME_START (remove_tabs (strip_c0 s))). unfold FSM_FUEL. lia. }
  specialize (P new_url). unfold run in P.
  destruct ((when (needs_strip s) (logm VInvalidURLUnit);; parse_into E (strip_c0 s) base encoding None) new_url) as [l [u [a|e']]];
    cbn [fst snd] in *; [discriminate|]. destruct P as [_ P]. apply P; auto. congruence.
Qed.
