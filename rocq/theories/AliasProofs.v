(** BasicURLParser.parse called with one object as [url] and as [base] (C139): what the
    heap version does, in terms of values, and when it is resolution in place. *)
From Coq Require Import Ascii String.
From Coq Require Import NArith ZArith Bool Arith Lia ZifyBool ZifyN ZifyNat List.
From Verif Require Import PyStr PyInt Codec Env HostModel UrlRecord Parser HeapParser HeapProofs Lemmas FlatParser LoopProofs UrlProps WritingProofs StandardProofs OverrideProofs
  SpecText SpecUrl SpecParser SpecWriting.
Import ListNotations.
Open Scope N_scope.

(* ---------- the value that the base has while a state function runs ---------- *)
Definition alias_base (st : pstate) (rest : str) (u : urlrec) : urlrec :=
  match st with
  | SCHEME_START => set_scheme (lower (fst (span is_scheme_char rest))) u
  | FILE => set_host (Some (HStr [])) (set_scheme $"file" u)
  | _ => u
  end.
Definition self_step (E : env) (enc : str) (so : option pstate) (st : pstate) (rest : str) : M (pstate * nat) :=
  fun u => step E (Some (alias_base st rest u)) enc so st rest u.
Fixpoint self_fsm (fuel : nat) (E : env) (enc : str) (so : option pstate) (st : pstate) (rest : str) : M unit :=
  match st with
  | EOF => ret tt
  | _ =>
      match fuel with
      | O => raise EFuel
      | S f => r <- self_step E enc so st rest ;; self_fsm f E enc so (fst r) (skipn (snd r) rest)
      end
  end.
Definition self_into (E : env) (s enc : str) (so : option pstate) : M unit :=
  when (existsb is_tab_newline s) (logm VInvalidURLUnit) ;;
  self_fsm FSM_FUEL E (normalize_encoding E enc) so (match so with Some st => st | None => SCHEME_START end) (remove_tabs s).

Section Self.
Context (h0 : heap) (PO PC : nat -> Prop) (me : nat).
Notation simm := (sim h0 PO PC me).

Lemma sim_ext {A} (hm : HM A) (m m' : M A) : (forall u, m u = m' u) -> simm hm m -> simm hm m'.
Proof. intros Q H h I. rewrite <- Q. now apply H. Qed.
Lemma sim_copy_me : simm (hcopy_path me me) (modify (fun u => set_path (path u) u)).
Proof.
  intros h I. unfold hcopy_path. destruct (o_path (obj_at h me)) as [s|l] eqn:Q.
  - pose proof (sim_text h0 PO PC me s h I) as G. unfold modify in *. cbv beta in *.
    replace (path (read h me)) with (POpaque s) by (unfold read, view, deref; rewrite Q; reflexivity). exact G.
  - pose proof (sim_list h0 PO PC me (nth l (cells h) []) h I) as G. unfold modify in *. cbv beta in *.
    replace (path (read h me)) with (PList (nth l (cells h) [])) by (unfold read, view, deref; rewrite Q; reflexivity). exact G.
Qed.
Ltac ss := repeat first
  [ apply sim_ret | apply sim_raise | apply sim_fail | apply sim_log | apply sim_get | apply sim_append | apply sim_shorten | apply sim_extend | apply sim_text | apply sim_list
  | apply sim_copy_me
  | apply sim_set; intros ? []; reflexivity | apply sim_when | apply sim_bind; [|intros ?]
  | match goal with |- sim _ _ _ _ (if ?b then _ else _) _ => destruct b | |- sim _ _ _ _ (match ?x with _ => _ end) _ => destruct x end ].

Definition self_file (rest : str) : M (pstate * nat) :=
  modify (set_scheme $"file") ;;
  modify (set_host (Some (HStr []))) ;;
  let c := cur rest in
  if iscp c $"/\" then
    when (isc c 92) (logm VInvalidReverseSolidus) ;; ret (FILE_SLASH, 1%nat)
  else
    b <- get ;;
    if str_eqb (scheme b) $"file" then
      modify (set_host (uhost b)) ;;
      modify (fun u => set_path (path u) u) ;;
      modify (set_query (query b)) ;;
      if isc c 63 then modify (set_query (Some [])) ;; ret (QUERY, 1%nat)
      else if isc c 35 then modify (set_fragment (Some [])) ;; ret (FRAGMENT, 1%nat)
      else if negb (iseof c) then
        modify (set_query None) ;;
        (if negb (starts_with_windows_drive_letter rest)
         then shorten_path
         else logm VFileDriveLetter ;; modify (set_path (PList []))) ;;
        ret (PATH, 0%nat)
      else ret (PATH, 0%nat)
    else ret (PATH, 0%nat).
Definition self_file_slash (rest : str) : M (pstate * nat) :=
  let c := cur rest in
  if iscp c $"/\" then
    when (isc c 92) (logm VInvalidReverseSolidus) ;; ret (FILE_HOST, 1%nat)
  else
    b <- get ;;
    if str_eqb (scheme b) $"file" then
      modify (set_host (uhost b)) ;;
      b <- get ;;
      match path b with
      | PList (s :: _) =>
          when (negb (starts_with_windows_drive_letter rest)
                && is_normalized_windows_drive_letter s)
            (u <- get ;; match path u with POpaque _ => raise EAssert | PList _ => path_append s end)
      | _ => ret tt
      end ;;
      ret (PATH, 0%nat)
    else ret (PATH, 0%nat).
Definition self_no_scheme (rest : str) : M (pstate * nat) :=
  let c := cur rest in
  b <- get ;;
  if has_opaque_path b && negb (isc c 35) then fail VMissingScheme EURLParse
  else if has_opaque_path b && isc c 35 then
    modify (set_scheme (scheme b)) ;;
    modify (fun u => set_path (path u) u) ;;
    modify (set_query (query b)) ;;
    modify (set_fragment (Some [])) ;;
    ret (FRAGMENT, 1%nat)
  else if negb (str_eqb (scheme b) $"file") then ret (RELATIVE, 0%nat)
  else ret (FILE, 0%nat).
Definition self_relative (rest : str) : M (pstate * nat) :=
  b <- get ;;
  if str_eqb (scheme b) $"file" then raise EAssert
  else
    modify (set_scheme (scheme b)) ;;
    let c := cur rest in
    u <- get ;;
    if isc c 47 then ret (RELATIVE_SLASH, 1%nat)
    else if is_special u && isc c 92 then
      logm VInvalidReverseSolidus ;; ret (RELATIVE_SLASH, 1%nat)
    else
      b <- get ;;
      modify (set_username (username b)) ;;
      modify (set_password (password b)) ;;
      modify (set_host (uhost b)) ;;
      modify (set_port (port b)) ;;
      modify (fun u => set_path (path u) u) ;;
      modify (set_query (query b)) ;;
      if isc c 63 then modify (set_query (Some [])) ;; ret (QUERY, 1%nat)
      else if isc c 35 then modify (set_fragment (Some [])) ;; ret (FRAGMENT, 1%nat)
      else if negb (iseof c) then
        modify (set_query None) ;; shorten_path ;; ret (PATH, 0%nat)
      else ret (EOF, 0%nat).
Definition self_relative_slash (rest : str) : M (pstate * nat) :=
  let c := cur rest in
  u <- get ;;
  if is_special u && iscp c $"/\" then
    when (isc c 92) (logm VInvalidReverseSolidus) ;;
    ret (SPECIAL_AUTHORITY_IGNORE_SLASHES, 1%nat)
  else if isc c 47 then ret (AUTHORITY, 1%nat)
  else
    b <- get ;;
    modify (set_username (username b)) ;;
    modify (set_password (password b)) ;;
    modify (set_host (uhost b)) ;;
    modify (set_port (port b)) ;;
    ret (PATH, 0%nat).

Lemma sim_self_file rest : simm (hparse_file me rest (Some me)) (self_file rest).
Proof. unfold hparse_file, self_file. cbv zeta. ss. Qed.
Lemma sim_self_file_slash rest : simm (hparse_file_slash me rest (Some me)) (self_file_slash rest).
Proof. unfold hparse_file_slash, self_file_slash. cbv zeta. ss. Qed.
Lemma sim_self_no_scheme rest : simm (hparse_no_scheme me rest (Some me)) (self_no_scheme rest).
Proof. unfold hparse_no_scheme, self_no_scheme. cbv zeta. ss. Qed.
Lemma sim_self_relative rest : simm (hparse_relative me rest (Some me)) (self_relative rest).
Proof. unfold hparse_relative, self_relative. cbv zeta. ss. Qed.
Lemma sim_self_relative_slash rest : simm (hparse_relative_slash me rest (Some me)) (self_relative_slash rest).
Proof. unfold hparse_relative_slash, self_relative_slash. cbv zeta. ss. Qed.

Lemma bind_get {A} (k : urlrec -> M A) u : bind get k u = k u u.
Proof. unfold bind, get. destruct (k u u). reflexivity. Qed.
Lemma bind_modify {A} f (k : unit -> M A) u : bind (modify f) k u = k tt (f u).
Proof. unfold bind, modify. destruct (k tt (f u)). reflexivity. Qed.
Ltac bs := repeat (rewrite bind_get || rewrite bind_modify).
Lemma file_eq rest u : self_file rest u = parse_file rest (Some (alias_base FILE rest u)) u.
Proof.
  unfold self_file, parse_file, alias_base. cbv zeta. bs. destruct (iscp (cur rest) $"/\"); [reflexivity|]. bs.
  change (str_eqb (scheme _) $"file") with true. cbv iota. bs. reflexivity.
Qed.
Lemma file_slash_eq rest u : self_file_slash rest u = parse_file_slash rest (Some u) u.
Proof.
  unfold self_file_slash, parse_file_slash. cbv zeta. destruct (iscp (cur rest) $"/\"); [reflexivity|]. bs. destruct (str_eqb _ $"file"); [|reflexivity]. bs. reflexivity.
Qed.
Lemma no_scheme_eq rest u : self_no_scheme rest u = parse_no_scheme rest (Some u) u.
Proof. unfold self_no_scheme, parse_no_scheme. cbv zeta. bs. destruct (_ && negb _); [reflexivity|]. destruct (_ && _); [bs; reflexivity|reflexivity]. Qed.
Lemma relative_eq rest u : self_relative rest u = parse_relative rest (Some u) u.
Proof.
  unfold self_relative, parse_relative. cbv zeta. bs. destruct (str_eqb _ _); [reflexivity|]. bs. destruct (isc _ 47); [reflexivity|]. destruct (_ && _); [reflexivity|].
  bs. reflexivity.
Qed.
Lemma relative_slash_eq rest u : self_relative_slash rest u = parse_relative_slash rest (Some u) u.
Proof. unfold self_relative_slash, parse_relative_slash. cbv zeta. bs. destruct (_ && _); [reflexivity|]. destruct (isc _ 47); [reflexivity|]. bs. reflexivity. Qed.

(** the scheme of the base is the one just stored *)
Definition self_colon (so : option pstate) (t : str) (i : nat) (buffer : str) : M (pstate * nat) :=
  let buffer := lower buffer in
  u <- get ;;
  if overridden so && scheme_blocked u buffer then ret (EOF, i)
  else
    modify (set_scheme buffer) ;;
    if overridden so then
      when (port_truthy (port u) && on_eqb (default_port buffer) (port u)) (modify (set_port None)) ;;
      ret (EOF, i)
    else if str_eqb buffer $"file" then
      when (negb (starts_with $"//" t)) (logm VSpecialSchemeMissingSolidus) ;; ret (FILE, i)
    else
      same <- (b <- get ;; ret (str_eqb (scheme b) buffer)) ;;
      if special_scheme buffer && same then ret (SPECIAL_RELATIVE_OR_AUTHORITY, i)
      else if special_scheme buffer then ret (SPECIAL_AUTHORITY_SLASHES, i)
      else if starts_with $"/" t then ret (PATH_OR_AUTHORITY, S i)
      else modify (set_path (POpaque [])) ;; ret (OPAQUE_PATH, i).
Lemma sim_self_colon so t i b : simm (hscheme_colon me (Some me) so t i b) (self_colon so t i b).
Proof. unfold hscheme_colon, self_colon. cbv zeta. ss. Qed.
Lemma colon_eq so t i buffer b u : scheme b = lower buffer -> self_colon so t i buffer u = scheme_colon (Some b) so t i buffer u.
Proof.
  intros Q. unfold self_colon, scheme_colon. cbv zeta. rewrite Q. bs. destruct (_ && _); [reflexivity|]. bs. destruct (overridden so); [reflexivity|].
  destruct (str_eqb _ $"file"); [reflexivity|]. unfold bind at 1, bind at 1, get, ret at 1. cbn [app scheme set_scheme].
  destruct (special_scheme _ && _); [reflexivity|]. destruct (special_scheme _); [reflexivity|]. destruct (starts_with _ t); reflexivity.
Qed.
Lemma sim_self_loop so b t : forall i buffer, scheme b = lower (buffer ++ fst (span is_scheme_char t)) ->
  simm (hscheme_loop me (Some me) so t i buffer) (scheme_loop (Some b) so t i buffer).
Proof.
  induction t as [|c t IH]; intros i buffer Q; cbn [hscheme_loop scheme_loop]; [ss|]. cbn [span] in Q. unfold is_scheme_char at 1 in Q.
  destruct (mem c ASCII_ALPHANUMERIC || mem c $"+-.").
  - apply IH. destruct (span is_scheme_char t) as [a r]. cbn [fst] in *. rewrite <- app_assoc. exact Q.
  - destruct (c =? 58); [|ss]. cbn [fst] in Q. rewrite app_nil_r in Q. apply (sim_ext _ (self_colon so t (S i) buffer)); [|apply sim_self_colon]. intros u. now apply colon_eq.
Qed.
Lemma sim_self_scheme rest so : simm (hparse_scheme me rest (Some me) so) (fun u => parse_scheme rest (Some (alias_base SCHEME_START rest u)) so u).
Proof.
  unfold hparse_scheme, parse_scheme. destruct rest as [|c t]; [destruct (overridden so); [exact (sim_raise h0 PO PC me _)|exact (sim_ret h0 PO PC me _)]|].
  destruct (mem c ASCII_ALPHA) eqn:A; [|destruct (overridden so); [exact (sim_raise h0 PO PC me _)|exact (sim_ret h0 PO PC me _)]].
  set (b0 := set_scheme (lower (fst (span is_scheme_char (c :: t)))) new_url).
  apply (sim_ext _ (scheme_loop (Some b0) so t 1 [c])).
  - intros u. generalize 1%nat, [c]. unfold alias_base. fold (scheme b0). assert (X : scheme (set_scheme (lower (fst (span is_scheme_char (c :: t)))) u) = scheme b0) by reflexivity.
    revert X. generalize b0 as x, (set_scheme (lower (fst (span is_scheme_char (c :: t)))) u) as y. clear A b0. intros x y X. induction t as [|d t IH]; intros i bf; cbn [scheme_loop]; [reflexivity|].
    destruct (_ || _); [apply IH|]. destruct (d =? 58); [|reflexivity]. unfold scheme_colon. rewrite X. reflexivity.
  - apply sim_self_loop. unfold b0. cbn [scheme set_scheme span]. assert (Y : is_scheme_char c = true) by (unfold is_scheme_char, ASCII_ALPHANUMERIC, mem in *; rewrite existsb_app, A; reflexivity).
    rewrite Y. destruct (span is_scheme_char t); reflexivity.
Qed.
Lemma sim_self_step E enc so st rest : simm (hstep E me (Some me) enc so st rest) (self_step E enc so st rest).
Proof.
  pose proof (sim_step h0 PO PC me None I E enc so st rest) as G.
  unfold self_step. destruct st; cbn [alias_base step hstep] in *; try exact G; clear G.
  - apply (sim_ext _ _ _ (file_slash_eq rest)), sim_self_file_slash.
  - apply (sim_ext _ _ _ (file_eq rest)), sim_self_file.
  - apply (sim_ext _ _ _ (no_scheme_eq rest)), sim_self_no_scheme.
  - apply (sim_ext _ _ _ (relative_slash_eq rest)), sim_self_relative_slash.
  - apply (sim_ext _ _ _ (relative_eq rest)), sim_self_relative.
  - apply sim_self_scheme.
Qed.
Lemma sim_self_fsm fuel E enc so st rest : simm (hrun_fsm fuel E me (Some me) enc so st rest) (self_fsm fuel E enc so st rest).
Proof.
  revert st rest; induction fuel as [|f IH]; intros st rest.
  - destruct st; cbn [hrun_fsm self_fsm]; ss.
  - assert (X : forall s, simm (r <-- hstep E me (Some me) enc so s rest ;; hrun_fsm f E me (Some me) enc so (fst r) (skipn (snd r) rest))
                               (r <- self_step E enc so s rest ;; self_fsm f E enc so (fst r) (skipn (snd r) rest))).
    { intros s. apply sim_bind; [apply sim_self_step|intros r; apply IH]. }
    destruct st; cbn [hrun_fsm self_fsm]; try (apply X). apply sim_ret.
Qed.
Lemma sim_self_into E s enc so : simm (hparse_into E me s (Some me) enc so) (self_into E s enc so).
Proof. unfold hparse_into, self_into. apply sim_bind; [ss|intros _]. apply sim_self_fsm. Qed.
End Self.

Ltac bs := repeat (rewrite bind_get || rewrite bind_modify).

(* ---------- programs that leave the fragment alone ---------- *)
Definition ff {A} (m : M A) : Prop := forall f u,
  m (set_fragment f u) = (fst (m u), (set_fragment f (fst (snd (m u))), snd (snd (m u)))) /\ fragment (fst (snd (m u))) = fragment u.
Lemma ff_ret {A} (a : A) : ff (ret a). Proof. intros f u. split; reflexivity. Qed.
Lemma ff_raise {A} e : ff (@raise A e). Proof. intros f u. split; reflexivity. Qed.
Lemma ff_log v : ff (logm v). Proof. intros f u. split; reflexivity. Qed.
Lemma ff_modify g : (forall f u, g (set_fragment f u) = set_fragment f (g u)) -> (forall u, fragment (g u) = fragment u) -> ff (modify g).
Proof. intros G H f u. unfold modify. cbn [fst snd]. rewrite G. split; [reflexivity|apply H]. Qed.
Lemma ff_bind {A B} (m : M A) (k : A -> M B) : ff m -> (forall a, ff (k a)) -> ff (bind m k).
Proof.
  intros H K f u. destruct (H f u) as [H1 H2]. unfold bind. rewrite H1. destruct (m u) as [l [v [a|e]]]; cbn [fst snd] in *; [|auto].
  destruct (K a f v) as [K1 K2]. rewrite K1. destruct (k a v) as [l' [w r]]. cbn [fst snd] in *. split; [reflexivity|congruence].
Qed.
Lemma ff_get {A} (k : urlrec -> M A) : (forall f u, k (set_fragment f u) = k u) -> (forall u, ff (k u)) -> ff (bind get k).
Proof. intros Q K f u. rewrite !bind_get, Q. apply K. Qed.
Lemma ff_when b m : ff m -> ff (when b m). Proof. intros H. destruct b; [exact H|apply ff_ret]. Qed.
Ltac ffs := repeat first
  [ apply ff_ret | apply ff_raise | apply ff_log | apply ff_modify; [intros ? []; reflexivity|intros []; reflexivity]
  | apply ff_when | apply ff_get; [intros; reflexivity|intros ?] | apply ff_bind; [|intros ?]
  | match goal with |- ff (if ?b then _ else _) => destruct b | |- ff (match ?x with _ => _ end) => destruct x end ].
Lemma ff_check c t : ff (check_unit c t). Proof. unfold check_unit. ffs. Qed.
Lemma ff_append x : ff (path_append x). Proof. unfold path_append. ffs. Qed.
Lemma ff_shorten : ff shorten_path. Proof. unfold shorten_path. ffs. Qed.
Lemma ff_extend x : ff (path_extend x).
Proof. unfold path_extend. apply ff_modify; [intros f u|intros u]; cbn [path set_fragment]; destruct (path u); destruct u; reflexivity. Qed.
Lemma ff_flush c b : ff (path_flush c b).
Proof. unfold path_flush. apply ff_get; [intros; reflexivity|intros u]. cbv zeta. destruct (str_in _ _); [apply ff_bind; [apply ff_shorten|intros _; apply ff_when, ff_append]|]. destruct (str_in _ _); [apply ff_when, ff_append|apply ff_append]. Qed.
Lemma ff_query_flush E enc b : ff (query_flush E enc b).
Proof. unfold query_flush. apply ff_get; [intros; reflexivity|intros u]. cbv zeta. destruct (string_percent_encode _ _ _ _); [unfold query_append|]; ffs. Qed.

(** what the state functions of the path and the query do about the fragment *)
Definition later : list pstate := [PATH; OPAQUE_PATH; QUERY; FRAGMENT; EOF].
Definition tl (w : str) (m : M (pstate * nat)) : Prop := forall f u,
  fst (m (set_fragment f u)) = fst (m u) /\ snd (snd (m (set_fragment f u))) = snd (snd (m u)) /\
  ((fst (snd (m (set_fragment f u))) = set_fragment f (fst (snd (m u))) /\ fragment (fst (snd (m u))) = fragment u /\
    match snd (snd (m u)) with Ok (FRAGMENT, n) => skipn n w = [] | _ => True end) \/
   (fst (snd (m (set_fragment f u))) = fst (snd (m u)) /\ fragment (fst (snd (m u))) = Some [] /\ exists n, snd (snd (m u)) = Ok (FRAGMENT, n))) /\
  match snd (snd (m u)) with Ok (st, _) => In st later | Err _ => True end.
Lemma tl_bind {A} w (m : M A) k : ff m -> (forall a, tl w (k a)) -> tl w (bind m k).
Proof.
  intros H K f u. destruct (H f u) as [H1 H2]. unfold bind. rewrite H1. destruct (m u) as [l [v [a|e]]]; cbn [fst snd] in *.
  - specialize (K a f v). destruct (k a (set_fragment f v)) as [l1 [x r1]], (k a v) as [l2 [y r2]]. cbn [fst snd] in *.
    destruct K as (K1 & K2 & K3 & K4). subst l1. rewrite H2 in K3. split; [reflexivity|]. split; [exact K2|]. split; [exact K3|exact K4].
  - split; [reflexivity|]. split; [reflexivity|]. split; [left; auto|exact I].
Qed.
Lemma tl_get w k : (forall f u, k (set_fragment f u) = k u) -> (forall u, tl w (k u)) -> tl w (bind get k).
Proof. intros Q K f u. rewrite !bind_get, Q. apply K. Qed.
Lemma tl_ret w st n : In st later -> (st = FRAGMENT -> skipn n w = []) -> tl w (ret (st, n)).
Proof. intros L H f u. unfold ret. cbn [fst snd]. split; [reflexivity|]. split; [reflexivity|]. split; [|exact L]. left. split; [reflexivity|]. split; [reflexivity|]. destruct st; auto. Qed.
Lemma tl_hash w n : tl w (modify (set_fragment (Some [])) ;; ret (FRAGMENT, n)).
Proof. intros f u. cbn. split; [reflexivity|]. split; [reflexivity|]. split; [|tauto]. right. split; [reflexivity|]. split; [reflexivity|]. eauto. Qed.
Lemma tl_query w n : tl w (modify (set_query (Some [])) ;; ret (QUERY, n)).
Proof. apply tl_bind; [ffs|intros _]. apply tl_ret; [cbn; tauto|discriminate]. Qed.
Lemma tl_opaque w rest i : tl w (opaque_path_loop rest i).
Proof.
  revert i; induction rest as [|c t IH]; intros i; cbn [opaque_path_loop]; [apply tl_ret; [cbn; tauto|discriminate]|].
  destruct (c =? 63); [apply tl_query|]. destruct (c =? 35); [apply tl_hash|].
  apply tl_bind; [apply ff_check|intros _]. apply tl_bind; [apply ff_extend|intros _]. apply IH.
Qed.
Lemma tl_path w so rest i b : tl w (path_loop so rest i b).
Proof.
  revert i b; induction rest as [|c t IH]; intros i b; cbn [path_loop].
  - apply tl_bind; [apply ff_flush|intros _]. apply tl_ret; [cbn; tauto|discriminate].
  - apply tl_get; [intros; reflexivity|intros u]. destruct (_ || _).
    + apply tl_bind; [ffs|intros _]. apply tl_bind; [apply ff_flush|intros _]. destruct (c =? 63); [apply tl_query|]. destruct (c =? 35); [apply tl_hash|]. apply IH.
    + apply tl_bind; [apply ff_check|intros _]. apply IH.
Qed.
Lemma tl_query_loop w E so enc rest : forall i b, (i + length rest = length w)%nat -> tl w (query_loop E so enc rest i b).
Proof.
  induction rest as [|c t IH]; intros i b L; cbn [query_loop length] in *.
  - apply tl_bind; [apply ff_when, ff_query_flush|intros _]. apply tl_ret; [cbn; tauto|]. intros _. apply skipn_all2. lia.
  - destruct (_ && _); [apply tl_bind; [apply ff_query_flush|intros _]; apply tl_hash|].
    apply tl_bind; [apply ff_check|intros _]. apply IH. lia.
Qed.
Lemma tl_step E base enc so st rest : In st [PATH; OPAQUE_PATH; QUERY] -> tl rest (step E base enc so st rest).
Proof.
  intros [<-|[<-|[<-|[]]]]; cbn [step]; [apply tl_path|apply tl_opaque|]. unfold parse_query. now apply tl_query_loop.
Qed.

(** outcome of the call with one object against that of the call with a new record *)
Definition kept_fragment (f : option str) (v : urlrec) : urlrec := match fragment v with None => set_fragment f v | Some _ => v end.
Definition in_place (f : option str) (a b : log * (urlrec * res unit)) : Prop :=
  fst a = fst b /\ snd (snd a) = snd (snd b) /\ (snd (snd b) = Ok tt -> fst (snd a) = kept_fragment f (fst (snd b))).
Lemma pstate_eq_dec (a b : pstate) : {a = b} + {a <> b}. Proof. decide equality. Defined.
Section Run.
Context (E : env) (base : option urlrec) (enc : str).
Lemma self_eof n rest u : self_fsm n E enc None EOF rest u = ([], (u, Ok tt)). Proof. destruct n; reflexivity. Qed.
Lemma run_eof n rest u : run_fsm n E base enc None EOF rest u = ([], (u, Ok tt)). Proof. destruct n; reflexivity. Qed.
Lemma place_same f g n rest u : fragment u = Some g ->
  in_place f (self_fsm (S n) E enc None FRAGMENT rest u) (run_fsm (S n) E base enc None FRAGMENT rest u).
Proof.
  intros Q. cbn [self_fsm run_fsm]. unfold self_step, bind. cbn [step]. pose proof (run_fragment rest u g Q) as R. unfold run in R.
  destruct (parse_fragment rest u) as [l [v r]]. cbn [snd] in R. injection R as -> ->. cbn [fst snd]. rewrite self_eof, run_eof.
  split; [reflexivity|]. split; reflexivity.
Qed.
Lemma place_empty f n u : fragment u = None ->
  in_place f (self_fsm (S n) E enc None FRAGMENT [] (set_fragment f u)) (run_fsm (S n) E base enc None FRAGMENT [] u).
Proof.
  intros Q. cbn [self_fsm run_fsm]. unfold self_step, bind. cbn [step]. unfold parse_fragment. cbn [fragment_loop length Nat.eqb negb when]. unfold bind, ret. cbn [fst snd].
  rewrite self_eof, run_eof. split; [reflexivity|]. split; [reflexivity|]. cbn [fst snd]. unfold kept_fragment. now rewrite Q.
Qed.
Lemma place_eof f n m rest rest' u : fragment u = None -> in_place f (self_fsm n E enc None EOF rest (set_fragment f u)) (run_fsm m E base enc None EOF rest' u).
Proof. intros Q. rewrite self_eof, run_eof. split; [reflexivity|]. split; [reflexivity|]. unfold kept_fragment. cbn [fst snd]. now rewrite Q. Qed.
Lemma place_fuel f st rest u v : st <> EOF -> in_place f (self_fsm 0 E enc None st rest u) (run_fsm 0 E base enc None st rest v).
Proof. intros H. destruct st; try congruence; (split; [reflexivity|]; split; [reflexivity|]; intros Q; discriminate Q). Qed.
Lemma place_bind f n rest (a b : log * (urlrec * res (pstate * nat))) ka kb : fst a = fst b -> snd (snd a) = snd (snd b) ->
  (forall r, snd (snd b) = Ok r ->
     in_place f (self_fsm n E enc None (fst r) (skipn (snd r) rest) (fst (snd a))) (run_fsm n E base enc None (fst r) (skipn (snd r) rest) (fst (snd b)))) ->
  ka = (fun u => a) -> kb = (fun u => b) ->
  in_place f (bind ka (fun r => self_fsm n E enc None (fst r) (skipn (snd r) rest)) new_url) (bind kb (fun r => run_fsm n E base enc None (fst r) (skipn (snd r) rest)) new_url).
Proof.
  intros L R K -> ->. unfold bind. destruct a as [l1 [u1 r1]], b as [l2 [v1 r2]]. cbn [fst snd] in *. subst l2 r2.
  destruct r1 as [r|e]; [|split; [reflexivity|]; split; [reflexivity|]; intros Q; discriminate Q].
  specialize (K r eq_refl). destruct (self_fsm n E enc None (fst r) (skipn (snd r) rest) u1) as [l3 [u3 r3]], (run_fsm n E base enc None (fst r) (skipn (snd r) rest) v1) as [l4 [v3 r4]].
  destruct K as (K1 & K2 & K3). cbn [fst snd] in *. subst l4. split; [reflexivity|]. split; [exact K2|exact K3].
Qed.
Lemma place_step f n st rest u v : st <> EOF ->
  fst (self_step E enc None st rest u) = fst (step E base enc None st rest v) ->
  snd (snd (self_step E enc None st rest u)) = snd (snd (step E base enc None st rest v)) ->
  (forall r, snd (snd (step E base enc None st rest v)) = Ok r ->
     in_place f (self_fsm n E enc None (fst r) (skipn (snd r) rest) (fst (snd (self_step E enc None st rest u))))
       (run_fsm n E base enc None (fst r) (skipn (snd r) rest) (fst (snd (step E base enc None st rest v))))) ->
  in_place f (self_fsm (S n) E enc None st rest u) (run_fsm (S n) E base enc None st rest v).
Proof.
  intros H L R K. pose proof (place_bind f n rest _ _ _ _ L R K eq_refl eq_refl) as X.
  destruct st; try congruence; exact X.
Qed.
Definition places n : Prop := forall f st rest u, In st [PATH; OPAQUE_PATH; QUERY; EOF] -> fragment u = None ->
  in_place f (self_fsm n E enc None st rest (set_fragment f u)) (run_fsm n E base enc None st rest u).
Lemma place_prog n f st rest (K : M (pstate * nat)) u v w : places n -> st <> EOF -> tl rest K -> fragment w = None ->
  self_step E enc None st rest u = K (set_fragment f w) -> step E base enc None st rest v = K w ->
  in_place f (self_fsm (S n) E enc None st rest u) (run_fsm (S n) E base enc None st rest v).
Proof.
  intros IH NE T Q A B. destruct (T f w) as (L & R & F & N). apply place_step; rewrite ?A, ?B; [exact NE|exact L|exact R|].
  intros [st' k] R'. rewrite R' in F, N. cbn [fst snd] in *. destruct F as [(F1 & F2 & F3)|(F1 & F2 & k' & F3)].
  - rewrite F1. rewrite Q in F2. destruct (pstate_eq_dec st' FRAGMENT) as [->|NF].
    + rewrite F3. destruct n; [apply place_fuel; discriminate|]. now apply place_empty.
    + apply IH; [|exact F2]. cbn in *. intuition congruence.
  - injection F3 as -> ->. rewrite F1. destruct n; [apply place_fuel; discriminate|]. now apply (place_same f []).
Qed.
Lemma place_tail : forall n, places n.
Proof.
  induction n as [|n IH]; intros f st rest u T Q.
  - destruct (pstate_eq_dec st EOF) as [->|NE]; [now apply place_eof|now apply place_fuel].
  - destruct (pstate_eq_dec st EOF) as [->|NE]; [now apply place_eof|].
    assert (T' : In st [PATH; OPAQUE_PATH; QUERY]) by (cbn in *; intuition congruence).
    apply (place_prog n f st rest (step E base enc None st rest) _ _ u IH NE (tl_step E base enc None st rest T') Q); [|reflexivity].
    unfold self_step. destruct T' as [<-|[<-|[<-|[]]]]; reflexivity.
Qed.
End Run.

Lemma less_scheme E base enc rest u : scheme_less rest -> step E base enc None SCHEME_START rest u = ([], (u, Ok (NO_SCHEME, 0%nat))).
Proof.
  intros H. cbn [step]. unfold parse_scheme. destruct rest as [|c t]; [reflexivity|]. destruct (mem c ASCII_ALPHA) eqn:A; [|reflexivity].
  assert (X : forall t i b, (forall a r, t = a ++ 58 :: r -> forallb is_scheme_char a = true -> False) -> scheme_loop base None t i b u = ([], (u, Ok (NO_SCHEME, 0%nat)))).
  { clear. induction t as [|d t IH]; intros i b G; cbn [scheme_loop]; [reflexivity|]. fold (is_scheme_char d). destruct (is_scheme_char d) eqn:D.
    - apply IH. intros a r -> K. apply (G (d :: a) r); [reflexivity|]. cbn [forallb]. now rewrite D.
    - destruct (d =? 58) eqn:D2; [|reflexivity]. apply N.eqb_eq in D2 as ->. destruct (G [] t eq_refl eq_refl). }
  apply X. intros a r -> K. specialize (H (c :: a) r eq_refl). cbn [std_scheme] in H. rewrite alpha_eq in A. rewrite A in H. cbn [andb] in H.
  assert (Y : forallb std_scheme_char a = true); [|congruence]. rewrite forallb_forall in *. intros z Z. rewrite <- scheme_char_eq. auto.
Qed.
Definition place_ok (u : urlrec) : Prop :=
  (has_opaque_path u = true -> username u = [] /\ password u = [] /\ uhost u = None /\ port u = None) /\
  (has_opaque_path u = false -> scheme u = $"file" -> username u = [] /\ password u = [] /\ uhost u = Some (HStr []) /\ port u = None).
Section Whole.
Context (E : env) (enc : str) (u : urlrec).
Notation A n st rest := (self_fsm n E enc None st rest).
Notation B n st rest := (run_fsm n E (Some u) enc None st rest).
Notation f := (fragment u).
Definition bare_u : urlrec := set_fragment None u.
Lemma bare_back : set_fragment f bare_u = u. Proof. unfold bare_u. destruct u; reflexivity. Qed.
Definition no_slash_start (rest : str) : Prop := forall c t, rest = c :: t -> c <> 47 /\ (is_special u = true -> c <> 92).

Definition rel_prog (rest : str) : M (pstate * nat) :=
  if isc (cur rest) 63 then modify (set_query (Some [])) ;; ret (QUERY, 1%nat)
  else if isc (cur rest) 35 then modify (set_fragment (Some [])) ;; ret (FRAGMENT, 1%nat)
  else if negb (iseof (cur rest)) then modify (set_query None) ;; shorten_path ;; ret (PATH, 0%nat)
  else ret (EOF, 0%nat).
Lemma tl_rel rest : tl rest (rel_prog rest).
Proof.
  unfold rel_prog. destruct (isc _ 63); [apply tl_query|]. destruct (isc _ 35); [apply tl_hash|]. destruct (negb _); [|apply tl_ret; [cbn; tauto|discriminate]].
  apply tl_bind; [ffs|intros _]. apply tl_bind; [apply ff_shorten|intros _]. apply tl_ret; [cbn; tauto|discriminate].
Qed.
Lemma place_relative n rest : no_slash_start rest -> str_eqb (scheme u) $"file" = false ->
  in_place f (A (S n) RELATIVE rest u) (B (S n) RELATIVE rest new_url).
Proof.
  intros H F. assert (S1 : isc (cur rest) 47 = false /\ is_special u && isc (cur rest) 92 = false).
  { destruct rest as [|c t]; [split; [reflexivity|]; apply andb_false_r|]. destruct (H c t eq_refl) as [H1 H2]. cbn [cur isc]. split; [lia|]. destruct (is_special u); [|reflexivity]. specialize (H2 eq_refl). cbn [andb]. lia. }
  destruct S1 as [S1 S2].
  assert (P : forall x, parse_relative rest (Some u) x = rel_prog rest (set_fragment (fragment x) u)).
  { intros x. unfold parse_relative. cbv zeta. rewrite F. bs. rewrite S1. change (is_special (set_scheme (scheme u) x)) with (is_special u). rewrite S2. bs. unfold rel_prog. destruct u; reflexivity. }
  apply (place_prog E (Some u) enc n f RELATIVE rest (rel_prog rest) u new_url bare_u (place_tail E (Some u) enc n)); [discriminate|apply tl_rel|reflexivity| |].
  - unfold self_step. cbn [alias_base step]. rewrite P, bare_back. f_equal. destruct u; reflexivity.
  - cbn [step]. rewrite P. reflexivity.
Qed.
Definition file_prog (rest : str) : M (pstate * nat) :=
  if isc (cur rest) 63 then modify (set_query (Some [])) ;; ret (QUERY, 1%nat)
  else if isc (cur rest) 35 then modify (set_fragment (Some [])) ;; ret (FRAGMENT, 1%nat)
  else if negb (iseof (cur rest)) then modify (set_query None) ;;
    (if negb (starts_with_windows_drive_letter rest) then shorten_path else logm VFileDriveLetter ;; modify (set_path (PList []))) ;; ret (PATH, 0%nat)
  else ret (PATH, 0%nat).
Lemma tl_file rest : tl rest (file_prog rest).
Proof.
  unfold file_prog. destruct (isc _ 63); [apply tl_query|]. destruct (isc _ 35); [apply tl_hash|]. destruct (negb _); [|apply tl_ret; [cbn; tauto|discriminate]].
  apply tl_bind; [ffs|intros _]. apply tl_bind; [destruct (negb _); [apply ff_shorten|ffs]|intros _]. apply tl_ret; [cbn; tauto|discriminate].
Qed.
Lemma place_file n rest : no_slash_start rest -> scheme u = $"file" -> username u = [] -> password u = [] -> uhost u = Some (HStr []) -> port u = None ->
  in_place f (A (S n) FILE rest u) (B (S n) FILE rest new_url).
Proof.
  intros H F U1 U2 U3 U4. assert (S1 : iscp (cur rest) $"/\" = false).
  { destruct rest as [|c t]; [reflexivity|]. destruct (H c t eq_refl) as [H1 H2]. assert (SP : is_special u = true) by (unfold is_special; rewrite F; reflexivity). specialize (H2 SP).
    cbn [cur iscp]. change (mem c [47; 92] = false). cbn [mem existsb]. lia. }
  assert (P : forall x, username x = [] -> password x = [] -> port x = None -> parse_file rest (Some u) x = file_prog rest (set_fragment (fragment x) u)).
  { intros x X1 X2 X3. unfold parse_file. cbv zeta. bs. rewrite S1, F. change (str_eqb $"file" $"file") with true. cbv iota. bs. unfold file_prog.
    replace (set_query (query u) _) with (set_fragment (fragment x) u); [reflexivity|].
    destruct u as [sc us pw ho po pa qu fr], x as [sc' us' pw' ho' po' pa' qu' fr']. cbn in *. subst. reflexivity. }
  apply (place_prog E (Some u) enc n f FILE rest (file_prog rest) u new_url bare_u (place_tail E (Some u) enc n)); [discriminate|apply tl_file|reflexivity| |].
  - unfold self_step. replace (alias_base FILE rest u) with u by (cbn [alias_base]; destruct u; cbn in *; subst; reflexivity).
    cbn [step]. rewrite P by auto. rewrite bare_back. f_equal. destruct u; reflexivity.
  - cbn [step]. rewrite P by reflexivity. reflexivity.
Qed.
Lemma place_no_scheme n rest : no_slash_start rest -> place_ok u ->
  in_place f (A (S (S n)) NO_SCHEME rest u) (B (S (S n)) NO_SCHEME rest new_url).
Proof.
  intros H [O1 O2]. apply place_step; [discriminate| | |]; unfold self_step; cbn [alias_base step]; unfold parse_no_scheme; cbv zeta;
    destruct (has_opaque_path u) eqn:O; cbn [andb]; [destruct (isc (cur rest) 35); cbn [negb]; reflexivity|destruct (negb _); reflexivity|destruct (isc (cur rest) 35); cbn [negb]; reflexivity|destruct (negb _); reflexivity| |].
  - destruct (isc (cur rest) 35); cbn [negb]; intros r Q; [|discriminate Q]. bs. cbn [fst snd ret] in Q. injection Q as <-. cbn [fst snd ret].
    destruct (O1 eq_refl) as (U1 & U2 & U3 & U4).
    replace (set_fragment (Some []) (set_query (query u) (set_path (path u) (set_scheme (scheme u) new_url)))) with (set_fragment (Some []) (set_query (query u) (set_path (path u) (set_scheme (scheme u) u)))).
    + now apply (place_same E (Some u) enc f []).
    + destruct u; cbn in *; subst; reflexivity.
  - destruct (str_eqb (scheme u) $"file") eqn:F; cbn [negb]; intros r Q; cbn [fst snd ret] in *; injection Q as <-; cbn [fst snd skipn].
    + apply str_eqb_eq in F. destruct (O2 eq_refl F) as (U1 & U2 & U3 & U4). now apply place_file.
    + now apply place_relative.
Qed.
End Whole.
Lemma place_into E s enc u : scheme_less (remove_tabs s) -> no_slash_start u (remove_tabs s) -> place_ok u ->
  in_place (fragment u) (self_into E s enc None u) (parse_into E s (Some u) enc None new_url).
Proof.
  intros L H O. unfold self_into, parse_into. set (rest := remove_tabs s) in *. set (e := normalize_encoding E enc).
  assert (X : in_place (fragment u) (self_fsm FSM_FUEL E e None SCHEME_START rest u) (run_fsm FSM_FUEL E (Some u) e None SCHEME_START rest new_url)).
  { change FSM_FUEL with (S (S (S 17))). apply place_step; [discriminate| | |]; unfold self_step; rewrite ?(less_scheme E _ e rest _ L); [reflexivity|reflexivity|].
    cbn [fst snd]. intros r Q. injection Q as <-. cbn [fst snd skipn]. now apply place_no_scheme. }
  revert X. generalize (self_fsm FSM_FUEL E e None SCHEME_START rest), (run_fsm FSM_FUEL E (Some u) e None SCHEME_START rest). intros m1 m2 X.
  assert (Y : forall l, in_place (fragment u) (l ++ fst (m1 u), snd (m1 u)) (l ++ fst (m2 new_url), snd (m2 new_url))).
  { intros l. destruct X as (X1 & X2 & X3). split; [cbn [fst]; now rewrite X1|]. split; [exact X2|exact X3]. }
  unfold bind. destruct (existsb _ s); cbn [when logm ret].
  - specialize (Y [VInvalidURLUnit]). destruct (m1 u) as [l1 [a1 r1]], (m2 new_url) as [l2 [a2 r2]]. exact Y.
  - specialize (Y []). destruct (m1 u) as [l1 [a1 r1]], (m2 new_url) as [l2 [a2 r2]]. exact Y.
Qed.

(* ---------- the call in terms of a call with another base ---------- *)
Definition nx (S : list pstate) (m : M (pstate * nat)) : Prop := forall u st n, snd (snd (m u)) = Ok (st, n) -> In st S.
Lemma nx_ret S st n : In st S -> nx S (ret (st, n)). Proof. intros H u st' n' Q. cbn in Q. now injection Q as <- <-. Qed.
Lemma nx_raise S e : nx S (raise e). Proof. intros u st n Q. discriminate Q. Qed.
Lemma nx_fail S v e : nx S (fail v e). Proof. intros u st n Q. discriminate Q. Qed.
Lemma nx_bind {A} S (m : M A) k : (forall a, nx S (k a)) -> nx S (bind m k).
Proof.
  intros K u st n. unfold bind. destruct (m u) as [l [v [a|e]]]; cbn [fst snd]; [|discriminate]. intros Q. apply (K a v st n). destruct (k a v) as [l' [w r]]. exact Q.
Qed.
Definition free : list pstate := [SPECIAL_AUTHORITY_SLASHES; SPECIAL_AUTHORITY_IGNORE_SLASHES; PATH_OR_AUTHORITY; AUTHORITY; HOST; PORT; FILE_HOST; PATH_START; PATH; OPAQUE_PATH; QUERY; FRAGMENT; EOF].
Ltac inn := cbn [In free]; tauto.
Ltac nxs := repeat first
  [ apply nx_ret; inn | apply nx_raise | apply nx_fail | assumption | apply nx_bind; intros ?
  | match goal with |- nx _ (if ?b then _ else _) => destruct b | |- nx _ (match ?x with _ => _ end) => destruct x end ].
Lemma nx_free E base enc st rest : In st free -> nx free (step E base enc None st rest).
Proof.
  intros H. cbn [In free] in H. repeat destruct H as [<-|H]; try contradiction; cbn [step].
  - unfold parse_special_authority_slashes. nxs.
  - unfold parse_ignore_slashes. generalize 0%nat. induction rest as [|c t IH]; intros i; cbn [ignore_slashes_loop]; nxs. apply IH.
  - unfold parse_path_or_authority. nxs.
  - unfold parse_authority. nxs.
  - unfold parse_host. apply nx_bind; intros u. cbn [overridden andb]. generalize 0%nat, (@nil N), false. induction rest as [|c t IH]; intros i b x; cbn [host_loop]; unfold Parser.host_end; nxs. apply IH.
  - unfold parse_port. generalize 0%nat, (@nil N). induction rest as [|c t IH]; intros i b; cbn [port_loop]; unfold Parser.port_end; nxs; try apply IH.
  - unfold parse_file_host. generalize 0%nat, (@nil N). induction rest as [|c t IH]; intros i b; cbn [file_host_loop]; unfold file_host_end; nxs; try apply IH.
  - unfold parse_path_start. nxs.
  - unfold parse_path. generalize 0%nat, (@nil N). induction rest as [|c t IH]; intros i b; cbn [path_loop]; nxs; try apply IH.
  - unfold parse_opaque_path. generalize 0%nat. induction rest as [|c t IH]; intros i; cbn [opaque_path_loop]; nxs; try apply IH.
  - unfold parse_query. generalize 0%nat, (@nil N). induction rest as [|c t IH]; intros i b; cbn [query_loop]; nxs; try apply IH.
  - unfold parse_fragment. generalize 0%nat, (@nil N). induction rest as [|c t IH]; intros i b; cbn [fragment_loop]; nxs; try apply IH.
  - apply nx_ret. inn.
Qed.
Section Exact.
Context (E : env) (enc : str) (b : urlrec).
Notation A n st rest := (self_fsm n E enc None st rest).
Notation B n st rest := (run_fsm n E (Some b) enc None st rest).
Lemma same_step n st rest u : (self_step E enc None st rest u = step E (Some b) enc None st rest u) ->
  (forall st' k, snd (snd (step E (Some b) enc None st rest u)) = Ok (st', k) ->
     A n st' (skipn k rest) (fst (snd (step E (Some b) enc None st rest u))) = B n st' (skipn k rest) (fst (snd (step E (Some b) enc None st rest u)))) ->
  A (S n) st rest u = B (S n) st rest u.
Proof.
  intros Q K. assert (X : bind (self_step E enc None st rest) (fun r => A n (fst r) (skipn (snd r) rest)) u = bind (step E (Some b) enc None st rest) (fun r => B n (fst r) (skipn (snd r) rest)) u).
  { unfold bind. rewrite Q. destruct (step E (Some b) enc None st rest u) as [l [v [[st' k]|e]]]; cbn [fst snd] in *; [|reflexivity]. now rewrite (K st' k eq_refl). }
  destruct st; try exact X. reflexivity.
Qed.
Lemma same_zero st rest u : A 0%nat st rest u = B 0%nat st rest u. Proof. destruct st; reflexivity. Qed.
Lemma same_free n : forall st rest u, In st free -> A n st rest u = B n st rest u.
Proof.
  induction n as [|n IH]; intros st rest u H; [apply same_zero|]. apply same_step.
  - unfold self_step. cbn [In free] in H. repeat destruct H as [<-|H]; try contradiction; reflexivity.
  - intros st' k Q. apply IH. exact (nx_free E (Some b) enc st rest H u st' k Q).
Qed.
Lemma next_or S (rest : str) (m : M (pstate * nat)) : nx S m -> forall u st' k, snd (snd (m u)) = Ok (st', k) -> In st' S. Proof. auto. Qed.
Lemma same_relative_slash n rest : A n RELATIVE_SLASH rest b = B n RELATIVE_SLASH rest b.
Proof.
  destruct n; [apply same_zero|]. apply same_step; [reflexivity|]. intros st' k Q. apply same_free. revert Q. cbn [step]. apply (next_or free rest). unfold parse_relative_slash. nxs.
Qed.
Lemma same_relative n rest : A n RELATIVE rest b = B n RELATIVE rest b.
Proof.
  destruct n; [apply same_zero|]. apply same_step; [reflexivity|]. intros st' k. cbn [step].
  assert (X : forall st' k, snd (snd (parse_relative rest (Some b) b)) = Ok (st', k) -> (st' = RELATIVE_SLASH /\ fst (snd (parse_relative rest (Some b) b)) = b) \/ In st' free).
  { clear. intros st' k. unfold parse_relative. destruct (str_eqb _ _); [discriminate|]. cbv zeta. bs. assert (Z : set_scheme (scheme b) b = b) by (destruct b; reflexivity). rewrite Z.
    destruct (isc _ 47); [cbn; intros Q; injection Q as <- <-; auto|]. destruct (_ && _); [cbn; intros Q; injection Q as <- <-; auto|]. intros Q. right. revert Q. bs.
    assert (NX : nx free (rel_prog rest)) by (unfold rel_prog; nxs). apply NX. }
  intros Q. destruct (X st' k Q) as [[-> ->]|H]; [apply same_relative_slash|now apply same_free].
Qed.
Lemma same_file_slash n rest : A n FILE_SLASH rest b = B n FILE_SLASH rest b.
Proof.
  destruct n; [apply same_zero|]. apply same_step; [reflexivity|]. intros st' k Q. apply same_free. revert Q. cbn [step]. apply (next_or free rest). unfold parse_file_slash. nxs.
Qed.
Lemma same_file n rest u : b = set_host (Some (HStr [])) (set_scheme $"file" u) -> A n FILE rest u = B n FILE rest u.
Proof.
  intros Hb. destruct n; [apply same_zero|]. apply same_step; [unfold self_step; cbn [alias_base]; now rewrite <- Hb|]. intros st' k. cbn [step].
  assert (X : forall st' k, snd (snd (parse_file rest (Some b) u)) = Ok (st', k) -> (st' = FILE_SLASH /\ fst (snd (parse_file rest (Some b) u)) = b) \/ In st' free).
  { intros st1 k1. unfold parse_file. cbv zeta. bs. rewrite <- Hb. destruct (iscp _ _).
    - unfold bind. destruct (isc _ 92); cbn; intros Q; injection Q as <- <-; auto.
    - intros Q. right. revert Q. match goal with |- snd (snd (?m b)) = _ -> _ => assert (NX : nx free m) by nxs end. apply NX. }
  intros Q. destruct (X st' k Q) as [[-> ->]|H]; [apply same_file_slash|now apply same_free].
Qed.
Lemma same_no_scheme n rest u : (scheme u <> $"file" -> b = u) -> (scheme u = $"file" -> b = set_host (Some (HStr [])) u) -> A n NO_SCHEME rest u = B n NO_SCHEME rest u.
Proof.
  intros H1 H2. destruct n; [apply same_zero|].
  assert (F : {scheme u = $"file"} + {scheme u <> $"file"}) by apply (list_eq_dec N.eq_dec).
  assert (SM : scheme b = scheme u /\ path b = path u /\ query b = query u) by (destruct F as [F|F]; [rewrite (H2 F)|rewrite (H1 F)]; destruct u; auto).
  destruct SM as (S1 & S2 & S3).
  apply same_step; unfold self_step; cbn [alias_base step]; unfold parse_no_scheme; cbv zeta; unfold has_opaque_path; rewrite S1, S2, S3; [reflexivity|].
  intros st' k. destruct (_ && negb _); [discriminate|]. destruct (_ && _).
  - intros Q. apply same_free. injection Q as <- <-. inn.
  - destruct (str_eqb (scheme u) $"file") eqn:FE; cbn [negb ret fst snd]; intros Q; injection Q as <- <-.
    + apply str_eqb_eq in FE. apply same_file. rewrite (H2 FE). rewrite <- FE. destruct u; reflexivity.
    + destruct F as [F|F]; [rewrite F in FE; discriminate FE|]. rewrite <- (H1 F). apply same_relative.
Qed.
Lemma same_sra n rest : A n SPECIAL_RELATIVE_OR_AUTHORITY rest b = B n SPECIAL_RELATIVE_OR_AUTHORITY rest b.
Proof.
  destruct n; [apply same_zero|]. apply same_step; [reflexivity|]. intros st' k. cbn [step]. unfold parse_special_relative_or_authority.
  destruct (starts_with _ rest); cbn; intros Q; injection Q as <- <-; [apply same_free; inn|apply same_relative].
Qed.
Lemma same_start n rest u sch t : scheme_split rest = Some (sch, t) ->
  b = (let v := set_scheme (lower sch) u in if str_eqb (lower sch) $"file" then set_host (Some (HStr [])) v else v) ->
  A n SCHEME_START rest u = B n SCHEME_START rest u.
Proof.
  intros Q Hb. destruct n; [apply same_zero|]. cbv zeta in Hb.
  assert (SB : scheme b = lower sch) by (rewrite Hb; destruct (str_eqb _ _); reflexivity).
  assert (SP : exists c r, rest = c :: r /\ mem c ASCII_ALPHA = true /\ is_scheme_char c = true /\ span is_scheme_char r = (List.tl sch, 58 :: t) /\ sch = c :: List.tl sch).
  { destruct rest as [|c r]; [discriminate Q|]. cbn [scheme_split] in Q. destruct (mem c ASCII_ALPHA) eqn:AL; [|discriminate Q]. exists c, r. split; [reflexivity|]. split; [exact AL|].
    split; [unfold is_scheme_char, ASCII_ALPHANUMERIC, mem in *; rewrite existsb_app, AL; reflexivity|].
    destruct (span is_scheme_char r) as [a [|x y]]; [discriminate Q|]. destruct (x =? 58) eqn:X; [|discriminate Q]. apply N.eqb_eq in X as ->. injection Q as <- <-. split; reflexivity. }
  destruct SP as (c & r & -> & AL & CH & SP & SC).
  assert (LP : forall bs' v, scheme bs' = lower sch -> step E (Some bs') enc None SCHEME_START (c :: r) v = scheme_colon (Some bs') None t (S (length sch)) sch v).
  { intros bs' v _. cbn [step]. unfold parse_scheme. rewrite AL.
    assert (X : forall r i bf, let (a, x) := span is_scheme_char r in match x with d :: y => d = 58 -> scheme_loop (Some bs') None r i bf v = scheme_colon (Some bs') None y (S (i + length a)) (bf ++ a) v | [] => True end).
    { clear. induction r as [|d r IH]; intros i bf; cbn [span scheme_loop]; [exact I|]. fold (is_scheme_char d). destruct (is_scheme_char d) eqn:D.
      - specialize (IH (S i) (bf ++ [d])). destruct (span is_scheme_char r) as [a [|x y]]; [exact I|]. intros ->. rewrite IH by reflexivity. cbn [length]. rewrite <- app_assoc. cbn [app]. do 2 f_equal. lia.
      - intros ->. change (58 =? 58) with true. cbv iota. cbn [length]. rewrite app_nil_r. do 2 f_equal. lia. }
    specialize (X r 1%nat [c]). rewrite SP in X. rewrite X by reflexivity. rewrite SC at 3 4. cbn [length app]. reflexivity. }
  assert (AS : scheme (alias_base SCHEME_START (c :: r) u) = lower sch).
  { cbn [alias_base scheme set_scheme span]. rewrite CH, SP. cbn [fst]. now rewrite <- SC. }
  assert (SEQ : self_step E enc None SCHEME_START (c :: r) u = step E (Some b) enc None SCHEME_START (c :: r) u).
  { unfold self_step. rewrite (LP _ u AS), (LP b u SB). unfold scheme_colon. rewrite AS, SB. reflexivity. }
  apply same_step; [exact SEQ|]. rewrite (LP b u SB). intros st' k. unfold scheme_colon. cbv zeta. cbn [overridden andb]. bs. rewrite SB.
  destruct (str_eqb (lower sch) $"file") eqn:F.
  - unfold bind. destruct (negb _); cbn; intros Z; injection Z as <- <-; apply same_file; rewrite Hb; apply str_eqb_eq in F; rewrite F; reflexivity.
  - destruct (special_scheme (lower sch) && _); [cbn; intros Z; injection Z as <- <-; rewrite <- Hb; apply same_sra|].
    intros Z. apply same_free. revert Z. match goal with |- snd (snd (?m ?x)) = _ -> _ => assert (NX : nx free m) by nxs; exact (NX x st' k) end.
Qed.
Lemma same_less n rest u : scheme_less rest -> (scheme u <> $"file" -> b = u) -> (scheme u = $"file" -> b = set_host (Some (HStr [])) u) ->
  A n SCHEME_START rest u = B n SCHEME_START rest u.
Proof.
  intros L H1 H2. destruct n; [apply same_zero|]. apply same_step; unfold self_step; rewrite !(less_scheme E _ enc rest u L); [reflexivity|].
  cbn [fst snd]. intros st' k Q. injection Q as <- <-. now apply same_no_scheme.
Qed.
End Exact.

Lemma self_call E h i s enc so : heap_reached E h -> (i < length (objs h))%nat ->
  (forall j, (j < length (objs h))%nat -> j <> i -> read (fst (snd (hparse_into E i s (Some i) enc so h))) j = read h j) /\
  (fst (hparse_into E i s (Some i) enc so h), (read (fst (snd (hparse_into E i s (Some i) enc so h))) i, snd (snd (hparse_into E i s (Some i) enc so h)))) =
  self_into E s enc so (read h i).
Proof.
  intros R L. pose proof (sim_frame h i _ _ (reached_own E h R) L (sim_self_into h _ _ i E s enc so)) as ((_ & _ & T) & F1 & F2 & F3).
  split; [intros j Hj Ne; now apply T|]. rewrite F1, F2, F3. destruct (self_into E s enc so (read h i)) as [l [v r]]. reflexivity.
Qed.
Theorem alias_exact E h i s enc : heap_reached E h -> (i < length (objs h))%nat ->
  let u := read h i in
  let out := hparse_into E i s (Some i) enc None h in
  (forall sch t, std_strip_tabs s = sch ++ 58 :: t -> std_scheme sch = true ->
     (fst out, (read (fst (snd out)) i, snd (snd out))) =
     parse_into E s (Some (let v := set_scheme (std_lower sch) u in if str_eqb (std_lower sch) $"file" then set_host (Some (HStr [])) v else v)) enc None u) /\
  (scheme_less (std_strip_tabs s) ->
     (fst out, (read (fst (snd out)) i, snd (snd out))) =
     parse_into E s (Some (if str_eqb (scheme u) $"file" then set_host (Some (HStr [])) u else u)) enc None u).
Proof.
  intros R L u out. destruct (self_call E h i s enc None R L) as [_ C]. fold out in C. fold u in C. rewrite C. clear C out.
  unfold self_into, parse_into. change (remove_tabs s) with (std_strip_tabs s). set (rest := std_strip_tabs s) in *. set (e := normalize_encoding E enc).
  assert (G : forall b, self_fsm FSM_FUEL E e None SCHEME_START rest u = run_fsm FSM_FUEL E (Some b) e None SCHEME_START rest u ->
    (when (existsb is_tab_newline s) (logm VInvalidURLUnit) ;; self_fsm FSM_FUEL E e None SCHEME_START rest) u =
    (when (existsb is_tab_newline s) (logm VInvalidURLUnit) ;; run_fsm FSM_FUEL E (Some b) e None SCHEME_START rest) u).
  { intros b Q. unfold bind. destruct (existsb _ s); cbn [when logm ret]; now rewrite Q. }
  split.
  - intros sch t Q S1. apply G. apply (same_start E e _ FSM_FUEL rest u sch t); [now apply scheme_split_iff|]. reflexivity.
  - intros LS. apply G. apply same_less; [exact LS| |].
    + intros F. destruct (str_eqb (scheme u) $"file") eqn:Q; [apply str_eqb_eq in Q; contradiction|reflexivity].
    + intros F. rewrite F. reflexivity.
Qed.
Theorem alias_resolves E h i s enc : heap_reached E h -> (i < length (objs h))%nat -> std_rstrip (std_lstrip s) = s ->
  let u := read h i in
  let out := hparse_into E i s (Some i) enc None h in
  scheme_less (std_strip_tabs s) -> (forall c t, std_strip_tabs s = c :: t -> c <> 47 /\ (std_special (scheme u) -> c <> 92)) ->
  (std_opaque_path u = true -> username u = [] /\ password u = [] /\ uhost u = None /\ port u = None) ->
  (std_opaque_path u = false -> scheme u = $"file" -> username u = [] /\ password u = [] /\ uhost u = Some (HStr []) /\ port u = None) ->
  fst out = fst (parse_new E s (Some u) enc) /\
  match snd (parse_new E s (Some u) enc) with
  | Ok v => snd (snd out) = Ok tt /\ read (fst (snd out)) i = match fragment v with None => set_fragment (fragment u) v | Some _ => v end
  | Err e => snd (snd out) = Err e
  end.
Proof.
  intros R L ST u out LS NS O1 O2. destruct (self_call E h i s enc None R L) as [_ C]. fold out u in C.
  assert (NS' : no_slash_start u (remove_tabs s)).
  { intros c t Q. destruct (NS c t Q) as [N1 N2]. split; [exact N1|]. intros SP. apply N2. now apply special_spec. }
  pose proof (place_into E s enc u LS NS' (conj O1 O2)) as P. rewrite <- C in P. destruct P as (P1 & P2 & P3). cbn [fst snd] in *.
  unfold parse_new. destruct (unstripped s ST) as [-> ->]. cbn [when]. unfold bind, ret. destruct (parse_into E s (Some u) enc None new_url) as [l [v [[]|e]]]; cbn [fst snd] in *; [|auto].
  split; [exact P1|]. split; [exact P2|]. exact (P3 eq_refl).
Qed.
