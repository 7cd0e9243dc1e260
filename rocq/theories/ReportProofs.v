(** What the parser logs, in direct style; equal to what the model logs. *)
From Coq Require Import Ascii String.
From Coq Require Import NArith ZArith Bool Arith Lia ZifyBool ZifyN ZifyNat List.
From Verif Require Import PyStr PyInt Codec Env HostModel UrlRecord Parser FlatParser Lemmas CodecProofs QuoteProofs LoopProofs FlatProofs.
Import ListNotations.
Open Scope N_scope.

(* ---------- the log of a computation ---------- *)
Definition lg {A} (m : M A) (u : urlrec) : log := fst (m u).
Lemma lg_bind {A B} (m : M A) (f : A -> M B) u :
  lg (bind m f) u = lg m u ++ match snd (run m u) with Ok a => lg (f a) (fst (run m u)) | Err _ => [] end.
Proof. unfold lg, run, bind. destruct (m u) as [l [u' [a|e]]]; cbn [fst snd]; [now destruct (f a u')|now rewrite app_nil_r]. Qed.
Lemma lg_ret {A} (a : A) u : lg (ret a) u = []. Proof. reflexivity. Qed.
Lemma lg_get u : lg get u = []. Proof. reflexivity. Qed.
Lemma lg_modify f u : lg (modify f) u = []. Proof. reflexivity. Qed.
Lemma lg_logm v u : lg (logm v) u = [v]. Proof. reflexivity. Qed.
Lemma lg_raise {A} e u : lg (@raise A e) u = []. Proof. reflexivity. Qed.
Lemma lg_fail {A} v e u : lg (@fail A v e) u = [v]. Proof. reflexivity. Qed.
Lemma lg_lift {A} (w : W A) u : lg (lift w) u = fst w. Proof. reflexivity. Qed.
Definition rep (b : bool) (v : verr) : log := if b then [v] else [].
Lemma lg_when b v u : lg (when b (logm v)) u = rep b v. Proof. now destruct b. Qed.
Definition unit_errs (c : N) (t : str) : log :=
  rep (negb (is_url_cp [] [] c) && negb (c =? 37)) VInvalidURLUnit ++ rep ((c =? 37) && bad_percent t) VInvalidURLUnit.
Lemma lg_check c t u : lg (check_unit c t) u = unit_errs c t.
Proof. unfold check_unit. rewrite lg_bind, lg_when, run_when_log. cbn [fst snd]. now rewrite lg_when. Qed.
Global Hint Rewrite @lg_bind @lg_ret lg_get lg_modify lg_logm @lg_raise @lg_fail @lg_lift lg_when lg_check : lgs.
Ltac ln := repeat (autorewrite with lgs run; cbn [fst snd app]).

(* ---------- loops ---------- *)
Fixpoint frag_errs (s : str) : log := match s with [] => [] | c :: t => unit_errs c t ++ frag_errs t end.
Fixpoint query_errs (s : str) : log :=
  match s with [] => [] | c :: t => if c =? 35 then [] else unit_errs c t ++ query_errs t end.
Fixpoint path_errs (sp : bool) (s : str) : log :=
  match s with
  | [] => []
  | c :: t => if is_qf c then []
              else if (c =? 47) || (sp && (c =? 92)) then rep (sp && (c =? 92)) VInvalidReverseSolidus ++ path_errs sp t
              else unit_errs c t ++ path_errs sp t
  end.
Fixpoint opaque_errs (s : str) : log :=
  match s with [] => [] | c :: t => if is_qf c then [] else unit_errs c t ++ opaque_errs t end.

Lemma lg_fragment_loop rest : forall i buffer u f, fragment u = Some f -> lg (fragment_loop rest i buffer) u = frag_errs rest.
Proof.
  induction rest as [|c t IH]; intros i buffer u f H; cbn [fragment_loop frag_errs].
  - ln. unfold when. destruct (negb _); ln; [|reflexivity]. unfold fragment_append. ln. rewrite H. ln. reflexivity.
  - ln. now rewrite (IH _ _ _ f).
Qed.
Lemma lg_query_flush E encoding buffer u : lg (query_flush E encoding buffer) u = [].
Proof. unfold query_flush. ln. destruct (string_percent_encode _ _ _ _); ln; [|reflexivity]. unfold query_append. ln. destruct (query u); reflexivity. Qed.
Lemma lg_query_loop E encoding rest : forall i buffer u, lg (query_loop E None encoding rest i buffer) u = query_errs rest.
Proof.
  induction rest as [|c t IH]; intros i buffer u; cbn [query_loop query_errs overridden negb andb].
  - ln. unfold when. destruct (negb _); ln; [|reflexivity]. rewrite lg_query_flush. cbn [app]. now destruct (snd (run _ u)).
  - destruct (c =? 35).
    + ln. rewrite lg_query_flush. cbn [app]. destruct (snd (run _ u)); [|reflexivity]. ln. reflexivity.
    + ln. now rewrite IH.
Qed.
Lemma lg_opaque_loop rest : forall i u, lg (opaque_path_loop rest i) u = opaque_errs rest.
Proof.
  induction rest as [|c t IH]; intros i u; cbn [opaque_path_loop opaque_errs]; [reflexivity|].
  rewrite FlatProofs.qf_eq. destruct (c =? 63); [ln; reflexivity|]. destruct (c =? 35); [ln; reflexivity|]. cbn [orb].
  unfold path_extend. ln. now rewrite IH.
Qed.
Lemma lg_flush c buffer u l : path u = PList l -> lg (path_flush c buffer) u = [].
Proof.
  intros H. unfold path_flush. ln. cbv zeta. unfold shorten_path, path_append.
  destruct (str_in _ DOUBLE_DOT).
  { ln. rewrite H. ln. unfold when. destruct (negb _); ln; reflexivity. }
  destruct (str_in _ SINGLE_DOT).
  { unfold when. destruct (negb _); ln; [|reflexivity]. rewrite H. reflexivity. }
  ln. rewrite H. reflexivity.
Qed.
Lemma lg_path_loop rest : forall i buffer u l, path u = PList l ->
  lg (path_loop None rest i buffer) u = path_errs (is_special u) rest.
Proof.
  induction rest as [|c t IH]; intros i buffer u l H; cbn [path_loop path_errs overridden negb andb].
  - ln. rewrite (lg_flush _ _ _ l) by exact H. now destruct (snd (run _ u)).
  - ln. change (mem c $"?#") with (is_qf c).
    destruct ((c =? 47) || (is_special u && (c =? 92)) || is_qf c) eqn:Q.
    + ln. rewrite (lg_flush _ _ _ l) by exact H. rewrite (run_path_flush _ _ _ l) by exact H. cbn [fst snd app].
      rewrite FlatProofs.qf_eq. destruct (c =? 63) eqn:C1.
      { cbn [orb]. ln. unfold rep. replace (c =? 92) with false by lia. rewrite andb_false_r. reflexivity. }
      destruct (c =? 35) eqn:C2.
      { cbn [orb]. ln. unfold rep. replace (c =? 92) with false by lia. rewrite andb_false_r. reflexivity. }
      cbn [orb]. rewrite FlatProofs.qf_eq, C1, C2 in Q. cbn [orb] in Q. rewrite orb_false_r in Q. rewrite Q. f_equal.
      now erewrite IH by reflexivity.
    + apply orb_false_iff in Q as [Q1 Q2]. rewrite Q1, Q2. ln. now rewrite (IH _ _ _ l).
Qed.

Fixpoint at_errs (s : str) : log := match s with [] => [] | c :: t => rep (c =? 64) VInvalidCredentials ++ at_errs t end.
Lemma at_errs_app a b : at_errs (a ++ b) = at_errs a ++ at_errs b.
Proof. induction a as [|c a IH]; [reflexivity|]. cbn [app at_errs]. now rewrite IH, app_assoc. Qed.
Lemma lg_authority_end i buffer a u : lg (authority_end i buffer a) u = rep (a && (length buffer =? 0)%nat) VInvalidCredentials.
Proof. unfold authority_end. destruct (a && _); reflexivity. Qed.
Lemma lg_creds b f u : lg (when b (modify f)) u = [] /\ snd (run (when b (modify f)) u) = Ok tt.
Proof. destruct b; split; reflexivity. Qed.
Lemma lg_authority_loop rest : forall i buffer at1 seen u,
  lg (authority_loop rest i buffer at1 seen) u =
  let (a, _) := span (fun c => negb (ends_auth (is_special u) c)) rest in
  at_errs a ++
  match split_last 64 a with
  | None => rep (at1 && (length (buffer ++ a) =? 0)%nat) VInvalidCredentials
  | Some (_, hp) => rep (length hp =? 0)%nat VInvalidCredentials
  end.
Proof.
  induction rest as [|c t IH]; intros i buffer at1 seen u.
  - cbn [authority_loop span at_errs split_last app]. rewrite app_nil_r. apply lg_authority_end.
  - cbn [authority_loop]. destruct (c =? 64) eqn:Q.
    + apply N.eqb_eq in Q as ->. cbn [span].
      replace (ends_auth (is_special u) 64) with false by (unfold ends_auth; destruct (is_special u); reflexivity).
      rewrite lg_bind, lg_logm, run_logm. cbn [fst snd negb].
      set (bb := if at1 then _ else _).
      destruct (if seen then ([], bb, true) else find_colon_split bb) as [[user pass] seen'].
      rewrite lg_bind. destruct (lg_creds (negb (length user =? 0)%nat) (fun u => set_username (username u ++ utf8_percent_encode user SAFE_USERINFO false) u) u) as [-> ->].
      cbn [app]. rewrite lg_bind.
      set (u1 := fst (run (when (negb (length user =? 0)%nat) _) u)).
      destruct (lg_creds (negb (length pass =? 0)%nat) (fun u => set_password (password u ++ utf8_percent_encode pass SAFE_USERINFO false) u) u1) as [-> ->].
      cbn [app]. set (u2 := fst (run (when (negb (length pass =? 0)%nat) _) u1)).
      rewrite IH. assert (S2 : is_special u2 = is_special u).
      { unfold u2, u1. destruct (negb (length pass =? 0)%nat), (negb (length user =? 0)%nat); reflexivity. }
      rewrite S2. destruct (span (fun c0 => negb (ends_auth (is_special u) c0)) t) as [a b] eqn:Sp.
      cbn [at_errs split_last app andb]. change (64 =? 64) with true. unfold rep at 3. cbn [app]. f_equal. f_equal.
      destruct (split_last 64 a) as [[x y]|]; reflexivity.
    + ln. change (mem c $"/?#" || (is_special u && (c =? 92))) with (ends_auth (is_special u) c). cbn [span].
      destruct (ends_auth (is_special u) c); cbn [negb].
      * rewrite lg_authority_end. cbn [at_errs split_last app]. now rewrite app_nil_r.
      * rewrite IH. destruct (span (fun c0 => negb (ends_auth (is_special u) c0)) t) as [a b] eqn:Sp.
        cbn [at_errs split_last]. rewrite Q. cbn [rep app]. f_equal. rewrite <- app_assoc. cbn [app].
        destruct (split_last 64 a) as [[x y]|]; reflexivity.
Qed.

Lemma lg_host_end E i buffer u : lg (host_end E None i buffer) u =
  if is_special u && (length buffer =? 0)%nat then [VHostMissing] else fst (host_parse E buffer (is_not_special u)).
Proof.
  unfold host_end. ln. destruct (is_special u && _); [reflexivity|]. cbn [overridden andb]. ln.
  destruct (snd (host_parse E buffer (is_not_special u))); ln; now rewrite app_nil_r.
Qed.
Lemma lg_host_loop E rest : forall i buffer br u,
  lg (host_loop E None rest i buffer br) u =
  let (b, t) := host_scan (is_special u) br rest in
  if isc (cur t) 58 then
    if (length (buffer ++ b) =? 0)%nat then [VHostMissing] else fst (host_parse E (buffer ++ b) (is_not_special u))
  else if is_special u && (length (buffer ++ b) =? 0)%nat then [VHostMissing] else fst (host_parse E (buffer ++ b) (is_not_special u)).
Proof.
  induction rest as [|c t IH]; intros i buffer br u; cbn [host_loop host_scan].
  - cbn [cur isc]. rewrite app_nil_r. apply lg_host_end.
  - ln. destruct ((c =? 58) && negb br) eqn:C.
    + cbn [orb app cur isc]. apply andb_true_iff in C as [C _]. rewrite C. rewrite app_nil_r.
      destruct (length buffer =? 0)%nat; [reflexivity|]. cbn [is_hostname_override]. ln.
      destruct (snd (host_parse E buffer (is_not_special u))); ln; now rewrite app_nil_r.
    + cbn [orb]. change (mem c $"/?#" || (is_special u && (c =? 92))) with (ends_auth (is_special u) c).
      destruct (ends_auth (is_special u) c) eqn:En.
      * rewrite lg_host_end. rewrite app_nil_r. cbn [cur isc]. apply ends_auth_58 in En. now rewrite En.
      * rewrite IH. destruct (host_scan _ _ t) as [b r]. rewrite <- app_assoc. reflexivity.
Qed.
Definition port_errs (E : env) (ps : str) : log :=
  match ps with
  | [] => []
  | _ => match e_int E ps 10 with None => [] | Some z => rep (65535 <? Z.to_N z) VPortOutOfRange end
  end.
Lemma lg_port_end E i buffer u : lg (port_end E None i buffer) u = port_errs E buffer.
Proof.
  unfold port_end, port_errs. ln. destruct buffer as [|c b]; [reflexivity|].
  destruct (e_int E (c :: b) 10); [|reflexivity]. cbv zeta. destruct (65535 <? Z.to_N z); [reflexivity|]. ln.
  destruct (on_eqb _ _); ln; reflexivity.
Qed.
Lemma lg_port_loop E rest : forall i buffer u,
  lg (port_loop E None rest i buffer) u =
  let (d, t) := span (fun c => mem c ASCII_DIGITS) rest in
  if match t with [] => true | c :: _ => ends_auth (is_special u) c end
  then port_errs E (buffer ++ d) else [VPortInvalid].
Proof.
  induction rest as [|c t IH]; intros i buffer u; cbn [port_loop span].
  - rewrite app_nil_r. apply lg_port_end.
  - destruct (mem c ASCII_DIGITS).
    + rewrite IH. destruct (span _ t) as [d r]. rewrite <- app_assoc. reflexivity.
    + ln. cbn [overridden]. rewrite orb_false_r. change (mem c $"/?#" || (is_special u && (c =? 92))) with (ends_auth (is_special u) c).
      destruct (ends_auth (is_special u) c); [|reflexivity]. rewrite lg_port_end. now rewrite app_nil_r.
Qed.
Definition file_host_errs (E : env) (sp : bool) (h : str) : log :=
  if is_windows_drive_letter h then [VFileDriveLetterHost]
  else match h with [] => [] | _ => fst (host_parse E h (negb sp)) end.
Lemma lg_file_host_loop E rest : forall i buffer u,
  lg (file_host_loop E None rest i buffer) u = file_host_errs E (is_special u) (buffer ++ fst (span (fun c => negb (mem c $"/\?#")) rest)).
Proof.
  assert (G : forall i buffer u, lg (file_host_end E None i buffer) u = file_host_errs E (is_special u) buffer).
  { intros i buffer u. unfold file_host_end, file_host_errs. cbn [overridden negb andb].
    destruct (is_windows_drive_letter buffer); [ln; reflexivity|]. destruct buffer as [|c b]; [ln; reflexivity|]. ln.
    change (is_not_special u) with (negb (is_special u)). destruct (snd (host_parse E (c :: b) (negb (is_special u)))); ln; now rewrite ?app_nil_r. }
  induction rest as [|c t IH]; intros i buffer u; cbn [file_host_loop span].
  - cbn [fst]. rewrite app_nil_r. apply G.
  - destruct (mem c $"/\?#"); cbn [negb fst]; [rewrite app_nil_r; apply G|]. rewrite IH.
    destruct (span _ t) as [h r]. cbn [fst]. now rewrite <- app_assoc.
Qed.
Fixpoint slash_errs (s : str) : log :=
  match s with [] => [] | c :: t => if is_slash c then VSpecialSchemeMissingSolidus :: slash_errs t else [] end.
Lemma lg_ignore_slashes rest : forall i u, lg (ignore_slashes_loop rest i) u = slash_errs rest.
Proof.
  induction rest as [|c t IH]; intros i u; cbn [ignore_slashes_loop slash_errs]; [reflexivity|].
  change (mem c $"/\") with (is_slash c). destruct (is_slash c); [|reflexivity]. ln. now rewrite IH.
Qed.

(* ---------- the log of the machine ---------- *)
Definition frag_tail (t : str) : log := match t with [] => [] | _ :: f => frag_errs f end.
Definition query_log (rest : str) : log := query_errs rest ++ frag_tail (snd (span (fun c => negb (c =? 35)) rest)).
Definition tail_log (t : str) : log :=
  match t with [] => [] | c :: r => if c =? 63 then query_log r else frag_errs r end.
Definition path_log (sp : bool) (rest : str) : log := path_errs sp rest ++ tail_log (snd (span (fun c => negb (is_qf c)) rest)).
Definition opaque_log (rest : str) : log := opaque_errs rest ++ tail_log (snd (span (fun c => negb (is_qf c)) rest)).
Definition if_ok {A} (r : res A) (l : log) : log := match r with Ok _ => l | Err _ => [] end.
Definition port_log (E : env) (sch ps : str) (l : log) : log :=
  if forallb (fun c => mem c ASCII_DIGITS) ps then port_errs E ps ++ if_ok (flat_port E sch ps) l else [VPortInvalid].
Definition host_log (E : env) (sch a t : str) : log :=
  let sp := special_scheme sch in
  match host_cut false a with
  | (h, None) =>
      if sp && (length h =? 0)%nat then [VHostMissing]
      else fst (host_parse E h (negb sp)) ++ if_ok (snd (host_parse E h (negb sp))) (path_log sp t)
  | (h, Some ps) =>
      if (length h =? 0)%nat then [VHostMissing]
      else fst (host_parse E h (negb sp)) ++ if_ok (snd (host_parse E h (negb sp))) (port_log E sch ps (path_log sp t))
  end.
Definition authority_log (E : env) (sch rest : str) : log :=
  let (a, t) := span (fun c => negb (ends_auth (special_scheme sch) c)) rest in
  at_errs a ++
  match split_last 64 a with
  | None => host_log E sch a t
  | Some (_, hp) => if (length hp =? 0)%nat then [VInvalidCredentials] else host_log E sch hp t
  end.
Definition ignore_log (E : env) (sch rest : str) : log := slash_errs rest ++ authority_log E sch (drop_while is_slash rest).
Definition file_host_log (E : env) (rest : str) : log :=
  let (h, t) := span (fun c => negb (mem c $"/\?#")) rest in
  file_host_errs E true h ++
  if is_windows_drive_letter h then path_log true rest
  else match h with [] => path_log true t | _ => if_ok (snd (host_parse E h false)) (path_log true t) end.
Definition file_slash_log (E : env) (rest : str) : log :=
  match rest with
  | c :: t => if is_slash c then rep (c =? 92) VInvalidReverseSolidus ++ file_host_log E t else path_log true rest
  | [] => path_log true rest
  end.
Definition file_log (E : env) (base : option urlrec) (rest : str) : log :=
  match rest with
  | c :: t =>
      if is_slash c then rep (c =? 92) VInvalidReverseSolidus ++ file_slash_log E t
      else rep (same_scheme base $"file" && starts_with_windows_drive_letter rest) VFileDriveLetter ++ path_log true rest
  | [] => []
  end.
Definition relative_slash_log (E : env) (sch rest : str) : log :=
  match rest with
  | c :: t =>
      if special_scheme sch && is_slash c then rep (c =? 92) VInvalidReverseSolidus ++ ignore_log E sch t
      else if c =? 47 then authority_log E sch t else path_log (special_scheme sch) rest
  | [] => []
  end.
Definition relative_log (E : env) (sch rest : str) : log :=
  match rest with
  | c :: t =>
      if (c =? 47) || (special_scheme sch && (c =? 92))
      then rep (c =? 92) VInvalidReverseSolidus ++ relative_slash_log E sch t
      else path_log (special_scheme sch) rest
  | [] => []
  end.
Definition scheme_log (E : env) (base : option urlrec) (sch t : str) : log :=
  if str_eqb sch $"file" then rep (negb (starts_with $"//" t)) VSpecialSchemeMissingSolidus ++ file_log E base t
  else if special_scheme sch then
    if starts_with $"//" t then ignore_log E sch (skipn 2 t)
    else VSpecialSchemeMissingSolidus :: (if same_scheme base sch then relative_log E sch t else ignore_log E sch t)
  else match t with
       | c :: r => if c =? 47
                   then match r with
                        | d :: r' => if d =? 47 then authority_log E sch r' else path_log false r
                        | [] => []
                        end
                   else opaque_log t
       | [] => []
       end.
Definition no_scheme_log (E : env) (base : option urlrec) (rest : str) : log :=
  match base with
  | None => [VMissingScheme]
  | Some b =>
      if has_opaque_path b then
        match rest with
        | c :: f => if c =? 35 then frag_errs f else [VMissingScheme]
        | [] => [VMissingScheme]
        end
      else if str_eqb (scheme b) $"file" then file_log E base rest
      else relative_log E (scheme b) rest
  end.
Definition main_log (E : env) (base : option urlrec) (s : str) : log :=
  match scheme_split s with
  | Some (sch, t) => scheme_log E base (lower sch) t
  | None => no_scheme_log E base s
  end.

Section Fsm.
Context (E : env) (base : option urlrec) (enc : str).
Hypothesis encodes : forall u q, enc_query E enc u q <> None.

Definition fl (n : nat) (st : pstate) (rest : str) (u : urlrec) : log := lg (run_fsm n E base enc None st rest) u.
Lemma fl_eof n rest u : fl n EOF rest u = [].
Proof. unfold fl. destruct n; reflexivity. Qed.
Lemma fl_step n st rest u : st <> EOF ->
  fl (S n) st rest u =
  lg (step E base enc None st rest) u ++
  match snd (run (step E base enc None st rest) u) with
  | Ok r => fl n (fst r) (skipn (snd r) rest) (fst (run (step E base enc None st rest) u))
  | Err e => []
  end.
Proof.
  intros H. unfold fl.
  assert (G : run_fsm (S n) E base enc None st rest =
    bind (step E base enc None st rest) (fun r => run_fsm n E base enc None (fst r) (skipn (snd r) rest)))
    by (destruct st; try reflexivity; congruence).
  now rewrite G, lg_bind.
Qed.
Ltac st := rewrite fl_step by discriminate; cbn [step].

Lemma fl_fragment n rest u f : fragment u = Some f -> fl (S n) FRAGMENT rest u = frag_errs rest.
Proof. intros H. st. unfold parse_fragment. rewrite (lg_fragment_loop _ _ _ _ f), (run_fragment_loop _ _ _ _ f) by auto. cbn [fst snd]. rewrite fl_eof. apply app_nil_r. Qed.
Lemma fl_fragment_nil n u : fl (S n) FRAGMENT [] u = [].
Proof. st. unfold parse_fragment. cbn [fragment_loop]. ln. apply fl_eof. Qed.
Lemma fl_query n rest u : fl (S (S n)) QUERY rest (set_query (Some []) u) = query_log rest.
Proof.
  st. unfold parse_query. rewrite lg_query_loop, (run_query_loop _ _ _ _ _ _ _ []) by reflexivity. unfold query_log. f_equal.
  rewrite (span_ext _ (fun c => negb (c =? 35))) by exact not_hash_none.
  destruct (span (fun c => negb (c =? 35)) rest) as [q t] eqn:Q. cbn [app].
  destruct (enc_query E enc (set_query (Some []) u) q) as [x|] eqn:X; [|now apply encodes in X]. cbn [app]. cbv zeta.
  pose proof (skipn_span (fun c => negb (c =? 35)) rest) as K1.
  pose proof (skipn_span1 (fun c => negb (c =? 35)) rest) as K2. rewrite Q in K1, K2. cbn [fst snd] in K1, K2.
  destruct t as [|c t]; cbn [fst snd Nat.add frag_tail].
  - rewrite K1. apply fl_fragment_nil.
  - rewrite K2. cbn [tl]. now rewrite (fl_fragment _ _ _ []).
Qed.
Lemma fl_path n rest u l : path u = PList l -> fl (S (S (S n))) PATH rest u = path_log (is_special u) rest.
Proof.
  intros H. st. unfold parse_path. rewrite (lg_path_loop _ _ _ _ l) by auto. rewrite (run_path_loop _ _ _ _ _ l) by (auto; constructor).
  unfold path_log. f_equal. rewrite (span_ext _ (fun c => negb (is_qf c))) by exact in_path_none.
  destruct (span (fun c => negb (is_qf c)) rest) as [p t] eqn:Q. cbn [app]. cbv zeta.
  pose proof (skipn_span (fun c => negb (is_qf c)) rest) as K1.
  pose proof (skipn_span1 (fun c => negb (is_qf c)) rest) as K2. rewrite Q in K1, K2. cbn [fst snd] in K1, K2.
  destruct t as [|c t]; cbn [snd tail_log].
  - cbn [fst snd Nat.add]. rewrite K1. st. unfold parse_opaque_path. cbn [opaque_path_loop]. ln. apply fl_eof.
  - destruct (c =? 63); cbn [fst snd Nat.add]; rewrite K2; cbn [tl]; [apply fl_query|now rewrite (fl_fragment _ _ _ [])].
Qed.
Lemma fl_opaque n rest u s : path u = POpaque s -> fl (S (S (S n))) OPAQUE_PATH rest u = opaque_log rest.
Proof.
  intros H. st. unfold parse_opaque_path. rewrite lg_opaque_loop, (run_opaque_loop _ _ _ s) by auto. unfold opaque_log. f_equal.
  destruct (span (fun c => negb (is_qf c)) rest) as [p t] eqn:Q. cbv zeta.
  pose proof (skipn_span1 (fun c => negb (is_qf c)) rest) as K2. rewrite Q in K2. cbn [fst snd] in K2.
  destruct t as [|c t]; cbn [snd tail_log].
  - cbn [fst snd]. apply fl_eof.
  - destruct (c =? 63); cbn [fst snd Nat.add]; rewrite K2; cbn [tl]; [apply fl_query|now rewrite (fl_fragment _ _ _ [])].
Qed.
Lemma path_log_qf sp c t : is_qf c = true -> path_log sp (c :: t) = tail_log (c :: t).
Proof. intros H. unfold path_log. cbn [path_errs span]. rewrite H. reflexivity. Qed.
Lemma path_log_slash sp c t : (c =? 47) || (sp && (c =? 92)) = true ->
  path_log sp (c :: t) = rep (sp && (c =? 92)) VInvalidReverseSolidus ++ path_log sp t.
Proof.
  intros H. unfold path_log. cbn [path_errs span]. assert (Q : is_qf c = false) by (rewrite FlatProofs.qf_eq; destruct sp; lia).
  rewrite Q, H. cbn [negb]. destruct (span (fun c => negb (is_qf c)) t). cbn [snd]. now rewrite app_assoc.
Qed.
Lemma fl_path_start n rest u l : path u = PList l ->
  fl (S (S (S (S n)))) PATH_START rest u = path_log (is_special u) rest.
Proof.
  intros H. st. unfold parse_path_start. ln. cbv zeta.
  destruct rest as [|c t]; cbn [cur isc iscp iseof negb].
  - destruct (is_special u) eqn:SP; ln.
    + cbn [skipn rep app]. rewrite (fl_path _ _ _ l) by auto. now rewrite SP.
    + cbn [overridden andb negb when]. ln. apply fl_eof.
  - destruct (is_special u) eqn:SP; ln.
    + change (mem c $"/\") with (is_slash c). rewrite FlatProofs.slash_eq. rewrite (fl_path _ _ _ l) by auto. rewrite SP.
      destruct ((c =? 47) || (c =? 92)) eqn:C; cbn [skipn].
      * rewrite app_nil_r. now rewrite path_log_slash by (cbn [andb]; exact C).
      * replace (c =? 92) with false by lia. reflexivity.
    + cbn [overridden negb andb]. destruct (c =? 63) eqn:C1; ln.
      { cbn [skipn]. rewrite path_log_qf by (rewrite FlatProofs.qf_eq; lia). cbn [tail_log]. rewrite C1. apply fl_query. }
      destruct (c =? 35) eqn:C2; ln.
      { cbn [skipn]. rewrite path_log_qf by (rewrite FlatProofs.qf_eq; lia). cbn [tail_log]. rewrite C1. now rewrite (fl_fragment _ _ _ []). }
      rewrite (fl_path _ _ _ l) by auto. rewrite SP. destruct (c =? 47) eqn:C3; cbn [skipn]; [|reflexivity].
      rewrite path_log_slash by (rewrite C3; reflexivity). reflexivity.
Qed.
Lemma fl_port n ps t u l : path u = PList l ->
  Forall (fun c => ends_auth (is_special u) c = false) ps -> auth_stop (is_special u) t ->
  fl (S (S (S (S (S n))))) PORT (ps ++ t) u = port_log E (scheme u) ps (path_log (is_special u) t).
Proof.
  intros H Hps Ht. st. unfold parse_port. rewrite lg_port_loop, run_port_loop. unfold port_log, flat_port.
  destruct (forallb (fun c => mem c ASCII_DIGITS) ps) eqn:D.
  - rewrite span_app.
    2:{ apply Forall_forall. now rewrite forallb_forall in D. }
    2:{ destruct t as [|c t]; [exact I|]. now apply digit_not_end in Ht. }
    assert (TT : match t with [] => true | c :: _ => ends_auth (is_special u) c || overridden None end = true).
    { destruct t as [|c t]; [reflexivity|]. unfold auth_stop in Ht. now rewrite Ht. }
    assert (TT' : match t with [] => true | c :: _ => ends_auth (is_special u) c end = true).
    { destruct t as [|c t]; [reflexivity|]. exact Ht. }
    rewrite TT, TT'. cbn [app Nat.add]. f_equal. unfold port_end. cbn [overridden]. rn.
    destruct ps as [|d ps].
    + rn. cbn [length skipn app if_ok]. now rewrite (fl_path_start _ _ _ l).
    + destruct (e_int E (d :: ps) 10) as [z|]; [|rn; reflexivity].
      cbv zeta. destruct (65535 <? Z.to_N z); rn; [reflexivity|].
      assert (SK : skipn (length (d :: ps)) ((d :: ps) ++ t) = t) by (rewrite skipn_app, skipn_all, Nat.sub_diag; reflexivity).
      destruct (on_eqb (default_port (scheme u)) (Some (Z.to_N z))); rn; rewrite SK; cbn [if_ok];
        rewrite (fl_path_start _ _ _ l) by auto; reflexivity.
  - destruct (span (fun c => mem c ASCII_DIGITS) ps) as [d r] eqn:SS.
    pose proof (span_eq (fun c => mem c ASCII_DIGITS) ps) as Q. pose proof (span_all (fun c => mem c ASCII_DIGITS) ps) as A.
    pose proof (span_stop (fun c => mem c ASCII_DIGITS) ps) as St. rewrite SS in Q, A, St. cbn [fst snd] in *.
    destruct r as [|x r].
    + exfalso. rewrite app_nil_r in Q. subst d. rewrite Forall_forall in A. rewrite <- forallb_forall in A. congruence.
    + rewrite Q, <- app_assoc, span_app; [|exact A|exact St].
      cbn [app]. rewrite Q in Hps. apply Forall_app in Hps as [_ Hps]. inversion Hps; subst.
      rewrite H2. reflexivity.
Qed.
Lemma fl_host n a t u l : path u = PList l ->
  Forall (fun c => ends_auth (is_special u) c = false) a -> auth_stop (is_special u) t ->
  fl (S (S (S (S (S (S n)))))) HOST (a ++ t) u = host_log E (scheme u) a t.
Proof.
  intros H Ha Ht. st. unfold parse_host. cbn [overridden andb]. ln. rewrite lg_host_loop, run_host_loop, host_scan_cut by auto.
  unfold host_log. cbv zeta. change (special_scheme (scheme u)) with (is_special u).
  pose proof (host_cut_eq false a) as Q. destruct (host_cut false a) as [h [ps|]]; cbn [fst snd] in Q.
  - cbn [app Nat.add cur isc is_hostname_override N.eqb Pos.eqb]. destruct (length h =? 0)%nat; [reflexivity|]. f_equal.
    change (is_not_special u) with (negb (is_special u)).
    destruct (snd (host_parse E h (negb (is_special u)))) as [x|e]; [|reflexivity]. cbn [fst snd if_ok].
    assert (SK : skipn (S (length h)) (a ++ t) = ps ++ t).
    { rewrite Q, <- app_assoc. rewrite skipn_app, skipn_all2 by lia.
      replace (S (length h) - length h)%nat with 1%nat by lia. reflexivity. }
    rewrite SK. rewrite Q in Ha. apply Forall_app in Ha as [_ Ha]. inversion Ha; subst.
    rewrite (fl_port _ _ _ _ l); auto.
  - rewrite app_nil_r in Q. subst h. cbn [app Nat.add].
    assert (C : isc (cur t) 58 = false).
    { destruct t as [|c t]; [reflexivity|]. cbn [cur isc]. now apply ends_auth_58 in Ht. }
    rewrite C. unfold host_end. rn. destruct (is_special u && (length a =? 0)%nat); [rn; reflexivity|].
    cbn [overridden andb]. rn. f_equal. change (is_not_special u) with (negb (is_special u)).
    destruct (snd (host_parse E a (negb (is_special u)))) as [x|e]; [|reflexivity].
    rn. cbn [if_ok]. rewrite skipn_app, skipn_all, Nat.sub_diag. cbn [app skipn].
    now rewrite (fl_path_start _ _ _ l).
Qed.
Lemma fl_authority n rest u l : path u = PList l ->
  fl (S (S (S (S (S (S (S n))))))) AUTHORITY rest u = authority_log E (scheme u) rest.
Proof.
  intros B. st. unfold parse_authority. ln. rewrite lg_authority_loop, run_authority_loop by (cbn; lia).
  unfold authority_log. change (special_scheme (scheme u)) with (is_special u).
  destruct (span (fun c => negb (ends_auth (is_special u) c)) rest) as [a t] eqn:SS.
  pose proof (span_eq (fun c => negb (ends_auth (is_special u) c)) rest) as Q.
  pose proof (span_all (fun c => negb (ends_auth (is_special u) c)) rest) as A.
  pose proof (span_stop (fun c => negb (ends_auth (is_special u) c)) rest) as St. rewrite SS in Q, A, St. cbn [fst snd] in *.
  assert (A' : Forall (fun c => ends_auth (is_special u) c = false) a).
  { eapply Forall_impl; [|exact A]. cbv beta. intros c Hc. now apply negb_true_iff. }
  assert (St' : auth_stop (is_special u) t).
  { unfold auth_stop. destruct t; auto. now apply negb_false_iff. }
  clear A St. cbn [length Nat.sub app at_prefix andb]. rewrite <- !app_assoc. f_equal.
  pose proof (split_last_spec 64 a) as SL. destruct (split_last 64 a) as [[ui hp]|].
  - cbv zeta. destruct SL as [-> _]. destruct (length hp =? 0)%nat; [reflexivity|]. cbn [fst snd Nat.add rep app]. ln.
    assert (SK : skipn (S (length ui)) rest = hp ++ t).
    { rewrite Q, <- app_assoc. rewrite skipn_app, skipn_all2 by lia.
      replace (S (length ui) - length ui)%nat with 1%nat by lia. reflexivity. }
    rewrite SK. apply Forall_app in A' as [_ A']. inversion A'; subst.
    assert (SP : scheme (add_creds false ui u) = scheme u) by (unfold add_creds; destruct (split_first 58 ui); reflexivity).
    assert (SP2 : path (add_creds false ui u) = path u) by (unfold add_creds; destruct (split_first 58 ui); reflexivity).
    rewrite <- SP. apply (fl_host _ _ _ _ l).
    + now rewrite SP2.
    + unfold is_special. rewrite SP. exact H2.
    + unfold is_special. rewrite SP. exact St'.
  - cbn [fst snd rep app]. ln. cbn [skipn]. rewrite Q. now apply (fl_host _ _ _ _ l).
Qed.
Lemma fl_ignore n rest u l : path u = PList l ->
  fl (8 + n) SPECIAL_AUTHORITY_IGNORE_SLASHES rest u = ignore_log E (scheme u) rest.
Proof.
  intros B. cbn [Nat.add]. st. unfold parse_ignore_slashes. rewrite lg_ignore_slashes, run_ignore_slashes. cbn [fst snd Nat.add].
  unfold ignore_log. f_equal. rewrite skipn_span, span_drop. now apply (fl_authority _ _ _ l).
Qed.
Lemma fl_slashes n rest u l : path u = PList l ->
  fl (9 + n) SPECIAL_AUTHORITY_SLASHES rest u =
  if starts_with $"//" rest then ignore_log E (scheme u) (skipn 2 rest) else VSpecialSchemeMissingSolidus :: ignore_log E (scheme u) rest.
Proof.
  intros B. cbn [Nat.add]. st. unfold parse_special_authority_slashes.
  destruct (starts_with $"//" rest) eqn:Q; ln.
  - now apply (fl_ignore n _ _ l).
  - cbn [skipn]. f_equal. now apply (fl_ignore n _ _ l).
Qed.
Lemma path_log_nil sp : path_log sp [] = []. Proof. reflexivity. Qed.
Lemma fl_poa n rest u l : path u = PList l -> is_special u = false ->
  fl (8 + n) PATH_OR_AUTHORITY rest u =
  match rest with
  | d :: r => if d =? 47 then authority_log E (scheme u) r else path_log false rest
  | [] => []
  end.
Proof.
  intros B SP. cbn [Nat.add]. st. unfold parse_path_or_authority.
  destruct rest as [|d r]; cbn [cur isc].
  - ln. cbn [skipn]. now rewrite (fl_path _ _ _ l).
  - destruct (d =? 47); ln; cbn [skipn].
    + now apply (fl_authority _ _ _ l).
    + rewrite (fl_path _ _ _ l) by auto. now rewrite SP.
Qed.

(* ---------- file ---------- *)
Lemma fl_file_host n rest u l : path u = PList l -> is_special u = true -> fl (5 + n) FILE_HOST rest u = file_host_log E rest.
Proof.
  intros H SP. cbn [Nat.add]. st. unfold parse_file_host. rewrite lg_file_host_loop, run_file_host_loop. unfold file_host_log. rewrite SP.
  destruct (span (fun c => negb (mem c $"/\?#")) rest) as [h t] eqn:SS.
  pose proof (skipn_span (fun c => negb (mem c $"/\?#")) rest) as K. rewrite SS in K. cbn [fst snd] in K.
  cbn [fst app Nat.add]. f_equal. unfold file_host_end. cbn [overridden negb andb].
  destruct (is_windows_drive_letter h) eqn:D.
  - rn. rewrite Nat.sub_diag. cbn [skipn]. rewrite (fl_path _ _ _ l) by auto. now rewrite SP.
  - destruct h as [|c h].
    + rn. rewrite K. rewrite (fl_path_start _ _ _ l) by auto. unfold is_special in *. cbn [scheme set_host]. now rewrite SP.
    + rn. change (is_not_special u) with (negb (is_special u)). rewrite SP. cbn [negb].
      destruct (snd (host_parse E (c :: h) false)) as [x|e]; [|reflexivity].
      rn. rewrite K. cbn [if_ok]. rewrite (fl_path_start _ _ _ l) by auto. unfold is_special in *. cbn [scheme set_host]. now rewrite SP.
Qed.
Lemma lg_fs_base rest u l b : path u = PList l ->
  let m := (modify (set_host (uhost b)) ;;
           match path b with
           | PList (s :: _) =>
               when (negb (starts_with_windows_drive_letter rest) && is_normalized_windows_drive_letter s)
                 (u <- get;; match path u with POpaque _ => raise EAssert | PList _ => path_append s end)
           | _ => ret tt
           end ;; ret (PATH, 0%nat)) in
  lg m u = [] /\ exists u' l', run m u = (u', Ok (PATH, 0%nat)) /\ path u' = PList l' /\ scheme u' = scheme u.
Proof.
  intros H. cbv zeta. destruct (path b) as [x|[|s r]].
  - split; [reflexivity|]. exists (set_host (uhost b) u), l. now rewrite <- H.
  - split; [reflexivity|]. exists (set_host (uhost b) u), l. now rewrite <- H.
  - destruct (negb (starts_with_windows_drive_letter rest) && is_normalized_windows_drive_letter s); cbn [when].
    + split.
      * ln. unfold path_append. ln. cbn [path set_host]. rewrite H. ln. cbn [path set_host]. rewrite H. ln. reflexivity.
      * rn. cbn [path set_host]. rewrite H. rewrite (run_append _ l) by exact H. rn. do 2 eexists. split; [reflexivity|]. split; reflexivity.
    + split; [reflexivity|]. exists (set_host (uhost b) u), l. now rewrite <- H.
Qed.
Lemma fl_file_slash n rest u l : path u = PList l -> is_special u = true ->
  fl (6 + n) FILE_SLASH rest u = file_slash_log E rest.
Proof.
  intros H SP. cbn [Nat.add]. st. unfold parse_file_slash, file_slash_log. cbv zeta.
  assert (G : forall m, lg m u = [] -> (exists u' l', run m u = (u', Ok (PATH, 0%nat)) /\ path u' = PList l' /\ scheme u' = scheme u) ->
    lg m u ++ match snd (run m u) with Ok r => fl (S (S (S (S (S n))))) (fst r) (skipn (snd r) rest) (fst (run m u)) | Err _ => [] end = path_log true rest).
  { intros m -> (u' & l' & -> & P & Sc). cbn [fst snd skipn app]. rewrite (fl_path _ _ _ l') by exact P.
    unfold is_special in *. rewrite Sc. now rewrite SP. }
  assert (G2 : forall m, m = (match base with
      | Some b =>
          if str_eqb (scheme b) $"file"
          then
           modify (set_host (uhost b));;
           match path b with
           | PList (s :: _) =>
               when (negb (starts_with_windows_drive_letter rest) && is_normalized_windows_drive_letter s)
                 (u <- get;; match path u with POpaque _ => raise EAssert | PList _ => path_append s end)
           | _ => ret tt
           end;; ret (PATH, 0%nat)
          else ret (PATH, 0%nat)
      | None => ret (PATH, 0%nat)
      end) -> lg m u ++ match snd (run m u) with Ok r => fl (S (S (S (S (S n))))) (fst r) (skipn (snd r) rest) (fst (run m u)) | Err _ => [] end = path_log true rest).
  { intros m ->. apply G.
    - destruct base as [b|]; [|reflexivity]. destruct (str_eqb _ _); [|reflexivity]. apply (lg_fs_base rest u l b H).
    - destruct base as [b|]; [|exists u, l; auto]. destruct (str_eqb _ _); [|exists u, l; auto]. apply (lg_fs_base rest u l b H). }
  destruct rest as [|c t]; cbn [cur iscp isc]; [now apply G2|].
  fold (is_slash c). destruct (is_slash c); [|now apply G2]. ln. rewrite app_nil_r. f_equal. cbn [skipn]. now apply (fl_file_host _ _ _ l).
Qed.
Lemma fl_file n rest u : base_ok base -> path u = PList [] ->
  fl (7 + n) FILE rest u = file_log E base rest.
Proof.
  intros BO HU. cbn [Nat.add]. st. unfold parse_file, file_log. ln. cbv zeta.
  set (fu := set_host (Some (HStr [])) (set_scheme $"file" u)).
  assert (FS : is_special fu = true) by reflexivity. assert (FP : path fu = PList []) by exact HU.
  assert (NO : fl (S (S (S (S (S (S n)))))) PATH rest fu = path_log true rest).
  { rewrite (fl_path _ _ _ []) by exact FP. now rewrite FS. }
  assert (REL : forall b, base = Some b -> scheme b = $"file" -> exists l, path b = PList l).
  { intros b -> Hf. cbn in BO. unfold is_special in BO. rewrite Hf in BO. specialize (BO eq_refl).
    unfold has_opaque_path in BO. destruct (path b); [discriminate|eauto]. }
  clearbody fu.
  destruct rest as [|c t]; cbn [cur iscp isc iseof negb same_scheme].
  - destruct base as [b|]; [|ln; exact NO]. destruct (str_eqb (scheme b) $"file") eqn:F; [|ln; exact NO].
    apply str_eqb_eq in F. destruct (REL b eq_refl F) as [l HL]. ln. cbn [skipn].
    rewrite (fl_path _ _ _ l) by exact HL. reflexivity.
  - fold (is_slash c). destruct (is_slash c).
    { ln. rewrite app_nil_r. f_equal. cbn [skipn]. now apply (fl_file_slash n _ _ []). }
    destruct base as [b|]; [|ln; exact NO]. cbn [same_scheme]. destruct (str_eqb (scheme b) $"file") eqn:F; [|ln; exact NO].
    apply str_eqb_eq in F. destruct (REL b eq_refl F) as [l HL]. ln. cbn [andb].
    assert (DL : is_qf c = true -> starts_with_windows_drive_letter (c :: t) = false).
    { rewrite FlatProofs.qf_eq. intros Q. unfold starts_with_windows_drive_letter. destruct t as [|d t]; [reflexivity|].
      cbn [firstn is_windows_drive_letter]. replace (mem c ASCII_ALPHA) with false; [now rewrite andb_false_r|].
      symmetry. apply mem_not_In. intros I. cbn in I. lia. }
    destruct (c =? 63) eqn:C1; ln.
    { rewrite DL by (rewrite FlatProofs.qf_eq, C1; reflexivity). cbn [rep app skipn]. rewrite path_log_qf by (rewrite FlatProofs.qf_eq, C1; reflexivity).
      cbn [tail_log]. rewrite C1. apply fl_query. }
    destruct (c =? 35) eqn:C2; ln.
    { rewrite DL by (rewrite FlatProofs.qf_eq, C1, C2; reflexivity). cbn [rep app skipn]. rewrite path_log_qf by (rewrite FlatProofs.qf_eq, C1, C2; reflexivity).
      cbn [tail_log]. rewrite C1. now rewrite (fl_fragment _ _ _ []). }
    destruct (starts_with_windows_drive_letter (c :: t)); cbn [negb rep]; ln.
    + cbn [skipn]. rewrite (fl_path _ _ _ []) by reflexivity. unfold is_special in *. cbn [scheme set_host set_path set_query]. now rewrite FS.
    + rewrite (run_shorten _ l) by exact HL. unfold shorten_path. ln. cbn [path set_host set_path set_query]. rewrite HL. ln.
      cbn [skipn]. rewrite (fl_path _ _ _ (shorten_segs (scheme fu) l)) by reflexivity. unfold is_special in *. cbn [scheme set_host set_path set_query]. now rewrite FS.
Qed.

(* ---------- relative ---------- *)
Lemma fl_relative_slash n rest b u : base = Some b -> path u = PList [] ->
  fl (9 + n) RELATIVE_SLASH rest u = relative_slash_log E (scheme u) rest.
Proof.
  intros HB B. cbn [Nat.add]. st. unfold parse_relative_slash, relative_slash_log. ln. cbv zeta. rewrite HB.
  change (special_scheme (scheme u)) with (is_special u).
  assert (NO : fl (S (S (S (S (S (S (S (S n)))))))) PATH rest (base_auth b u) = path_log (is_special u) rest).
  { now rewrite (fl_path _ _ _ []). }
  destruct rest as [|c t]; cbn [cur iscp isc].
  - rewrite andb_false_r. ln. exact NO.
  - fold (is_slash c). destruct (is_special u && is_slash c); ln.
    + rewrite app_nil_r. f_equal. cbn [skipn]. now apply (fl_ignore n _ _ []).
    + destruct (c =? 47); ln; cbn [skipn]; [now apply (fl_authority _ _ _ [])|exact NO].
Qed.
Lemma fl_relative n rest b u : base = Some b -> has_opaque_path b = false -> scheme b <> $"file" -> path u = PList [] ->
  fl (10 + n) RELATIVE rest u = relative_log E (scheme b) rest.
Proof.
  intros HB HO NF B. cbn [Nat.add]. st. unfold parse_relative, relative_log. rewrite HB.
  replace (str_eqb (scheme b) $"file") with false by (symmetry; now apply str_eqb_neq). ln. cbv zeta.
  set (u' := set_scheme (scheme b) u). change (special_scheme (scheme b)) with (is_special u').
  assert (PU : path u' = PList []) by exact B. assert (SU : scheme u' = scheme b) by reflexivity. clearbody u'.
  assert (exists l, path b = PList l) as [l HL].
  { unfold has_opaque_path in HO. destruct (path b); [discriminate|eauto]. }
  destruct rest as [|c t]; cbn [cur isc iseof negb].
  - rewrite andb_false_r. ln. apply fl_eof.
  - destruct (c =? 47) eqn:C; [|destruct (is_special u' && (c =? 92)) eqn:C9]; cbn [orb]; ln.
    + replace (c =? 92) with false by lia. cbn [rep app skipn]. rewrite <- SU. now apply (fl_relative_slash n _ b).
    + apply andb_true_iff in C9 as [_ C9]. rewrite C9. cbn [rep app skipn]. f_equal. rewrite <- SU. now apply (fl_relative_slash n _ b).
    + destruct (c =? 63) eqn:C1; ln.
      { rewrite path_log_qf by (rewrite FlatProofs.qf_eq, C1; reflexivity). cbn [tail_log skipn]. rewrite C1. apply fl_query. }
      destruct (c =? 35) eqn:C2; ln.
      { rewrite path_log_qf by (rewrite FlatProofs.qf_eq, C1, C2; reflexivity). cbn [tail_log skipn]. rewrite C1. now rewrite (fl_fragment _ _ _ []). }
      rewrite (run_shorten _ l) by exact HL. unfold shorten_path. ln. cbn [path set_host set_path set_query]. rewrite HL. ln.
      cbn [skipn]. rewrite (fl_path _ _ _ (shorten_segs (scheme u') l)) by reflexivity. reflexivity.
Qed.

(* ---------- the start of the input ---------- *)
Lemma fl_no_scheme n rest : base_ok base -> fl (11 + n) NO_SCHEME rest new_url = no_scheme_log E base rest.
Proof.
  intros BO. cbn [Nat.add]. st. unfold parse_no_scheme, no_scheme_log. cbv zeta.
  destruct base as [b|] eqn:HB; [|reflexivity].
  destruct (has_opaque_path b) eqn:HO; cbn [andb].
  - destruct rest as [|c t]; cbn [cur isc]; [reflexivity|]. destruct (c =? 35); cbn [negb]; [|reflexivity]. ln.
    cbn [skipn]. now rewrite (fl_fragment _ _ _ []).
  - rewrite <- HB. destruct (str_eqb (scheme b) $"file") eqn:F; cbn [negb]; ln; cbn [skipn].
    + apply (fl_file (3 + n)); [now rewrite HB|reflexivity].
    + apply (fl_relative n); auto. now apply str_eqb_neq.
Qed.
Lemma fl_scheme n sch t : base_ok base ->
  forall s, skipn (S (length sch)) s = t ->
  lg (scheme_colon base None t (S (length sch)) sch) new_url ++
  match snd (run (scheme_colon base None t (S (length sch)) sch) new_url) with
  | Ok r => fl (11 + n) (fst r) (skipn (snd r) s) (fst (run (scheme_colon base None t (S (length sch)) sch) new_url))
  | Err e => []
  end = scheme_log E base (lower sch) t.
Proof.
  intros BO s HS. unfold scheme_colon, scheme_log. cbv zeta. cbn [overridden andb]. ln.
  set (sc := lower sch). destruct (str_eqb sc $"file") eqn:F.
  - ln. rewrite app_nil_r. f_equal. rewrite HS. now apply (fl_file (4 + n)).
  - destruct (special_scheme sc) eqn:SP; cbn [andb].
    + destruct base as [b|] eqn:HB; cbn [same_scheme].
      * destruct (str_eqb (scheme b) sc) eqn:Q; ln; rewrite HS.
        -- cbn [Nat.add]. st. unfold parse_special_relative_or_authority.
           destruct (starts_with $"//" t) eqn:W; ln.
           ++ now apply (fl_ignore (2 + n) _ (set_scheme sc new_url) []).
           ++ f_equal. cbn [skipn]. apply str_eqb_eq in Q. rewrite <- Q. apply (fl_relative n); auto.
              ** apply BO. unfold is_special. now rewrite Q.
              ** rewrite Q. now apply str_eqb_neq in F.
        -- now apply (fl_slashes (2 + n) _ (set_scheme sc new_url) []).
      * ln. rewrite HS. now apply (fl_slashes (2 + n) _ (set_scheme sc new_url) []).
    + destruct t as [|c r].
      * change (starts_with $"/" []) with false. cbv iota. ln. rewrite HS. now rewrite (fl_opaque (8 + n) _ _ []).
      * assert (W : starts_with $"/" (c :: r) = (c =? 47)).
        { change ($"/") with [47]. cbn [starts_with]. destruct r; rewrite andb_true_r; apply N.eqb_sym. }
        rewrite W. destruct (c =? 47); ln.
        -- assert (SK : skipn (S (S (length sch))) s = r).
           { change (S (S (length sch))) with (1 + S (length sch))%nat. rewrite Nat.add_comm.
             assert (G : forall a (s : str), skipn (a + 1) s = skipn 1 (skipn a s)).
             { clear. induction a as [|a IH]; intros [|x s]; auto; apply (IH s). }
             rewrite G, HS. reflexivity. }
           rewrite SK. now apply (fl_poa (3 + n) _ (set_scheme sc new_url) []).
        -- rewrite HS. now rewrite (fl_opaque (8 + n) _ _ []).
Qed.
Lemma lg_scheme_loop rest : forall i buffer u,
  lg (scheme_loop base None rest i buffer) u =
  match span is_scheme_char rest with
  | (a, x :: r) => if x =? 58 then lg (scheme_colon base None r (S (i + length a)) (buffer ++ a)) u else []
  | (_, []) => []
  end.
Proof.
  induction rest as [|c t IH]; intros i buffer u; cbn [scheme_loop span overridden]; [reflexivity|].
  change (mem c ASCII_ALPHANUMERIC || mem c $"+-.") with (is_scheme_char c). destruct (is_scheme_char c).
  - rewrite IH. destruct (span is_scheme_char t) as [a [|x r]]; [reflexivity|]. cbn [length]. rewrite <- app_assoc. cbn [app].
    replace (S i + length a)%nat with (i + S (length a))%nat by lia. reflexivity.
  - destruct (c =? 58); [|reflexivity]. cbn [length]. rewrite Nat.add_0_r, app_nil_r. reflexivity.
Qed.
Lemma fl_main n s : base_ok base -> fl (12 + n) SCHEME_START s new_url = main_log E base s.
Proof.
  intros BO. change (12 + n)%nat with (S (11 + n)). st. unfold main_log, scheme_split, parse_scheme.
  destruct s as [|c t]; [cbn [overridden]; ln; now apply fl_no_scheme|].
  destruct (mem c ASCII_ALPHA).
  - rewrite lg_scheme_loop, run_scheme_loop. destruct (span is_scheme_char t) as [a [|x r]] eqn:SS; cbn [overridden fst snd app].
    + now apply fl_no_scheme.
    + destruct (x =? 58); [|cbn [fst snd app]; now apply fl_no_scheme].
      change (S (1 + length a)) with (S (length (c :: a))). change ([c] ++ a) with (c :: a).
      apply (fl_scheme n (c :: a) r BO).
      pose proof (skipn_span1 is_scheme_char t) as K. rewrite SS in K. cbn [fst snd tl] in K. exact K.
  - cbn [overridden]. ln. now apply fl_no_scheme.
Qed.
End Fsm.

Lemma fl_def E base enc n st rest u : lg (run_fsm n E base enc None st rest) u = fl E base enc n st rest u.
Proof. reflexivity. Qed.
Lemma fuel_eq : FSM_FUEL = (12 + 8)%nat. Proof. reflexivity. Qed.
Theorem parse_new_log E s base encoding : base_ok base -> (forall u q, enc_query E (normalize_encoding E encoding) u q <> None) ->
  fst (parse_new E s base encoding) =
  rep (needs_strip s) VInvalidURLUnit ++ rep (existsb is_tab_newline (strip_c0 s)) VInvalidURLUnit ++ main_log E base (clean s).
Proof.
  intros BO HE. unfold parse_new.
  assert (G : forall m : M unit, fst (match m new_url with (l, (u, Ok _)) => (l, Ok u) | (l, (_, Err e)) => (l, Err e) end) = lg m new_url).
  { intros m. unfold lg. destruct (m new_url) as [l [u [[]|e]]]; reflexivity. }
  rewrite G. rewrite lg_bind, lg_when, run_when_log. cbn [fst snd]. unfold parse_into. rewrite lg_bind, lg_when, run_when_log. cbn [fst snd].
  fold (clean s). rewrite fl_def, fuel_eq. now rewrite (fl_main E base _ HE 8 (clean s) BO).
Qed.
