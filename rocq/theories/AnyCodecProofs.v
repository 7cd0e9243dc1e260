(** Proofs for C132: the parser with any codec. *)
From Coq Require Import Ascii String.
From Coq Require Import NArith ZArith Bool Arith Lia ZifyBool ZifyN ZifyNat List.
From Verif Require Import PyStr PyInt Codec Env HostModel UrlRecord Parser AnyCodec.
From Verif Require Import SpecText SpecUrl FlatParser Lemmas CodecProofs QuoteProofs LoopProofs FlatProofs TermProofs UrlProps SuffixProofs WfProofs.
From Verif Require Import SpecReference SpecCodec.
Import ListNotations.
Open Scope N_scope.

(* ---------- codecs that work character by character ---------- *)
Lemma chunks_spec f plus safe s :
  match char_chunks f s with
  | inl bs => Some (flat_map (fun b => if starts_with $"&#" b then quote_via_bytes plus (quote_default_safe plus) b
                                       else quote_via_bytes plus safe b) bs)
  | inr _ => None
  end = encode_charrefs f plus safe s.
Proof.
  induction s as [|c t IH]; [reflexivity|]. cbn [char_chunks encode_charrefs]. rewrite <- IH.
  change (match f c with Some b => Some b | None => encode_all f (charref c) end) with (charref_chunk f c).
  destruct (charref_chunk f c) as [b|]; [|reflexivity]. destruct (char_chunks f t) as [bs|]; [|reflexivity].
  destruct b as [|x b]; [|reflexivity]. rewrite !quote_via_bytes_eq. reflexivity.
Qed.
Lemma char_codec_ok f s safe plus :
  any_percent_encode (char_codec f) s safe plus =
  match string_percent_encode f s safe plus with Some r => inr r | None => inl tt end.
Proof.
  unfold any_percent_encode, string_percent_encode, quote_via_str. destruct (usv s) as [|c t] eqn:U.
  - cbn [encode_all]. rewrite andb_false_r. reflexivity.
  - cbv zeta. cbn [char_codec strict chunks]. destruct (encode_all f (c :: t)); [reflexivity|].
    rewrite <- chunks_spec. destruct (char_chunks f (c :: t)) as [|[]]; reflexivity.
Qed.

(* ---------- what the states before the query state read ---------- *)
Definition flow (i : nat) (rest : str) (r : urlrec * res (pstate * nat)) : Prop :=
  match snd r with
  | Err _ => True
  | Ok (st', n) =>
      match st' with
      | QUERY => query (fst r) = Some [] /\ exists k, n = (i + k)%nat /\ query_text rest = Some (until_hash (skipn k rest))
      | FRAGMENT | EOF => query_text rest = None
      | _ => exists k, n = (i + k)%nat /\ query_text (skipn k rest) = query_text rest
      end
  end.
Lemma flow_cons i c t r : c <> 35 -> c <> 63 -> flow (S i) t r -> flow i (c :: t) r.
Proof.
  intros H1 H2. unfold flow. assert (Q : query_text (c :: t) = query_text t).
  { cbn [query_text]. destruct (N.eqb_spec c 35); [contradiction|]. destruct (N.eqb_spec c 63); [contradiction|reflexivity]. }
  destruct (snd r) as [[st' n]|]; [|auto]. rewrite Q.
  destruct st'; intros K; try exact K;
    try (destruct K as (k & -> & K); exists (S k); split; [lia|exact K]);
    destruct K as (K0 & k & -> & K); split; [exact K0|]; exists (S k); split; [lia|exact K].
Qed.
Lemma flow_skip a t i r : no_qf a -> flow (i + length a) t r -> flow i (a ++ t) r.
Proof.
  revert i. induction a as [|c a IH]; intros i H K; cbn [app length] in *; [now rewrite Nat.add_0_r in K|].
  inversion H as [|? ? H1 H2]; subst. rewrite qf_eq in H1. apply flow_cons; [lia|lia|]. apply IH; [exact H2|].
  now replace (S i + length a)%nat with (i + S (length a))%nat by lia.
Qed.
Lemma flow_here i rest u st : st <> QUERY -> st <> FRAGMENT -> st <> EOF -> flow i rest (u, Ok (st, i)).
Proof.
  intros H1 H2 H3. unfold flow. cbn [snd fst]. destruct st; try congruence; exists 0%nat; (split; [lia|reflexivity]).
Qed.
Lemma flow_err i rest u e : flow i rest (u, Err e). Proof. exact I. Qed.

Lemma flow_path rest : forall i buffer u, flow i rest (run (path_loop None rest i buffer) u).
Proof.
  induction rest as [|c t IH]; intros i buffer u; cbn [path_loop].
  - rn. destruct (snd (run (path_flush None buffer) u)); rn; [apply flow_here; discriminate|apply flow_err].
  - rn. cbn [overridden negb andb]. change ($"?#") with [63; 35]. cbn [mem existsb].
    destruct ((c =? 47) || _ || _) eqn:C.
    + rn. destruct (snd (run (path_flush (Some c) buffer) u)); [|apply flow_err].
      destruct (c =? 63) eqn:C1; [|destruct (c =? 35) eqn:C2]; rn.
      * apply N.eqb_eq in C1. subst c. unfold flow. cbn [fst snd]. split; [reflexivity|]. exists 1%nat. split; [lia|reflexivity].
      * apply N.eqb_eq in C2. subst c. reflexivity.
      * apply flow_cons; [lia|lia|]. apply IH.
    + rn. apply flow_cons; [lia|lia|]. apply IH.
Qed.
Lemma flow_opaque rest : forall i u, flow i rest (run (opaque_path_loop rest i) u).
Proof.
  induction rest as [|c t IH]; intros i u; cbn [opaque_path_loop]; [reflexivity|].
  destruct (c =? 63) eqn:C1; [|destruct (c =? 35) eqn:C2]; rn.
  - apply N.eqb_eq in C1. subst c. unfold flow. cbn [fst snd]. split; [reflexivity|]. exists 1%nat. split; [lia|reflexivity].
  - apply N.eqb_eq in C2. subst c. reflexivity.
  - unfold path_extend. rn. apply flow_cons; [lia|lia|]. apply IH.
Qed.
Lemma span_no_qf p s : (forall c, is_qf c = true -> p c = false) -> no_qf (fst (span p s)).
Proof.
  intros H. apply Forall_forall. intros c Hc. pose proof (LoopProofs.span_all p s) as A. rewrite Forall_forall in A.
  specialize (A c Hc). destruct (is_qf c) eqn:Q; [|reflexivity]. apply H in Q. congruence.
Qed.
Lemma qf_cases c : is_qf c = true -> c = 63 \/ c = 35.
Proof. rewrite qf_eq. intros H. lia. Qed.
Lemma flow_to a t u st n : st <> QUERY -> st <> FRAGMENT -> st <> EOF -> no_qf a -> n = length a -> flow 0 (a ++ t) (u, Ok (st, n)).
Proof. intros H1 H2 H3 A ->. apply (flow_skip a t 0); [exact A|]. now apply flow_here. Qed.

Lemma flow_host E rest u : flow 0 rest (run (host_loop E None rest 0 [] false) u).
Proof.
  enough (G : forall rest i buffer br u, flow i rest (run (host_loop E None rest i buffer br) u)) by apply G.
  clear rest u. induction rest as [|c t IH]; intros i buffer br u; cbn [host_loop]; rn.
  - unfold host_end. rn. cbn [overridden andb]. destruct (is_special u && _); rn; [apply flow_err|].
    destruct (snd (host_parse E buffer (is_not_special u))); rn; [apply flow_here; discriminate|apply flow_err].
  - destruct ((c =? 58) && negb br) eqn:C.
    + destruct (length buffer =? 0)%nat; rn; [apply flow_err|]. cbn [is_hostname_override].
      rn. destruct (snd (host_parse E buffer (is_not_special u))); rn; [|apply flow_err].
      assert (c = 58) by lia. subst c. apply flow_cons; [discriminate|discriminate|]. apply flow_here; discriminate.
    + destruct (mem c $"/?#" || (is_special u && (c =? 92))) eqn:D.
      * unfold host_end. rn. cbn [overridden andb]. destruct (is_special u && (length buffer =? 0)%nat); rn; [apply flow_err|].
        destruct (snd (host_parse E buffer (is_not_special u))); rn; [apply flow_here; discriminate|apply flow_err].
      * change ($"/?#") with [47; 63; 35] in D. cbn [mem existsb] in D. apply flow_cons; [lia|lia|]. apply IH.
Qed.
Lemma flow_port_end E i buffer rest u : flow i rest (run (port_end E None i buffer) u).
Proof.
  unfold port_end. cbn [overridden]. destruct buffer as [|d b]; rn; [apply flow_here; discriminate|].
  destruct (e_int E (d :: b) 10); rn; [|apply flow_err]. destruct (65535 <? _); rn; [apply flow_err|].
  destruct (on_eqb _ _); rn; apply flow_here; discriminate.
Qed.
Lemma flow_port E rest : forall i buffer u, flow i rest (run (port_loop E None rest i buffer) u).
Proof.
  induction rest as [|c t IH]; intros i buffer u; cbn [port_loop]; [apply flow_port_end|].
  destruct (mem c ASCII_DIGITS) eqn:D.
  - apply flow_cons; [intros ->; discriminate D|intros ->; discriminate D|]. apply IH.
  - rn. destruct (_ || _); [apply flow_port_end|apply flow_err].
Qed.
Lemma flow_authority rest u : flow 0 rest (run (parse_authority rest) u).
Proof.
  unfold parse_authority. rn. rewrite run_authority_loop by (cbn; lia).
  pose proof (span_eq (fun c => negb (ends_auth (is_special u) c)) rest) as Q.
  pose proof (span_no_qf (fun c => negb (ends_auth (is_special u) c)) rest) as A.
  destruct (span _ rest) as [a t]. cbn [fst snd] in *. rewrite Q.
  assert (A' : no_qf a) by (apply A; intros c C; rewrite qf_ends; [reflexivity|exact C]). clear A Q rest.
  destruct (split_last 64 a) as [[ui hp]|] eqn:S.
  - cbv zeta. cbn [app]. destruct (length hp =? 0)%nat; cbn [fst snd]; [apply flow_err|]. rn.
    pose proof (split_last_spec 64 a) as Z. rewrite S in Z. destruct Z as [Z _]. subst a.
    replace ((ui ++ 64 :: hp) ++ t) with ((ui ++ [64]) ++ hp ++ t) by (rewrite <- !app_assoc; reflexivity).
    apply flow_to; try discriminate; [|rewrite app_length; cbn [length]; lia].
    apply Forall_app in A' as [A1 A2]. apply Forall_app. split; [exact A1|]. constructor; [reflexivity|constructor].
  - cbn [andb app length]. rn. change (0 - 0)%nat with 0%nat. apply flow_here; discriminate.
Qed.
Lemma flow_file_host E rest u : flow 0 rest (run (parse_file_host E rest None) u).
Proof.
  unfold parse_file_host. rewrite run_file_host_loop.
  pose proof (span_eq (fun c => negb (mem c $"/\?#")) rest) as Q.
  pose proof (span_no_qf (fun c => negb (mem c $"/\?#")) rest) as A.
  destruct (span _ rest) as [a t]. cbn [fst snd] in *. rewrite Q.
  assert (A' : no_qf a) by (apply A; intros c C; apply qf_cases in C; destruct C; subst c; reflexivity). clear A Q rest.
  cbn [app Nat.add]. unfold file_host_end. cbn [overridden negb andb].
  destruct (is_windows_drive_letter a); rn.
  - rewrite Nat.sub_diag. apply flow_here; discriminate.
  - destruct a as [|c a]; rn; [apply flow_here; discriminate|].
    destruct (snd (host_parse E (c :: a) (is_not_special u))); rn; [|apply flow_err].
    apply flow_to; try discriminate; [exact A'|reflexivity].
Qed.
Lemma flow_scheme base rest u : flow 0 rest (run (parse_scheme rest base None) u).
Proof.
  unfold parse_scheme. destruct rest as [|c t]; [apply flow_here; discriminate|].
  destruct (mem c ASCII_ALPHA) eqn:C; [|apply flow_here; discriminate]. rewrite run_scheme_loop. cbn [overridden].
  pose proof (span_eq is_scheme_char t) as Q. pose proof (span_no_qf is_scheme_char t) as A.
  destruct (span is_scheme_char t) as [a [|x r]]; cbn [fst snd] in *; [apply flow_here; discriminate|].
  destruct (N.eqb_spec x 58) as [->|]; [|apply flow_here; discriminate].
  assert (A' : no_qf a) by (apply A; intros d D; apply qf_cases in D; destruct D; subst d; reflexivity). clear A.
  rewrite Q. assert (B : no_qf ((c :: a) ++ [58])).
  { apply Forall_app. split; [|constructor; [reflexivity|constructor]]. constructor; [|exact A'].
    destruct (is_qf c) eqn:Z; [|reflexivity]. apply qf_cases in Z. destruct Z; subst c; discriminate C. }
  assert (EQ : c :: a ++ 58 :: r = ((c :: a) ++ [58]) ++ r) by (rewrite <- app_assoc; reflexivity).
  assert (L : S (1 + length a) = length ((c :: a) ++ [58])) by (rewrite app_length; cbn [length]; lia).
  cbn [app] in EQ. rewrite EQ. clear EQ.
  assert (G : forall v s, s <> QUERY -> s <> FRAGMENT -> s <> EOF -> flow 0 (((c :: a) ++ [58]) ++ r) (v, Ok (s, S (1 + length a)))).
  { intros v s H1 H2 H3. now apply flow_to. }
  unfold scheme_colon. rn. cbn [overridden andb]. rn.
  destruct (str_eqb _ $"file"); rn; [apply G; discriminate|].
  destruct (_ && _); rn; [apply G; discriminate|]. destruct (special_scheme _); rn; [apply G; discriminate|].
  destruct (starts_with $"/" r) eqn:W; rn; [|apply G; discriminate].
  apply starts_with_iff in W as [r' ->]. 
  match goal with |- flow 0 ?x ?y => change (flow 0 (((c :: a) ++ [58]) ++ [47] ++ r') y) end.
  rewrite (app_assoc ((c :: a) ++ [58]) [47] r').
  apply flow_to; try discriminate; [|rewrite (app_length _ [47]), <- L; cbn [length]; lia].
  apply Forall_app. split; [exact B|]. constructor; [reflexivity|constructor].
Qed.
Lemma flow_slashes rest u : flow 0 rest (run (parse_ignore_slashes rest) u).
Proof.
  unfold parse_ignore_slashes. rewrite run_ignore_slashes. pose proof (span_eq is_slash rest) as Q. pose proof (span_no_qf is_slash rest) as A.
  destruct (span is_slash rest) as [a t]. cbn [fst snd Nat.add] in *. rewrite Q.
  apply flow_to; try discriminate; [|reflexivity]. apply A. intros d D; apply qf_cases in D; destruct D; subst d; reflexivity.
Qed.
Lemma flow_one c t u st : c <> 63 -> c <> 35 -> st <> QUERY -> st <> FRAGMENT -> st <> EOF -> flow 0 (c :: t) (u, Ok (st, 1%nat)).
Proof. intros H1 H2 H3 H4 H5. apply flow_cons; [exact H2|exact H1|]. now apply flow_here. Qed.
Lemma flow_q t u : query u = Some [] -> flow 0 (63 :: t) (u, Ok (QUERY, 1%nat)).
Proof. intros H. split; [exact H|]. exists 1%nat. split; [reflexivity|reflexivity]. Qed.

Ltac here := apply flow_here; discriminate.
Ltac slash1 := match goal with H : iscp (cur ?rest) _ = true |- flow 0 ?rest _ => idtac end.
Lemma cur_slash rest : iscp (cur rest) $"/\" = true -> exists c t, rest = c :: t /\ c <> 63 /\ c <> 35.
Proof.
  destruct rest as [|c t]; [discriminate|]. cbn [cur iscp]. intros H. exists c, t. split; [reflexivity|].
  split; intros ->; discriminate H.
Qed.
Lemma cur_is rest x : isc (cur rest) x = true -> exists t, rest = x :: t.
Proof. destruct rest as [|c t]; [discriminate|]. cbn [cur isc]. intros H. apply N.eqb_eq in H. subst c. now exists t. Qed.
Lemma cur_eof rest : iseof (cur rest) = true -> rest = [].
Proof. destruct rest; [reflexivity|discriminate]. Qed.
Ltac atq := match goal with H : isc (cur ?rest) 63 = true |- _ => apply cur_is in H as [? ->]; apply flow_q; reflexivity end.
Ltac atf := match goal with H : isc (cur ?rest) 35 = true |- _ => apply cur_is in H as [? ->]; reflexivity end.
Ltac ats := match goal with
  | H : isc (cur ?rest) 47 = true |- _ => apply cur_is in H as [? ->]; apply flow_one; discriminate
  | H : isc (cur ?rest) 92 = true |- _ => apply cur_is in H as [? ->]; apply flow_one; discriminate
  | H : iscp (cur ?rest) _ = true |- _ => apply cur_slash in H as (? & ? & -> & ? & ?); apply flow_one; [assumption|assumption|discriminate|discriminate|discriminate] end.
Lemma flow_file base rest u : flow 0 rest (run (parse_file rest base) u).
Proof.
  unfold parse_file. rn. destruct (iscp (cur rest) $"/\") eqn:C; rn; [ats|].
  destruct base as [b|]; [|here]. destruct (str_eqb (scheme b) $"file"); [|here]. rn.
  destruct (isc (cur rest) 63) eqn:C1; rn; [atq|]. destruct (isc (cur rest) 35) eqn:C2; rn; [atf|].
  destruct (negb (iseof (cur rest))); rn; [|here]. destruct (negb (starts_with_windows_drive_letter rest)); rn; [|here].
  destruct (snd (run shorten_path _)); rn; [here|apply flow_err].
Qed.
Lemma flow_file_slash base rest u : flow 0 rest (run (parse_file_slash rest base) u).
Proof.
  unfold parse_file_slash. destruct (iscp (cur rest) $"/\") eqn:C; rn; [ats|].
  destruct base as [b|]; [|here]. destruct (str_eqb (scheme b) $"file"); [|here]. rn.
  match goal with |- flow _ _ (match snd (run ?m ?v) with _ => _ end) => destruct (snd (run m v)); rn; [here|apply flow_err] end.
Qed.
Lemma flow_no_scheme base rest u : flow 0 rest (run (parse_no_scheme rest base) u).
Proof.
  unfold parse_no_scheme. destruct base as [b|]; [|apply flow_err].
  destruct (has_opaque_path b && negb (isc (cur rest) 35)); [apply flow_err|].
  destruct (has_opaque_path b && isc (cur rest) 35) eqn:C; rn; [apply andb_true_iff in C as [_ C]; atf|].
  destruct (negb _); here.
Qed.
Lemma flow_path_start rest u : flow 0 rest (run (parse_path_start rest None) u).
Proof.
  unfold parse_path_start. rn. destruct (is_special u); rn.
  - destruct (iscp (cur rest) $"/\") eqn:C; [ats|here].
  - cbn [overridden negb andb]. destruct (isc (cur rest) 63) eqn:C1; rn; [atq|]. destruct (isc (cur rest) 35) eqn:C2; rn; [atf|].
    destruct (iseof (cur rest)) eqn:C3; cbn [negb when]; rn.
    + apply cur_eof in C3. subst rest. reflexivity.
    + destruct (isc (cur rest) 47) eqn:C4; [ats|here].
Qed.
Lemma flow_relative base rest u : flow 0 rest (run (parse_relative rest base) u).
Proof.
  unfold parse_relative. destruct base as [b|]; [|apply flow_err]. destruct (str_eqb (scheme b) $"file"); [apply flow_err|]. rn.
  destruct (isc (cur rest) 47) eqn:C0; rn; [ats|].
  destruct (is_special _ && isc (cur rest) 92) eqn:C; rn; [apply andb_true_iff in C as [_ C]; ats|].
  destruct (isc (cur rest) 63) eqn:C1; rn; [atq|]. destruct (isc (cur rest) 35) eqn:C2; rn; [atf|].
  destruct (iseof (cur rest)) eqn:C3; cbn [negb]; rn.
  - apply cur_eof in C3. subst rest. reflexivity.
  - destruct (snd (run shorten_path _)); rn; [here|apply flow_err].
Qed.
Lemma flow_relative_slash base rest u : flow 0 rest (run (parse_relative_slash rest base) u).
Proof.
  unfold parse_relative_slash. rn. destruct (is_special u && iscp (cur rest) $"/\") eqn:C; rn; [apply andb_true_iff in C as [_ C]; ats|].
  destruct (isc (cur rest) 47) eqn:C0; rn; [ats|]. destruct base as [b|]; rn; [here|apply flow_err].
Qed.
Lemma flow_step E base enc st rest u : st <> QUERY -> st <> FRAGMENT -> st <> EOF -> flow 0 rest (run (step E base enc None st rest) u).
Proof.
  intros H1 H2 H3. destruct st; try congruence; cbn [step].
  - apply flow_authority.
  - apply flow_file_host.
  - apply flow_file_slash.
  - apply flow_file.
  - unfold parse_host. rn. cbn [overridden andb]. apply flow_host.
  - unfold parse_host. rn. cbn [overridden andb]. apply flow_host.
  - apply flow_no_scheme.
  - apply flow_opaque.
  - unfold parse_path_or_authority. destruct (isc (cur rest) 47) eqn:C; [ats|here].
  - apply flow_path_start.
  - apply flow_path.
  - apply flow_port.
  - apply flow_relative_slash.
  - apply flow_relative.
  - apply flow_scheme.
  - apply flow_err.
  - apply flow_slashes.
  - unfold parse_special_authority_slashes. destruct (starts_with $"//" rest) eqn:C; rn; [|here].
    apply starts_with_iff in C as [r ->]. apply (flow_to $"//" r); try discriminate; [|reflexivity]. repeat constructor.
  - unfold parse_special_relative_or_authority. destruct (starts_with $"//" rest) eqn:C; rn; [|here].
    apply starts_with_iff in C as [r ->]. apply (flow_to $"//" r); try discriminate; [|reflexivity]. repeat constructor.
Qed.

(* ---------- the whole run ---------- *)
Section Any.
Context {X : Type} (cd : str -> anycodec X) (E : env) (base : option urlrec) (enc : str).

(** the result of a run: a codec's exception, or the record *)
Definition aout (r : urlrec * res (option X)) : res (X + urlrec) :=
  match snd r with Ok None => Ok (inr (fst r)) | Ok (Some x) => Ok (inl x) | Err e => Err e end.
Definition afsm (n : nat) (st : pstate) (rest : str) (u : urlrec) : res (X + urlrec) :=
  aout (run (any_fsm cd E n base enc None st rest) u).
Lemma afsm_eof n rest u : afsm n EOF rest u = Ok (inr u).
Proof. unfold afsm. destruct n; reflexivity. Qed.
Lemma afsm_step n st rest u : st <> EOF -> st <> QUERY ->
  afsm (S n) st rest u =
  match snd (run (step E base enc None st rest) u) with
  | Ok r => afsm n (fst r) (skipn (snd r) rest) (fst (run (step E base enc None st rest) u))
  | Err e => Err e
  end.
Proof.
  intros H H2. unfold afsm.
  assert (G : any_fsm cd E (S n) base enc None st rest =
    bind (bind (step E base enc None st rest) (fun r => ret (inr r)))
      (fun r => match r with inl x => ret (Some x) | inr r => any_fsm cd E n base enc None (fst r) (skipn (snd r) rest) end))
    by (destruct st; try reflexivity; congruence).
  rewrite G, !run_bind. destruct (snd (run (step E base enc None st rest) u)); reflexivity.
Qed.
Lemma step_enc e e' st rest : st <> QUERY -> step E base e None st rest = step E base e' None st rest.
Proof. intros H. destruct st; try reflexivity; congruence. Qed.

(** the query that the codec makes of the text [q] *)
Definition any_query (u : urlrec) (q : str) : X + str :=
  let safe := if is_special u then SAFE_SPECIAL_QUERY else SAFE_QUERY in
  let e := query_encoding u enc in
  if str_eqb e $"utf-8" then inr (utf8_percent_encode q safe false) else any_percent_encode (cd e) q safe false.
Lemma any_query_nil u : any_query u [] = inr [].
Proof. unfold any_query. destruct (str_eqb _ _); reflexivity. Qed.
Lemma run_any_flush q u p : query u = Some p ->
  run (any_flush cd enc q) u =
  match any_query u q with inl x => (u, Ok (Some x)) | inr y => (set_query (Some (p ++ y)) u, Ok None) end.
Proof.
  intros H. unfold any_flush. rn. cbv zeta. change (match any_query u q with inl x => (u, Ok (Some x)) | inr y => (set_query (Some (p ++ y)) u, Ok None) end)
    with (match (if str_eqb (query_encoding u enc) $"utf-8" then inr (utf8_percent_encode q (if is_special u then SAFE_SPECIAL_QUERY else SAFE_QUERY) false) else any_percent_encode (cd (query_encoding u enc)) q (if is_special u then SAFE_SPECIAL_QUERY else SAFE_QUERY) false) with inl x => (u, @Ok (option X) (Some x)) | inr y => (set_query (Some (p ++ y)) u, Ok None) end).
  destruct (if str_eqb (query_encoding u enc) $"utf-8" then _ else _) as [x|y]; rn; [reflexivity|].
  unfold query_append. rn. rewrite H. rn. reflexivity.
Qed.
Lemma span_until rest : fst (span (fun c => negb (c =? 35)) rest) = until_hash rest.
Proof. induction rest as [|c t IH]; [reflexivity|]. cbn [span until_hash]. destruct (c =? 35); [reflexivity|]. cbn [negb]. destruct (span _ t). cbn [fst] in *. now f_equal. Qed.
Lemma run_any_query rest : forall i buffer u, query u = Some [] ->
  run (any_query_loop cd None enc rest i buffer) u =
  let (b, t) := span (fun c => negb (c =? 35)) rest in
  match any_query u (buffer ++ b) with
  | inl x => (u, Ok (inl x))
  | inr y =>
      let u' := set_query (Some y) u in
      match t with
      | [] => (u', Ok (inr (FRAGMENT, (i + length b)%nat)))
      | _ => (set_fragment (Some []) u', Ok (inr (FRAGMENT, S (i + length b))))
      end
  end.
Proof.
  induction rest as [|c t IH]; intros i buffer u H; cbn [any_query_loop span].
  - rewrite app_nil_r. destruct buffer as [|d b].
    + cbn [length Nat.eqb]. rn. rewrite any_query_nil. cbv zeta. cbn [length]. rewrite Nat.add_0_r. f_equal. destruct u; cbn in *. now rewrite H.
    + cbn [length Nat.eqb]. rn. rewrite (run_any_flush _ u [] H). destruct (any_query u (d :: b)); rn; [reflexivity|]. cbn [length app]. now rewrite Nat.add_0_r.
  - cbn [overridden negb andb]. destruct (c =? 35) eqn:C; cbn [negb].
    + rn. rewrite (run_any_flush _ u [] H), app_nil_r. destruct (any_query u buffer); rn; [reflexivity|]. cbn [length app]. now rewrite Nat.add_0_r.
    + rn. rewrite IH by exact H. destruct (span _ t) as [b r]. rewrite <- app_assoc. cbn [app length].
      replace (S i + length b)%nat with (i + S (length b))%nat by lia. reflexivity.
Qed.
Lemma afsm_query n rest u : query u = Some [] ->
  afsm (S (S n)) QUERY rest u =
  match any_query u (until_hash rest) with
  | inl x => Ok (inl x)
  | inr y => Ok (inr (flat_frag (set_query (Some y) u) (snd (span (fun c => negb (c =? 35)) rest))))
  end.
Proof.
  intros H. unfold afsm.
  change (any_fsm cd E (S (S n)) base enc None QUERY rest) with
    (bind (any_query_loop cd None enc rest 0 []) (fun r => match r with inl x => ret (Some x) | inr r => any_fsm cd E (S n) base enc None (fst r) (skipn (snd r) rest) end)).
  rewrite run_bind, run_any_query by exact H. rewrite <- span_until.
  pose proof (span_eq (fun c => negb (c =? 35)) rest) as Q. destruct (span _ rest) as [b t]. cbn [fst snd app] in *.
  destruct (any_query u b) as [x|y]; [reflexivity|]. cbv zeta. destruct t as [|c t]; cbn [fst snd Nat.add].
  - change (aout (run (any_fsm cd E (S n) base enc None FRAGMENT (skipn (length b) rest)) (set_query (Some y) u))) with
      (afsm (S n) FRAGMENT (skipn (length b) rest) (set_query (Some y) u)).
    rewrite Q, app_nil_r, skipn_all. rewrite afsm_step by discriminate. cbn [step]. unfold parse_fragment. cbn [fragment_loop]. rn. apply afsm_eof.
  - change (aout (run (any_fsm cd E (S n) base enc None FRAGMENT (skipn (S (length b)) rest)) (set_fragment (Some []) (set_query (Some y) u)))) with
      (afsm (S n) FRAGMENT (skipn (S (length b)) rest) (set_fragment (Some []) (set_query (Some y) u))).
    assert (K : skipn (S (length b)) rest = t).
    { rewrite Q. change (b ++ c :: t) with (b ++ [c] ++ t). rewrite app_assoc. replace (S (length b)) with (length (b ++ [c])) by (rewrite app_length; cbn [length]; lia). rewrite skipn_app, skipn_all, Nat.sub_diag. reflexivity. }
    rewrite K. rewrite afsm_step by discriminate. cbn [step]. rewrite (run_fragment _ _ []) by reflexivity. cbn [fst snd]. rewrite afsm_eof. reflexivity.
Qed.
Lemma afsm_fragment e n rest u : afsm n FRAGMENT rest u = match fsm E base e n FRAGMENT rest u with Ok v => Ok (inr v) | Err e => Err e end.
Proof.
  destruct n as [|n]; [reflexivity|]. rewrite afsm_step, fsm_step by discriminate. cbn [step].
  assert (G : forall rest i buffer u, match snd (run (fragment_loop rest i buffer) u) with Ok r => fst r = EOF | Err _ => True end).
  { clear. induction rest as [|c t IH]; intros i buffer u; cbn [fragment_loop].
    - rn. destruct (snd (run (when _ _) u)); rn; [reflexivity|exact I].
    - rn. apply IH. }
  specialize (G rest 0%nat [] u). unfold parse_fragment. destruct (snd (run (fragment_loop rest 0 []) u)) as [r|]; [|reflexivity].
  rewrite G, afsm_eof, fsm_eof. reflexivity.
Qed.

(** what the codec makes of the result for UTF-8 *)
Definition recode (t : option str) (u : urlrec) : res (X + urlrec) :=
  match t with
  | None => Ok (inr u)
  | Some q => match any_query u q with inl x => Ok (inl x) | inr y => Ok (inr (set_query (Some y) u)) end
  end.
Lemma any_query_same u v q : scheme u = scheme v -> any_query u q = any_query v q.
Proof. intros H. unfold any_query, query_encoding, is_not_special, is_special. now rewrite H. Qed.
Lemma frag_scheme u t : scheme (flat_frag u t) = scheme u. Proof. now destruct t. Qed.
Lemma frag_query u t y : set_query y (flat_frag u t) = flat_frag (set_query y u) t. Proof. now destruct t. Qed.
Lemma any_run n : forall st rest u, st <> QUERY -> st <> FRAGMENT -> st <> EOF ->
  fsm E base $"utf-8" n st rest u = Err EFuel \/
  afsm n st rest u = match fsm E base $"utf-8" n st rest u with Err e => Err e | Ok v => recode (query_text rest) v end.
Proof.
  induction n as [|n IH]; intros st rest u H1 H2 H3; [left; destruct st; try reflexivity; congruence|].
  rewrite fsm_step, afsm_step by assumption. rewrite (step_enc enc $"utf-8") by exact H1.
  pose proof (flow_step E base $"utf-8" st rest u H1 H2 H3) as F.
  destruct (run (step E base $"utf-8" None st rest) u) as [u' [[st' k]|e]]; cbn [fst snd] in *; [|right; reflexivity].
  unfold flow in F. cbn [fst snd] in F.
  assert (G : st' <> QUERY -> st' <> FRAGMENT -> st' <> EOF -> query_text (skipn k rest) = query_text rest ->
    fsm E base $"utf-8" n st' (skipn k rest) u' = Err EFuel \/
    afsm n st' (skipn k rest) u' = match fsm E base $"utf-8" n st' (skipn k rest) u' with Ok v => recode (query_text rest) v | Err e => Err e end).
  { intros K1 K2 K3 Q. destruct (IH st' (skipn k rest) u' K1 K2 K3) as [I1|I1]; [now left|right]. rewrite I1, Q. reflexivity. }
  destruct st'; try (destruct F as (j & J & F); cbn [Nat.add] in J; subst j; apply G; [discriminate|discriminate|discriminate|exact F]).
  - right. rewrite afsm_eof, fsm_eof, F. reflexivity.
  - right. rewrite (afsm_fragment $"utf-8"), F. destruct (fsm E base _ n FRAGMENT _ u'); reflexivity.
  - destruct F as (Q & j & J & F). cbn [Nat.add] in J. subst j. rewrite F.
    assert (U : u' = set_query (Some []) u') by (destruct u'; cbn in *; now rewrite Q).
    assert (T : forall v q, exists x, enc_query E $"utf-8" v q = Some x).
    { intros v q. unfold enc_query. assert (D : query_encoding v $"utf-8" = $"utf-8") by reflexivity. rewrite D. unfold enc_of. rewrite str_eqb_refl.
      rewrite utf8_percent_encode_total. eauto. }
    destruct n as [|[|m]].
    + left. reflexivity.
    + left. rewrite fsm_step by discriminate. cbn [step]. unfold parse_query. rewrite (run_query_loop _ _ _ _ _ _ _ []) by exact Q.
      destruct (span _ _) as [b t]. cbn [app]. destruct (T u' b) as [x ->]. cbv zeta. destruct t; reflexivity.
    + right. rewrite afsm_query by exact Q. rewrite U at 2. rewrite fsm_query. unfold flat_query. rewrite <- span_until.
      destruct (span _ (skipn k rest)) as [b t]. cbn [fst snd]. destruct (T u' b) as [x ->]. cbn [recode].
      rewrite (any_query_same (flat_frag (set_query (Some x) u') t) u') by now rewrite frag_scheme. destruct (any_query u' b); [reflexivity|]. now rewrite frag_query.
Qed.
End Any.

Lemma normalize_utf8 E : normalize_encoding E UTF8 = $"utf-8". Proof. reflexivity. Qed.
Lemma any_run_all {X} (cd : str -> anycodec X) E base enc n st rest u : (12 <= n)%nat -> st <> QUERY -> st <> FRAGMENT -> st <> EOF ->
  afsm cd E base enc n st rest u =
  match fsm E base $"utf-8" n st rest u with Err e => Err e | Ok v => recode cd enc (query_text rest) v end.
Proof.
  intros L H1 H2 H3. destruct (any_run cd E base enc n st rest u H1 H2 H3) as [F|F]; [|exact F].
  exfalso. unfold fsm, out in F. pose proof (fsm_no_fuel_error E base $"utf-8" None n st rest u L) as T.
  destruct (snd (run (run_fsm n E base $"utf-8" None st rest) u)) as [a|e]; [discriminate F|].
  apply T. injection F as ->. reflexivity.
Qed.
Lemma run_any_new {X} (cd : str -> anycodec X) E s base enc :
  snd (any_new cd E s base enc) = afsm cd E base (normalize_encoding E enc) FSM_FUEL SCHEME_START (clean s) new_url.
Proof.
  unfold any_new. assert (G : forall m : M (option X), snd (match m new_url with (l, (u, Ok None)) => (l, Ok (inr u)) | (l, (_, Ok (Some x))) => (l, Ok (inl x)) | (l, (_, Err e)) => (l, Err e) end) = aout (run m new_url)).
  { intros m. unfold aout, run. destruct (m new_url) as [l [u [[x|]|e]]]; reflexivity. }
  rewrite G, run_bind. rn. unfold any_into. rn. unfold afsm, clean. reflexivity.
Qed.
Lemma fuel_enough : (12 <= FSM_FUEL)%nat. Proof. unfold FSM_FUEL. lia. Qed.
Lemma any_new_ok {X} (cd : str -> anycodec X) E s base enc :
  snd (any_new cd E s base enc) =
  match snd (parse_new E s base UTF8) with
  | Err e => Err e
  | Ok u => recode cd (normalize_encoding E enc) (query_text (clean s)) u
  end.
Proof.
  rewrite run_any_new, run_new, normalize_utf8. pose proof fuel_enough as L. generalize dependent FSM_FUEL. intros n L.
  apply any_run_all; [exact L|discriminate|discriminate|discriminate].
Qed.

(* ---------- codecs without state ---------- *)
Section Char.
Context (E : env).
Let cd (e : str) : anycodec unit := char_codec (codec E e).
Definition plain_out {A B} (f : A -> unit + B) (r : log * (urlrec * res A)) : log * (urlrec * res B) :=
  match r with
  | (l, (u, Ok a)) => (l, (u, match f a with inl _ => Err EUnicode | inr b => Ok b end))
  | (l, (u, Err e)) => (l, (u, Err e))
  end.
Definition of_flush (o : option unit) : unit + unit := match o with Some x => inl x | None => inr tt end.
Lemma flush_char encoding buffer u : plain_out of_flush (any_flush cd encoding buffer u) = query_flush E encoding buffer u.
Proof.
  unfold any_flush, query_flush, bind, get. cbn [app]. cbv zeta. unfold enc_of.
  destruct (str_eqb (query_encoding u encoding) $"utf-8").
  - rewrite utf8_percent_encode_total, <- utf8_percent_encode_eq. unfold bind, query_append, bind, get. cbn [app].
    destruct (query u); reflexivity.
  - unfold cd. rewrite char_codec_ok. destruct (string_percent_encode _ _ _ _); [|reflexivity].
    unfold bind, query_append, bind, get. cbn [app]. destruct (query u); reflexivity.
Qed.
Lemma query_char so encoding rest : forall i buffer u,
  plain_out (fun r => r) (any_query_loop cd so encoding rest i buffer u) = query_loop E so encoding rest i buffer u.
Proof.
  induction rest as [|c t IH]; intros i buffer u; cbn [any_query_loop query_loop].
  - destruct (length buffer =? 0)%nat; cbn [negb when]; [reflexivity|]. unfold bind. rewrite <- flush_char.
    destruct (any_flush cd encoding buffer u) as [l [v [[[]|]|e]]]; unfold ret, modify; cbn [plain_out of_flush app]; rewrite ?app_nil_r; reflexivity.
  - destruct (negb (overridden so) && (c =? 35)).
    + unfold bind. rewrite <- flush_char. destruct (any_flush cd encoding buffer u) as [l [v [[[]|]|e]]]; unfold ret, modify; cbn [plain_out of_flush app]; rewrite ?app_nil_r; reflexivity.
    + unfold bind. destruct (check_unit c t u) as [l [v [[]|e]]]; [|reflexivity]. rewrite <- IH.
      destruct (any_query_loop cd so encoding t (S i) (buffer ++ [c]) v) as [l' [v' [[x|r]|e]]]; cbn [plain_out]; reflexivity.
Qed.
Lemma step_char base encoding so st rest u :
  plain_out (fun r => r) (any_step cd E base encoding so st rest u) = step E base encoding so st rest u.
Proof.
  assert (G : forall m : M (pstate * nat), plain_out (fun r => r) (bind m (fun r => ret (inr r)) u) = m u).
  { intros m. unfold bind, ret. destruct (m u) as [l [v [r|e]]]; cbn [plain_out]; [now rewrite app_nil_r|reflexivity]. }
  destruct st; cbn [any_step]; try apply G. cbn [step]. apply query_char.
Qed.
Lemma fsm_char n base encoding so : forall st rest u,
  plain_out of_flush (any_fsm cd E n base encoding so st rest u) = run_fsm n E base encoding so st rest u.
Proof.
  induction n as [|n IH]; intros st rest u; [destruct st; reflexivity|].
  assert (G : st = EOF \/ plain_out of_flush (any_fsm cd E (S n) base encoding so st rest u) =
    bind (step E base encoding so st rest) (fun r => run_fsm n E base encoding so (fst r) (skipn (snd r) rest)) u).
  { destruct (any_fsm cd E (S n) base encoding so st rest u) eqn:Z. 
    assert (W : st = EOF \/ any_fsm cd E (S n) base encoding so st rest u = bind (any_step cd E base encoding so st rest)
      (fun r => match r with inl x => ret (Some x) | inr r => any_fsm cd E n base encoding so (fst r) (skipn (snd r) rest) end) u)
      by (destruct st; try (right; reflexivity); now left).
    destruct W as [W|W]; [now left|right]. rewrite <- Z, W. unfold bind. rewrite <- step_char.
    destruct (any_step cd E base encoding so st rest u) as [l' [v [[[]|r]|e]]]; cbn [plain_out]; [unfold ret; cbn [plain_out of_flush]; now rewrite app_nil_r| |reflexivity].
    rewrite <- IH. destruct (any_fsm cd E n base encoding so (fst r) (skipn (snd r) rest) v) as [l2 [v2 [o|e]]]; cbn [plain_out]; reflexivity. }
  destruct G as [->|G]; [reflexivity|]. rewrite G. destruct st; try reflexivity. rewrite <- G. reflexivity.
Qed.
Lemma into_char s base encoding so u : plain_out of_flush (any_into cd E s base encoding so u) = parse_into E s base encoding so u.
Proof.
  unfold any_into, parse_into, bind. destruct (when (existsb is_tab_newline s) (logm VInvalidURLUnit) u) as [l [v [[]|e]]]; [|reflexivity].
  rewrite <- fsm_char. destruct (any_fsm cd E FSM_FUEL base _ so _ _ v) as [l' [v' [o|e]]]; reflexivity.
Qed.
Lemma new_char s base encoding : plain_result (any_new cd E s base encoding) = parse_new E s base encoding.
Proof.
  unfold any_new, parse_new, bind. destruct (when (needs_strip s) (logm VInvalidURLUnit) new_url) as [l [v [[]|e]]]; [|reflexivity].
  rewrite <- into_char. destruct (any_into cd E (strip_c0 s) base encoding None v) as [l' [v' [[[]|]|e]]]; reflexivity.
Qed.
Lemma url_char s base encoding : plain_result (any_parse_url cd E s base encoding) = parse_url E s base encoding.
Proof.
  assert (N : forall b, plain_result (any_new cd E s b encoding) = wbind (wret b) (fun b => parse_new E s b encoding)).
  { intros b. rewrite new_char. unfold wbind, wret. destruct (parse_new E s b encoding). reflexivity. }
  destruct base as [|t|u]; cbn [any_parse_url parse_url]; try apply N.
  unfold parse_url. rewrite <- new_char. destruct (any_new cd E t None encoding) as [l [[x|u]|e]]; cbn [plain_result].
  - unfold wbind, wret. cbn [plain_result]. now rewrite app_nil_r.
  - unfold wbind at 1 2 3, wret. rewrite <- new_char. destruct (any_new cd E s (Some u) encoding) as [l' [[x|v]|e]]; cbn [plain_result]; now rewrite app_nil_r.
  - reflexivity.
Qed.
End Char.

(* ---------- in the words of SpecCodec.v ---------- *)
Lemma quote_set safe set b : set_agrees safe set -> is_bytes b -> quote_bytes safe b = percent_bytes set b.
Proof.
  intros [A1 A2] B. apply flat_map_ext_In. intros c Hc. unfold is_bytes in B. rewrite Forall_forall in B. specialize (B c Hc). cbn beta in B.
  rewrite std_percent_byte_eq by exact B. destruct (N.ltb_spec c 128) as [L|L].
  - rewrite A1 by exact L. destruct (set c); reflexivity.
  - rewrite A2, quote_safe_hi by exact L. reflexivity.
Qed.
Lemma agree_reference : set_agrees (quote_default_safe false) reference_set.
Proof.
  split; [|intros c Hc; unfold reference_set, one_of; cbn [existsb]; lia].
  intros c Hc. apply eqb_prop. apply (forall_below 128 (fun c => Bool.eqb (quote_safe (quote_default_safe false) c) (negb (reference_set c)))); [vm_compute; reflexivity|lia].
Qed.
Lemma chunk_set b : is_bytes b ->
  (if starts_with $"&#" b then quote_via_bytes false (quote_default_safe false) b else quote_via_bytes false SAFE_SPECIAL_QUERY b) = percent_chunk b.
Proof.
  intros B. unfold quote_via_bytes. cbn [andb]. rewrite (quote_set _ _ b agree_reference B), (quote_set _ _ b agree_special_query B).
  unfold percent_chunk. change ($"&#") with [38; 35]. destruct b as [|x [|y r]]; [reflexivity| |]; cbn [starts_with].
  - now rewrite andb_false_r.
  - rewrite andb_true_r, (N.eqb_sym 38 x), (N.eqb_sym 35 y). reflexivity.
Qed.
Lemma any_query_set {X} (cd : str -> anycodec X) enc u q : enc <> $"utf-8" -> legacy_scheme (scheme u) -> q <> [] -> is_pystr q -> bytes_codec (cd enc) ->
  any_query cd enc u q =
  match strict (cd enc) (scalar_value_string q) with
  | EBytes b => inr (percent_bytes special_query_set b)
  | EOther x => inl x
  | EUnencodable =>
      match chunks (cd enc) (scalar_value_string q) with
      | inr x => inl x
      | inl bs => inr (flat_map percent_chunk bs)
      end
  end.
Proof.
  intros NE (S1 & S2 & S3) NQ P [B1 B2]. unfold any_query.
  assert (SP : is_special u = true) by (unfold is_special; now apply special_spec).
  assert (QE : query_encoding u enc = enc).
  { unfold query_encoding, is_not_special. unfold is_special in SP. rewrite SP. cbn [negb orb].
    unfold str_in. cbn [existsb]. apply str_eqb_neq in S2, S3. rewrite S2, S3. now rewrite !andb_false_r. }
  rewrite QE, SP. apply str_eqb_neq in NE. rewrite NE. unfold any_percent_encode. rewrite usv_spec by exact P.
  destruct (scalar_value_string q) as [|c t] eqn:V.
  - exfalso. destruct q as [|d [|e q]]; [now apply NQ|discriminate V|]. rewrite svs_cons2 in V. destruct (_ && _); discriminate V.
  - cbn [andb]. destruct (strict (cd enc) (c :: t)) as [b| |x] eqn:W; [|destruct (chunks (cd enc) (c :: t)) as [bs|x] eqn:Y; [|reflexivity]|reflexivity].
    + f_equal. apply quote_set; [exact agree_special_query|]. now apply (B1 _ _ W).
    + f_equal. apply flat_map_ext_In. intros b Hb. apply chunk_set. specialize (B2 _ _ Y). rewrite Forall_forall in B2. now apply B2.
Qed.
Lemma any_query_utf8 {X} (cd : str -> anycodec X) enc u q : enc = $"utf-8" \/ ~ legacy_scheme (scheme u) ->
  any_query cd enc u q = inr (utf8_percent_encode q (if is_special u then SAFE_SPECIAL_QUERY else SAFE_QUERY) false).
Proof.
  intros H. unfold any_query. assert (QE : query_encoding u enc = $"utf-8").
  { unfold query_encoding. destruct (str_eqb enc $"utf-8") eqn:Q; [now apply str_eqb_eq in Q|]. cbn [negb andb].
    destruct H as [->|H]; [rewrite str_eqb_refl in Q; discriminate Q|]. unfold is_not_special.
    destruct (special_scheme (scheme u)) eqn:S; [|unfold is_special; rewrite ?S; reflexivity].
    unfold str_in. cbn [existsb]. destruct (str_eqb (scheme u) $"ws") eqn:Q1; [now rewrite ?orb_true_r|].
    destruct (str_eqb (scheme u) $"wss") eqn:Q2; [now rewrite ?orb_true_r|]. exfalso. apply H. apply special_spec in S. apply str_eqb_neq in Q1, Q2. now repeat split. }
  rewrite QE, str_eqb_refl. reflexivity.
Qed.
Lemma utf8_query E s base u q : snd (parse_new E s base UTF8) = Ok u -> query_text (clean s) = Some q ->
  set_query (Some (utf8_percent_encode q (if is_special u then SAFE_SPECIAL_QUERY else SAFE_QUERY) false)) u = u.
Proof.
  intros P Q. pose proof (any_new_ok (fun e => char_codec (codec E e)) E s base UTF8) as A. rewrite P, Q, normalize_utf8 in A. cbn [recode] in A.
  rewrite any_query_utf8 in A by now left. pose proof (new_char E s base UTF8) as B.
  destruct (any_new _ E s base UTF8) as [l r]. cbn [snd] in A. subst r. cbn [plain_result] in B. rewrite <- B in P. cbn [snd] in P. now injection P.
Qed.
Lemma query_text_pystr t q : is_pystr t -> query_text t = Some q -> is_pystr q.
Proof.
  intros P. induction t as [|c t IH]; [discriminate|]. inversion P as [|? ? P1 P2]; subst. cbn [query_text].
  destruct (c =? 35); [discriminate|]. destruct (c =? 63); [|now apply IH]. intros [= <-]. clear - P2.
  induction t as [|d t IH]; [constructor|]. inversion P2; subst. cbn [until_hash]. destruct (d =? 35); [constructor|]. constructor; [assumption|]. now apply IH.
Qed.
Theorem any_codec {X} (cd : str -> anycodec X) E s base enc : is_pystr s -> bytes_codec (cd (normalize_encoding E enc)) ->
  match snd (parse_new E s base UTF8) with
  | Err e => snd (any_new cd E s base enc) = Err e
  | Ok u =>
      (normalize_encoding E enc = $"utf-8" \/ ~ legacy_scheme (scheme u) \/ std_query_text s = None \/ std_query_text s = Some [] ->
         snd (any_new cd E s base enc) = Ok (inr u)) /\
      (forall q, normalize_encoding E enc <> $"utf-8" -> legacy_scheme (scheme u) -> std_query_text s = Some q -> q <> [] ->
         let c := cd (normalize_encoding E enc) in
         snd (any_new cd E s base enc) =
         match strict c (scalar_value_string q) with
         | EBytes b => Ok (inr (set_query (Some (percent_bytes special_query_set b)) u))
         | EOther x => Ok (inl x)
         | EUnencodable =>
             match chunks c (scalar_value_string q) with
             | inr x => Ok (inl x)
             | inl bs => Ok (inr (set_query (Some (flat_map percent_chunk bs)) u))
             end
         end)
  end.
Proof.
  intros PS BC. rewrite any_new_ok. destruct (snd (parse_new E s base UTF8)) as [u|e] eqn:P; [|reflexivity].
  unfold std_query_text. rewrite <- clean_std. split.
  - intros H. destruct (query_text (clean s)) as [q|] eqn:Q; [|reflexivity]. cbn [recode].
    assert (Z : any_query cd (normalize_encoding E enc) u q = inr (utf8_percent_encode q (if is_special u then SAFE_SPECIAL_QUERY else SAFE_QUERY) false)).
    { destruct H as [H|[H|[H|H]]]; [apply any_query_utf8; now left|apply any_query_utf8; now right|discriminate H|].
      injection H as ->. rewrite any_query_nil. reflexivity. }
    rewrite Z, (utf8_query E s base u q P Q). reflexivity.
  - intros q NE L Q NQ. rewrite Q. cbn [recode].
    rewrite any_query_set; [|exact NE|exact L|exact NQ| |exact BC].
    + cbv zeta. destruct (strict _ _); [reflexivity| |reflexivity]. destruct (chunks _ _); reflexivity.
    + apply (query_text_pystr (clean s)); [|exact Q]. now apply clean_pystr.
Qed.

Lemma unknown_bytes {X} (x : X) c : unknown_codec x c -> bytes_codec c.
Proof. intros U. split; intros s b H; destruct (U s) as [H1 H2]; congruence. Qed.
Theorem any_lookup {X} (cd : str -> anycodec X) E s base enc x : is_pystr s -> unknown_codec x (cd (normalize_encoding E enc)) ->
  let asked u := normalize_encoding E enc <> $"utf-8" /\ legacy_scheme (scheme u) /\ exists q, std_query_text s = Some q /\ q <> [] in
  (snd (any_new cd E s base enc) = Ok (inl x) <-> exists u, snd (parse_new E s base UTF8) = Ok u /\ asked u) /\
  (forall u, snd (any_new cd E s base enc) = Ok (inr u) <-> snd (parse_new E s base UTF8) = Ok u /\ ~ asked u) /\
  (forall e, snd (any_new cd E s base enc) = Err e <-> snd (parse_new E s base UTF8) = Err e).
Proof.
  intros PS U asked. pose proof (any_codec cd E s base enc PS (unknown_bytes x _ U)) as A.
  destruct (snd (parse_new E s base UTF8)) as [u|e] eqn:P.
  2:{ rewrite A. split; [|split].
      - split; [discriminate|]. intros (v & V & _). discriminate V.
      - intros v. split; [discriminate|]. intros [V _]. discriminate V.
      - intros e0. split; congruence. }
  destruct A as [A1 A2].
  assert (D : (asked u /\ snd (any_new cd E s base enc) = Ok (inl x)) \/ (~ asked u /\ snd (any_new cd E s base enc) = Ok (inr u))).
  { unfold asked. destruct (list_eq_dec N.eq_dec (normalize_encoding E enc) $"utf-8") as [Q|NE]; [right; split; [tauto|apply A1; now left]|].
    assert (L : legacy_scheme (scheme u) \/ ~ legacy_scheme (scheme u)).
    { unfold legacy_scheme. destruct (special_scheme (scheme u)) eqn:S.
      - apply special_spec in S. destruct (list_eq_dec N.eq_dec (scheme u) $"ws"); [right; tauto|]. destruct (list_eq_dec N.eq_dec (scheme u) $"wss"); [right; tauto|]. left. tauto.
      - right. intros (S1 & _). apply special_spec in S1. congruence. }
    destruct L as [L|L]; [|right; split; [tauto|apply A1; tauto]].
    destruct (std_query_text s) as [[|c q]|].
    - right. split; [|apply A1; tauto]. intros (_ & _ & q & [= <-] & H). now apply H.
    - left. split; [split; [exact NE|split; [exact L|exists (c :: q); split; [reflexivity|discriminate]]]|].
      rewrite (A2 (c :: q) NE L eq_refl) by discriminate. cbv zeta. now destruct (U (scalar_value_string (c :: q))) as [-> _].
    - right. split; [|apply A1; tauto]. intros (_ & _ & q & H & _). discriminate H. }
  destruct D as [[D1 D2]|[D1 D2]]; rewrite D2; (split; [|split; [intros v|intros e; split; discriminate]]); split; intros H.
  - exists u. now split.
  - reflexivity.
  - discriminate H.
  - destruct H as [[= ->] H]. now apply H in D1.
  - discriminate H.
  - destruct H as (v & [= ->] & H). now apply D1 in H.
  - injection H as ->. now split.
  - destruct H as [[= ->] _]. reflexivity.
Qed.
