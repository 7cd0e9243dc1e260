(** Lemmas on BasicURLParser.parse with any state override (C136). *)
From Coq Require Import Ascii String.
From Coq Require Import NArith ZArith Bool Arith Lia ZifyBool ZifyN ZifyNat List.
From Verif Require Import PyStr PyInt Codec Env HostModel UrlRecord Parser FlatParser BasicParse.
From Verif Require Import Lemmas CodecProofs QuoteProofs PyIntProofs LegacyProofs HostProofs LoopProofs FlatProofs TermProofs WfProofs RoundTrip ParserProofs StandardProofs QueryProofs UrlProps AuthorityProofs ApiProofs.
From Verif Require Import SpecText SpecUrl SpecParser SpecApi SpecAuthority SpecOverride.
Import ListNotations.
Open Scope N_scope.

Section Over.
Context (E : env) (base : option urlrec) (enc : str) (so : pstate) (HE : enc_ok E enc).
Definition go (n : nat) (st : pstate) (rest : str) (u : urlrec) : urlrec * res unit := run (run_fsm n E base enc (Some so) st rest) u.
Lemma go_eof n rest u : go n EOF rest u = (u, Ok tt).
Proof. unfold go. destruct n; reflexivity. Qed.
Lemma go_step n st rest u : st <> EOF ->
  go (S n) st rest u =
  match snd (run (step E base enc (Some so) st rest) u) with
  | Ok r => go n (fst r) (skipn (snd r) rest) (fst (run (step E base enc (Some so) st rest) u))
  | Err e => (fst (run (step E base enc (Some so) st rest) u), Err e)
  end.
Proof.
  intros H. unfold go.
  assert (R : run_fsm (S n) E base enc (Some so) st rest =
              bind (step E base enc (Some so) st rest) (fun r => run_fsm n E base enc (Some so) (fst r) (skipn (snd r) rest)))
    by (destruct st; try reflexivity; congruence).
  rewrite R, run_bind. reflexivity.
Qed.
Local Ltac st := rewrite go_step by discriminate; cbn [step].

(** what a result may be *)
Definition res_is (k : option misuse) (r : res unit) : Prop :=
  match k with None => perrs E r | Some m => exists e, r = Err e /\ misuse_exc m e end.
Definition is_ok (cs : list component) (k : option misuse) (u : urlrec) (x : urlrec * res unit) : Prop :=
  (forall c, ~ In c cs -> agree c u (fst x)) /\ res_is k (snd x).
Lemma agree_refl c u : agree c u u. Proof. destruct c; reflexivity. Qed.
Lemma agree_trans c u v w : agree c u v -> agree c v w -> agree c u w.
Proof. destruct c; cbn; congruence. Qed.
Lemma ok_same cs k u r : res_is k r -> is_ok cs k u (u, r).
Proof. intros H. split; [intros c _; apply agree_refl|exact H]. Qed.
(** a step that writes [cs], then a run *)
Lemma ok_then cs cs' k u v x : (forall c, ~ In c cs -> agree c u v) -> incl cs' cs -> is_ok cs' k v x -> is_ok cs k u x.
Proof.
  intros H I [A B]. split; [|exact B]. intros c Hc. apply (agree_trans c u v); [now apply H|]. apply A. intros K. apply Hc, I, K.
Qed.
Lemma ok_sub cs cs' k u x : incl cs' cs -> is_ok cs' k u x -> is_ok cs k u x.
Proof. intros I H. apply (ok_then cs cs' k u u x); auto. intros c _. apply agree_refl. Qed.
Local Ltac fr := let c := fresh in let H := fresh in intros c H; destruct c; try reflexivity; exfalso; apply H; cbn; tauto.
Local Ltac inc := let c := fresh in let H := fresh in intros c H; cbn in H |- *; tauto.

Lemma ok_fragment n rest u : is_ok [CFragment] (misuse_of FRAGMENT rest u base) u (go (S n) FRAGMENT rest u).
Proof.
  cbn [misuse_of]. st. destruct (fragment u) as [f|] eqn:F.
  - rewrite (run_fragment _ _ f) by exact F. cbn [fst snd]. rewrite go_eof. split; [fr|apply perrs_ok].
  - enough (G : forall i b, run (fragment_loop rest i b) u = if (length (b ++ rest) =? 0)%nat then (u, Ok (EOF, i)) else (u, Err EType)).
    { unfold parse_fragment. rewrite G. cbn [app]. destruct rest as [|c t]; cbn [length Nat.eqb fst snd].
      - rewrite go_eof. apply ok_same, perrs_ok.
      - apply ok_same. exists EType. split; reflexivity. }
    induction rest as [|c t IH]; intros i b; cbn [fragment_loop].
    + rewrite app_nil_r. destruct b as [|x b]; cbn [length Nat.eqb negb when]; rn; [reflexivity|]. unfold fragment_append. rn. rewrite F. rn. reflexivity.
    + rn. rewrite IH, <- app_assoc. cbn [app]. assert (X : (length (b ++ c :: t) =? 0)%nat = false) by (rewrite app_length; cbn [length]; lia). now rewrite X.
Qed.
Lemma ok_fragment_nil n u cs : is_ok cs None u (go (S n) FRAGMENT [] u).
Proof. st. unfold parse_fragment. cbn [fragment_loop length Nat.eqb negb when]. rn. rewrite go_eof. apply ok_same, perrs_ok. Qed.
Lemma span_all p s : (forall c, p c = true) -> span p s = (s, []).
Proof. intros H. induction s as [|c t IH]; [reflexivity|]. cbn [span]. now rewrite H, IH. Qed.
Lemma ok_query n rest u : is_pystr rest -> is_ok [CQuery] (misuse_of QUERY rest u base) u (go (S (S n)) QUERY rest u).
Proof.
  intros P. cbn [misuse_of]. st. destruct (query u) as [q|] eqn:F.
  - unfold parse_query. rewrite (run_query_loop _ _ _ _ _ _ _ q) by exact F. rewrite (span_all (not_hash (Some so))) by reflexivity. cbn [app].
    destruct (enc_query_ok E enc u rest HE P) as (x & -> & _). cbv zeta. cbn [fst snd]. rewrite skipn_all2 by (cbn; lia).
    apply (ok_then _ [CQuery] _ _ (set_query (Some (q ++ x)) u)); [fr|inc|]. apply ok_fragment_nil.
  - enough (G : forall i b, is_pystr (b ++ rest) -> run (query_loop E (Some so) enc rest i b) u = if (length (b ++ rest) =? 0)%nat then (u, Ok (FRAGMENT, i)) else (u, Err EType)).
    { unfold parse_query. rewrite G by exact P. cbn [app]. destruct rest as [|c t]; cbn [length Nat.eqb fst snd].
      - cbn [skipn]. apply ok_fragment_nil.
      - apply ok_same. exists EType. split; reflexivity. }
    clear P. induction rest as [|c t IH]; intros i b P; cbn [query_loop overridden negb andb].
    + rewrite app_nil_r in *. destruct b as [|x b]; cbn [length Nat.eqb negb when]; rn; [reflexivity|].
      unfold query_flush. rn. destruct (enc_query_ok E enc u (x :: b) HE P) as (y & Y & _). unfold enc_query in Y. rewrite Y. unfold query_append. rn. rewrite F. rn. reflexivity.
    + rn. rewrite IH by (rewrite <- app_assoc; exact P). rewrite <- app_assoc. cbn [app]. assert (X : (length (b ++ c :: t) =? 0)%nat = false) by (rewrite app_length; cbn [length]; lia). now rewrite X.
Qed.
Lemma ok_opaque n rest : forall u, is_pystr rest -> is_ok [CPath; CQuery; CFragment] None u (go (S (S (S n))) OPAQUE_PATH rest u).
Proof.
  assert (G : forall i u, exists p, run (opaque_path_loop rest i) u =
     match snd (span (fun c => negb ((c =? 63) || (c =? 35))) rest) with
     | [] => (set_path p u, Ok (EOF, (i + length rest)%nat))
     | c :: t => if c =? 63 then (set_query (Some []) (set_path p u), Ok (QUERY, (i + (length rest - length t))%nat)) else (set_fragment (Some []) (set_path p u), Ok (FRAGMENT, (i + (length rest - length t))%nat))
     end).
  { induction rest as [|c t IH]; intros i u; cbn [opaque_path_loop span].
    - exists (path u). rn. cbn [snd length]. rewrite Nat.add_0_r. destruct u; reflexivity.
    - destruct (c =? 63) eqn:C; cbn [orb negb snd].
      + exists (path u). rn. rewrite C. cbn [length]. replace (i + (S (length t) - length t))%nat with (S i) by lia. destruct u; reflexivity.
      + destruct (c =? 35) eqn:D; cbn [negb snd].
        * exists (path u). rn. rewrite C. cbn [length]. replace (i + (S (length t) - length t))%nat with (S i) by lia. destruct u; reflexivity.
        * rn. unfold path_extend. rn. match goal with |- context [set_path ?p0 u] => destruct (IH (S i) (set_path p0 u)) as (p & Q) end. exists p. rewrite Q.
          pose proof (span_eq (fun c => negb ((c =? 63) || (c =? 35))) t) as SE. destruct (span (fun c => negb ((c =? 63) || (c =? 35))) t) as [a r]. cbn [fst snd] in SE |- *.
          assert (SP : forall q q', set_path q (set_path q' u) = set_path q u) by (intros; destruct u; reflexivity). rewrite SP.
          destruct r as [|x r]; cbn [length]; [now replace (S i + length t)%nat with (i + S (length t))%nat by lia|].
          assert (L : (length r < length t)%nat) by (rewrite SE, app_length; cbn [length]; lia).
          replace (S i + (length t - length r))%nat with (i + (S (length t) - length r))%nat by lia. reflexivity. }
  intros u P. st. unfold parse_opaque_path. destruct (G 0%nat u) as (p & Q). rewrite Q. clear G Q.
  pose proof (span_eq (fun c => negb ((c =? 63) || (c =? 35))) rest) as SE. destruct (span (fun c => negb ((c =? 63) || (c =? 35))) rest) as [a r]. cbn [fst snd] in SE |- *.
  destruct r as [|c t]; cbn [fst snd].
  - rewrite go_eof. split; [fr|apply perrs_ok].
  - assert (SK : skipn (0 + (length rest - length t)) rest = t).
    { rewrite SE, app_length. cbn [length]. replace (0 + (length a + S (length t) - length t))%nat with (length a + 1)%nat by lia. rewrite skipn_app. rewrite skipn_all2 by lia. replace (length a + 1 - length a)%nat with 1%nat by lia. reflexivity. }
    assert (PT : is_pystr t). { rewrite SE in P. apply Forall_app in P as [_ P]. now inversion P. }
    destruct (c =? 63); cbn [fst snd]; rewrite SK.
    + eapply (ok_then _ [CQuery]); [| |apply (ok_query (n)); exact PT]; [fr|inc].
    + eapply (ok_then _ [CFragment]); [| |apply ok_fragment]; [fr|inc].
Qed.
Lemma opaque_eof n u : go (S (S n)) OPAQUE_PATH [] u = (u, Ok tt).
Proof. st. unfold parse_opaque_path. cbn [opaque_path_loop]. rn. apply go_eof. Qed.
Lemma segs_eq u : is_opaque u = has_opaque_path u. Proof. reflexivity. Qed.
Lemma ok_path n rest u : is_ok [CPath] (segments u) u (go (S (S (S n))) PATH rest u).
Proof.
  unfold segments, is_opaque. st. destruct (path u) as [s|l] eqn:Q.
  - assert (FL : forall c b, run (path_flush c b) u = (u, Ok tt) /\ isc c 47 || is_special u && isc c 92 = true \/ exists e, (e = EAssert \/ e = EAttr) /\ run (path_flush c b) u = (u, Err e)).
    { intros c b. unfold path_flush. rn. destruct (str_in _ DOUBLE_DOT).
      - right. exists EAssert. split; [now left|]. unfold shorten_path. rn. rewrite Q. rn. reflexivity.
      - destruct (str_in _ SINGLE_DOT).
        + destruct (isc c 47 || is_special u && isc c 92); cbn [negb when]; [left; split; reflexivity|]. right. exists EAttr. split; [now right|]. unfold path_append. rn. rewrite Q. rn. reflexivity.
        + right. exists EAttr. split; [now right|]. unfold path_append. rn. rewrite Q. rn. reflexivity. }
    assert (G : forall i b, exists e, (e = EAssert \/ e = EAttr) /\ run (path_loop (Some so) rest i b) u = (u, Err e)).
    { induction rest as [|c t IH]; intros i b; cbn [path_loop].
      - destruct (FL None b) as [[_ H]|(e & He & H)]; [cbn [isc] in H; rewrite andb_false_r in H; discriminate H|]. exists e. split; [exact He|]. rn. rewrite H. reflexivity.
      - rn. cbn [overridden negb andb]. destruct ((c =? 47) || is_special u && (c =? 92) || false) eqn:D.
        + rn. destruct (FL (Some c) b) as [[H K]|(e & He & H)]; rewrite H; cbn [fst snd].
          * cbn [isc] in K. assert (C1 : (c =? 63) = false) by lia. assert (C2 : (c =? 35) = false) by lia. rewrite C1, C2. apply IH.
          * exists e. split; [exact He|reflexivity].
        + rn. apply IH. }
    destruct (G 0%nat []) as (e & He & H). unfold parse_path. rewrite H. cbn [fst snd]. apply ok_same. exists e. split; [reflexivity|exact He].
  - unfold parse_path. rewrite (run_path_loop _ _ _ _ _ l) by (auto; constructor). rewrite (span_all (in_path (Some so))) by reflexivity. cbn [app]. cbv zeta. cbn [fst snd].
    rewrite skipn_all2 by (cbn; lia). rewrite opaque_eof. split; [fr|apply perrs_ok].
Qed.
Lemma ok_path_start n rest u : is_ok [CPath] (misuse_of PATH_START rest u base) u (go (S (S (S (S n)))) PATH_START rest u).
Proof.
  cbn [misuse_of]. change (std_is_special u) with (is_special u). st. unfold parse_path_start. rn. cbv zeta. destruct (is_special u) eqn:SP.
  - rn. assert (K : match rest, uhost u with [], Some _ => segments u | _, _ => segments u end = segments u) by (destruct rest, (uhost u); reflexivity). rewrite K.
    apply ok_path.
  - cbn [overridden negb andb]. destruct rest as [|c t]; cbn [cur isc iseof negb].
    + destruct (uhost u) as [h|] eqn:U; cbn [when]; rn; [rewrite go_eof; apply ok_same, perrs_ok|].
      unfold segments, is_opaque. destruct (path u) as [s|l] eqn:Q.
      * unfold path_append. rn. rewrite Q. rn. apply ok_same. exists EAttr. split; [reflexivity|now right].
      * rewrite (run_append u l) by exact Q. cbn [fst snd]. rn. rewrite go_eof. split; [fr|apply perrs_ok].
    + rn. apply ok_path.
Qed.
Lemma ok_port n t u : is_ok [CPort] None u (go (S (S n)) PORT t u).
Proof.
  st. unfold parse_port. rewrite run_port_loop. assert (F : forallb (fun c => mem c ASCII_DIGITS) (fst (span (fun c => mem c ASCII_DIGITS) t)) = true).
  { clear. induction t as [|c t IH]; [reflexivity|]. cbn [span]. destruct (mem c ASCII_DIGITS) eqn:Q; [|reflexivity]. destruct (span (fun c => mem c ASCII_DIGITS) t). cbn [fst forallb] in *. now rewrite Q, IH. }
  destruct (span (fun c => mem c ASCII_DIGITS) t) as [d r]. cbn [fst] in F.
  replace (match r with [] => true | c :: _ => ends_auth (is_special u) c || overridden (Some so) end) with true by (destruct r; [reflexivity|cbn [overridden]; now rewrite orb_true_r]).
  unfold port_end. cbn [app overridden Nat.add]. destruct d as [|c d].
  - rn. rewrite go_eof. apply ok_same, perrs_ok.
  - rn. destruct (e_int E (c :: d) 10) as [z|] eqn:Q; rn.
    + cbv zeta. destruct (65535 <? Z.to_N z); rn; [apply ok_same; now apply perrs_url|]. destruct (on_eqb _ _); rn; rewrite go_eof; (split; [fr|apply perrs_ok]).
    + apply ok_same. intros e K. injection K as <-. right. split; [reflexivity|]. apply (e_int_err E (c :: d)); [discriminate|exact F|exact Q].
Qed.
Lemma host_res {A} h ns e : snd (host_parse E h ns) = Err e -> perrs E (@Err A e).
Proof. intros H e' K. injection K as <-. now apply (host_parse_err E h ns). Qed.
Lemma ok_file_host n t u : is_ok [CHost] None u (go (S (S n)) FILE_HOST t u).
Proof.
  st. unfold parse_file_host. rewrite run_file_host_loop. destruct (span (fun c => negb (mem c $"/\?#")) t) as [h r]. cbn [app Nat.add]. unfold file_host_end.
  cbn [overridden negb andb]. destruct h as [|c h].
  - rn. rewrite go_eof. split; [fr|apply perrs_ok].
  - rn. destruct (snd (host_parse E (c :: h) (is_not_special u))) as [x|e] eqn:Q; rn; [|apply ok_same; exact (host_res _ _ _ Q)]. rewrite go_eof. split; [fr|apply perrs_ok].
Qed.
Lemma ok_host n st t u : st = HOST \/ st = HOSTNAME -> is_ok [CHost; CPort] None u (go (S (S (S n))) st t u) /\ (so = HOSTNAME -> is_ok [CHost] None u (go (S (S (S n))) st t u)).
Proof.
  intros Hst. rewrite go_step by (destruct Hst; subst; discriminate).
  replace (step E base enc (Some so) st t) with (parse_host E t (Some so)) by (destruct Hst; subst; reflexivity).
  enough (G : exists b : bool, (so = HOSTNAME -> b = false) /\ is_ok (if b then [CHost; CPort] else [CHost]) None u
    (match snd (run (parse_host E t (Some so)) u) with
     | Ok r => go (S (S n)) (fst r) (skipn (snd r) t) (fst (run (parse_host E t (Some so)) u))
     | Err e => (fst (run (parse_host E t (Some so)) u), Err e) end)).
  { destruct G as (b & B & G). split; [apply (ok_sub _ (if b then [CHost; CPort] else [CHost])); [destruct b; inc|exact G]|]. intros K. now rewrite (B K) in G. }
  unfold parse_host. rn. cbn [overridden andb]. destruct (str_eqb (scheme u) $"file").
  - exists false. split; [reflexivity|]. rn. apply ok_file_host.
  - rewrite run_host_loop. destruct (host_scan (is_special u) false t) as [h r]. cbn [app Nat.add]. destruct (isc (cur r) 58).
    + destruct (length h =? 0)%nat; [exists false; split; [reflexivity|]; apply ok_same; now apply perrs_url|]. destruct (is_hostname_override (Some so)) eqn:HO.
      * exists false. split; [reflexivity|]. cbn [fst snd]. rewrite go_eof. apply ok_same, perrs_ok.
      * exists true. split; [intros K; rewrite K in HO; discriminate HO|]. destruct (snd (host_parse E h (is_not_special u))) as [x|e] eqn:Q; cbn [fst snd]; [|apply ok_same; exact (host_res _ _ _ Q)].
        eapply (ok_then _ [CPort]); [| |apply ok_port]; [fr|inc].
    + exists false. split; [reflexivity|]. unfold Parser.host_end. rn. destruct (is_special u && (length h =? 0)%nat); rn; [apply ok_same; now apply perrs_url|].
      cbn [overridden andb]. destruct ((length h =? 0)%nat && (includes_credentials u || port_truthy (port u))); rn; [rewrite go_eof; apply ok_same, perrs_ok|].
      destruct (snd (host_parse E h (is_not_special u))) as [x|e] eqn:Q; rn; [|apply ok_same; exact (host_res _ _ _ Q)]. rewrite go_eof. split; [fr|apply perrs_ok].
Qed.
Lemma creds_agree seen s u c : ~ In c [CUsername; CPassword; CHost; CPort] -> agree c u (add_creds seen s u).
Proof. intros H. unfold add_creds. destruct seen; [|destruct (split_first 58 s)]; destruct c; try reflexivity; exfalso; apply H; cbn; tauto. Qed.
Lemma ok_authority n t u : is_ok [CUsername; CPassword; CHost; CPort] None u (go (S (S (S (S n)))) AUTHORITY t u).
Proof.
  st. unfold parse_authority. rn. rewrite run_authority_loop by (cbn; lia). destruct (span (fun c => negb (ends_auth (is_special u) c)) t) as [a r].
  destruct (split_last 64 a) as [[ui hp]|]; cbv zeta.
  - destruct (length hp =? 0)%nat; cbn [fst snd]; rn.
    + split; [intros c Hc; now apply creds_agree|now apply perrs_url].
    + eapply (ok_then _ [CHost; CPort]); [intros c Hc; now apply (creds_agree false (at_prefix false ++ [] ++ ui) u c Hc)|inc|]. apply (ok_host n HOST); now left.
  - cbn [andb]. cbn [fst snd]. rn. eapply (ok_then _ [CHost; CPort]); [intros c Hc; apply agree_refl|inc|]. apply (ok_host n HOST); now left.
Qed.
Lemma ok_ignore n t u : is_ok [CUsername; CPassword; CHost; CPort] None u (go (S (S (S (S (S n))))) SPECIAL_AUTHORITY_IGNORE_SLASHES t u).
Proof. st. unfold parse_ignore_slashes. rewrite run_ignore_slashes. cbn [fst snd]. apply ok_authority. Qed.
Lemma ok_slashes n t u : is_ok [CUsername; CPassword; CHost; CPort] None u (go (S (S (S (S (S (S n)))))) SPECIAL_AUTHORITY_SLASHES t u).
Proof. st. unfold parse_special_authority_slashes. destruct (starts_with $"//" t); rn; apply ok_ignore. Qed.
Lemma slash_first_eq sp t : slash_first sp t = match t with c :: _ => (c =? 47) || sp && (c =? 92) | [] => false end.
Proof. reflexivity. Qed.
Lemma ok_path_or n t u : is_ok [CUsername; CPassword; CHost; CPort; CPath] (misuse_of PATH_OR_AUTHORITY t u base) u (go (S (S (S (S (S n))))) PATH_OR_AUTHORITY t u).
Proof.
  cbn [misuse_of]. st. unfold parse_path_or_authority. destruct t as [|c t]; cbn [cur isc slash_first].
  - rn. eapply ok_sub; [|apply ok_path]. inc.
  - cbn [andb]. rewrite orb_false_r. destruct (c =? 47); rn; cbn [skipn]; (eapply ok_sub; [|first [apply ok_authority|apply ok_path]]; inc).
Qed.
Lemma slash2 c : iscp (Some c) $"/\" = (c =? 47) || (c =? 92).
Proof. cbn [iscp]. rewrite <- slash_eq. reflexivity. Qed.
Lemma ok_file_slash n t u : is_ok [CHost; CPath] (file_slash_misuse t u) u (go (S (S (S (S n)))) FILE_SLASH t u).
Proof.
  unfold file_slash_misuse. st. unfold parse_file_slash.
  assert (G : slash_first true t = iscp (cur t) $"/\"). { destruct t as [|c t]; [reflexivity|]. cbn [cur slash_first andb]. now rewrite slash2. }
  rewrite G. cbv zeta. destruct (iscp (cur t) $"/\").
  - rn. eapply ok_sub; [|apply ok_file_host]. inc.
  - destruct base as [b|]; [destruct (str_eqb (scheme b) $"file")|]; rn; try (eapply ok_sub; [|apply ok_path]; inc).
    assert (K : is_ok [CHost; CPath] (segments u) u (go (S (S (S n))) PATH t (set_host (uhost b) u))).
    { eapply (ok_then _ [CPath]); [| |apply (ok_path n t (set_host (uhost b) u))]; [fr|inc]. }
    destruct (path b) as [x|[|s l]]; rn; [exact K|exact K|].
    destruct (negb (starts_with_windows_drive_letter t) && is_normalized_windows_drive_letter s); cbn [when]; rn; [|exact K].
    unfold segments, is_opaque in *. cbn [set_host path]. destruct (path u) as [x|l'] eqn:Q; rn.
    + split; [fr|]. exists EAssert. split; [reflexivity|now left].
    + rewrite (run_append _ l') by exact Q. cbn [fst snd]. rn.
      eapply (ok_then _ [CPath]); [| |apply (ok_path n t (set_path (PList (l' ++ [s])) (set_host (uhost b) u)))]; [fr|inc].
Qed.
Lemma ok_file n t u : is_pystr t -> is_ok [CScheme; CHost; CPath; CQuery; CFragment] (file_misuse t u base) u (go (S (S (S (S (S n))))) FILE t u).
Proof.
  intros P. unfold file_misuse. st. unfold parse_file. rn. cbv zeta.
  assert (G : slash_first true t = iscp (cur t) $"/\"). { destruct t as [|c t]; [reflexivity|]. cbn [cur slash_first andb]. now rewrite slash2. }
  rewrite G. set (v := set_host (Some (HStr [])) (set_scheme $"file" u)).
  assert (A : forall c, ~ In c [CScheme; CHost; CPath; CQuery; CFragment] -> agree c u v) by fr.
  destruct (iscp (cur t) $"/\") eqn:SL.
  - rn. replace (skipn 1 t) with (tl t) by (destruct t; reflexivity). eapply (ok_then _ [CHost; CPath]); [exact A|inc|]. apply (ok_file_slash n (tl t) v).
  - destruct base as [b|]; [destruct (str_eqb (scheme b) $"file")|]; rn; try (eapply (ok_then _ [CPath]); [exact A|inc|]; apply (ok_path (S n) t v)).
    destruct t as [|c t]; cbn [cur isc iseof negb].
    + rn. eapply (ok_then _ [CPath]); [| |apply (ok_path (S n) [] (set_query (query b) (set_path (path b) (set_host (uhost b) v))))]; [fr|inc].
    + rewrite <- starts_drive_eq. destruct (c =? 63) eqn:C1; cbn [orb].
      { rn. cbn [skipn]. eapply (ok_then _ [CQuery]); [| |apply (ok_query (S (S n)) t (set_query (Some []) (set_query (query b) (set_path (path b) (set_host (uhost b) v))))); now inversion P]; [fr|inc]. }
      destruct (c =? 35) eqn:C2; cbn [orb].
      { rn. cbn [skipn]. eapply (ok_then _ [CFragment]); [| |apply (ok_fragment (S (S (S n))) t (set_fragment (Some []) (set_query (query b) (set_path (path b) (set_host (uhost b) v)))))]; [fr|inc]. }
      rn. destruct (starts_with_windows_drive_letter (c :: t)); cbn [negb].
      * rn. eapply (ok_then _ [CPath]); [| |apply (ok_path (S n) (c :: t) (set_path (PList []) (set_query None (set_query (query b) (set_path (path b) (set_host (uhost b) v))))))]; [fr|inc].
      * unfold shorten_path. rn. unfold segments, is_opaque. cbn [set_query set_path path]. destruct (path b) as [x|l] eqn:Q; rn.
        { split; [fr|]. exists EAssert. split; [reflexivity|now left]. }
        match goal with |- is_ok _ _ _ (go _ _ _ ?w) => eapply (ok_then _ [CPath]); [| |apply (ok_path (S n) (c :: t) w)]; [fr|inc] end.
Qed.
Lemma ok_relative_slash n t u : is_ok [CUsername; CPassword; CHost; CPort; CPath] (relative_slash_misuse (is_special u) t u base) u (go (S (S (S (S (S (S n)))))) RELATIVE_SLASH t u).
Proof.
  unfold relative_slash_misuse. st. unfold parse_relative_slash. rn. cbv zeta.
  assert (R : forall w, w = match base with
     | None => (u, Err EAssert)
     | Some b => go (S (S (S (S (S n))))) PATH t (set_port (port b) (set_host (uhost b) (set_password (password b) (set_username (username b) u)))) end ->
     is_ok [CUsername; CPassword; CHost; CPort; CPath] (match base with None => Some NoBase | Some _ => segments u end) u w).
  { intros w ->. destruct base as [b|]; [|apply ok_same; exists EAssert; split; reflexivity].
    eapply (ok_then _ [CPath]); [| |apply (ok_path (S (S n)) t (set_port (port b) (set_host (uhost b) (set_password (password b) (set_username (username b) u)))))]; [fr|inc]. }
  assert (S1 : is_ok [CUsername; CPassword; CHost; CPort; CPath] None u (go (S (S (S (S (S n))))) SPECIAL_AUTHORITY_IGNORE_SLASHES (skipn 1 t) u)) by (eapply ok_sub; [|apply ok_ignore]; inc).
  assert (S2 : is_ok [CUsername; CPassword; CHost; CPort; CPath] None u (go (S (S (S (S (S n))))) AUTHORITY (skipn 1 t) u)) by (eapply ok_sub; [|apply (ok_authority (S n))]; inc).
  destruct t as [|c t]; cbn [cur isc slash_first].
  - change (iscp None $"/\") with false. rewrite andb_false_r. rn. apply R. destruct base; rn; reflexivity.
  - rewrite slash2. destruct (is_special u); cbn [andb].
    + destruct ((c =? 47) || (c =? 92)) eqn:C; rn; [exact S1|]. assert (C1 : (c =? 47) = false) by lia. rewrite C1. apply R. destruct base; rn; reflexivity.
    + rewrite orb_false_r. destruct (c =? 47); rn; [exact S2|]. apply R. destruct base; rn; reflexivity.
Qed.
Definition all_comps := [CScheme; CUsername; CPassword; CHost; CPort; CPath; CQuery; CFragment].
Local Ltac fra := let c := fresh in let H := fresh in intros c H; exfalso; apply H; destruct c; cbn; tauto.
Lemma ok_relative n t u : is_pystr t -> is_ok all_comps (relative_misuse t u base) u (go (S (S (S (S (S (S (S n))))))) RELATIVE t u).
Proof.
  intros P. unfold relative_misuse. st. unfold parse_relative. destruct base as [b|] eqn:B; [|rn; apply ok_same; exists EAssert; split; reflexivity].
  destruct (str_eqb (scheme b) $"file"); [rn; apply ok_same; exists EAssert; split; reflexivity|]. rn. cbv zeta. change (std_is_special b) with (is_special b).
  set (v := set_scheme (scheme b) u). change (is_special v) with (is_special b). rewrite <- B.
  assert (S1 : forall t', is_ok all_comps (relative_slash_misuse (is_special b) t' u base) u (go (S (S (S (S (S (S n)))))) RELATIVE_SLASH t' v)).
  { intros t'. eapply (ok_then _ [CUsername; CPassword; CHost; CPort; CPath]); [fra|inc|]. apply (ok_relative_slash n t' v). }
  destruct t as [|c t]; cbn [cur isc iseof negb slash_first tl].
  - rewrite andb_false_r. rn. rewrite go_eof. split; [fra|apply perrs_ok].
  - destruct (c =? 47) eqn:C; cbn [orb]; [rn; cbn [skipn]; apply S1|]. destruct (is_special b && (c =? 92)); [rn; cbn [skipn]; apply S1|]. rn.
    destruct (c =? 63) eqn:C1; cbn [orb].
    { rn. cbn [skipn]. match goal with |- is_ok _ _ _ (go _ _ _ ?w) => eapply (ok_then _ [CQuery]); [| |apply (ok_query (S (S (S (S n)))) t w); now inversion P]; [fra|inc] end. }
    destruct (c =? 35) eqn:C2; cbn [orb].
    { rn. cbn [skipn]. match goal with |- is_ok _ _ _ (go _ _ _ ?w) => eapply (ok_then _ [CFragment]); [| |apply (ok_fragment (S (S (S (S (S n))))) t w)]; [fra|inc] end. }
    rn. unfold shorten_path. rn. unfold segments, is_opaque. cbn [set_query set_path path]. destruct (path b) as [x|l] eqn:Q; rn.
    + split; [fra|]. exists EAssert. split; [reflexivity|now left].
    + match goal with |- is_ok _ _ _ (go _ _ _ ?w) => eapply (ok_then _ [CPath]); [| |apply (ok_path (S (S (S n))) (c :: t) w)]; [fra|inc] end.
Qed.
Lemma ok_no_scheme n t u : is_pystr t -> is_ok all_comps (misuse_of NO_SCHEME t u base) u (go (S (S (S (S (S (S (S (S n)))))))) NO_SCHEME t u).
Proof.
  intros P. cbn [misuse_of]. st. unfold parse_no_scheme. destruct base as [b|] eqn:B; [|rn; apply ok_same; now apply perrs_url]. rewrite segs_eq.
  destruct (has_opaque_path b) eqn:O; cbn [andb].
  - destruct (isc (cur t) 35) eqn:C; cbn [negb]; rn; [|apply ok_same; now apply perrs_url].
    match goal with |- is_ok _ _ _ (go _ _ ?r ?w) => eapply (ok_then _ [CFragment]); [| |apply (ok_fragment (S (S (S (S (S (S n)))))) r w)]; [fra|inc] end.
  - rewrite <- B. destruct (str_eqb (scheme b) $"file"); cbn [negb]; rn.
    + cbn [skipn]. eapply ok_sub; [|apply (ok_file (S (S n)) t u P)]. inc.
    + cbn [skipn]. apply (ok_relative n t u P).
Qed.
Lemma ok_sra n t u : is_pystr t -> is_ok all_comps (misuse_of SPECIAL_RELATIVE_OR_AUTHORITY t u base) u (go (S (S (S (S (S (S (S (S n)))))))) SPECIAL_RELATIVE_OR_AUTHORITY t u).
Proof.
  intros P. cbn [misuse_of]. st. unfold parse_special_relative_or_authority.
  assert (K : slash_first false t && slash_first false (tl t) = starts_with $"//" t).
  { change ($"//") with [47; 47]. destruct t as [|a [|b t]]; cbn [starts_with slash_first tl andb]; rewrite ?andb_false_r, ?orb_false_r, ?andb_true_r; try reflexivity.
    now rewrite (N.eqb_sym a), (N.eqb_sym b). }
  rewrite K. destruct (starts_with $"//" t); rn.
  - eapply ok_sub; [|apply (ok_ignore (S (S n)))]. inc.
  - cbn [skipn]. apply (ok_relative n t u P).
Qed.
Lemma ok_scheme n t u : is_ok [CScheme; CPort] None u (go (S (S n)) SCHEME_START t u).
Proof.
  st. unfold parse_scheme. destruct t as [|c t]; [apply ok_same; now apply perrs_url|]. destruct (mem c ASCII_ALPHA); [|apply ok_same; now apply perrs_url].
  rewrite run_scheme_loop. destruct (span is_scheme_char t) as [a [|x r]]; cbn [overridden]; [apply ok_same; now apply perrs_url|].
  destruct (x =? 58); [|apply ok_same; now apply perrs_url]. unfold scheme_colon. rn. cbn [overridden andb app]. cbv zeta.
  destruct (scheme_blocked u (lower (c :: a))); rn; [rewrite go_eof; apply ok_same, perrs_ok|].
  destruct (port_truthy (port u) && on_eqb (default_port (lower (c :: a))) (port u)); cbn [when]; rn; rewrite go_eof; (split; [fr|apply perrs_ok]).
Qed.
Lemma ok_any n st t u : is_pystr t -> (st = HOSTNAME -> so = HOSTNAME) -> is_ok (may_write st) (misuse_of st t u base) u (go (S (S (S (S (S (S (S (S n)))))))) st t u).
Proof.
  intros P HN. destruct st.
  - rewrite go_eof. apply ok_same, perrs_ok.
  - apply (ok_authority (S (S (S (S n))))).
  - apply (ok_file_host (S (S (S (S (S (S n))))))).
  - apply (ok_file_slash (S (S (S (S n))))).
  - now apply (ok_file (S (S (S n)))).
  - apply ok_fragment.
  - apply (ok_host (S (S (S (S (S n))))) HOSTNAME); [now right|now apply HN].
  - apply (ok_host (S (S (S (S (S n))))) HOST); now left.
  - now apply ok_no_scheme.
  - now apply (ok_opaque (S (S (S (S (S n)))))).
  - apply (ok_path_or (S (S (S n)))).
  - apply (ok_path_start (S (S (S (S n))))).
  - apply (ok_path (S (S (S (S (S n)))))).
  - apply (ok_port (S (S (S (S (S (S n))))))).
  - now apply (ok_query (S (S (S (S (S (S n))))))).
  - apply (ok_relative_slash (S (S n))).
  - now apply (ok_relative (S n)).
  - apply (ok_scheme (S (S (S (S (S (S n))))))).
  - cbn [misuse_of]. st. apply ok_same. exists ENotImpl. split; reflexivity.
  - apply (ok_ignore (S (S (S n)))).
  - apply (ok_slashes (S (S n))).
  - now apply ok_sra.
Qed.
End Over.

(** the method *)
Lemma basic_go E s base enc url st : snd (basic_parse E s base enc url (Some st)) = go E base (normalize_encoding E enc) st FSM_FUEL st (call_input url s) (target url).
Proof.
  destruct url as [u|]; cbn [basic_parse call_input target].
  - change (snd (parse_into E s base enc (Some st) u)) with (run (parse_into E s base enc (Some st)) u). unfold parse_into, go. rn. reflexivity.
  - match goal with |- snd (?m new_url) = _ => change (snd (m new_url)) with (run m new_url) end. unfold parse_into, go. rn. rewrite input_eq. reflexivity.
Qed.
Lemma call_pystr url s : is_pystr s -> is_pystr (call_input url s).
Proof. destruct url; cbn [call_input]; [apply remove_tabs_pystr|]. rewrite input_eq. intros H. eapply pystr_sub; [|exact H]. intros c. apply QueryProofs.clean_in. Qed.
Lemma basic_ok E s base enc url st : enc_ok E (normalize_encoding E enc) -> is_pystr s ->
  is_ok E (may_write st) (misuse_of st (call_input url s) (target url) base) (target url) (snd (basic_parse E s base enc url (Some st))).
Proof.
  intros HE P. rewrite basic_go. unfold FSM_FUEL. apply ok_any; [exact HE|now apply call_pystr|auto].
Qed.
Lemma basic_frame E s base enc url st c : enc_ok E (normalize_encoding E enc) -> is_pystr s -> ~ In c (may_write st) ->
  agree c (target url) (fst (snd (basic_parse E s base enc url (Some st)))).
Proof. intros HE P H. now apply (proj1 (basic_ok E s base enc url st HE P)). Qed.
Lemma basic_misuse E s base enc url st m : enc_ok E (normalize_encoding E enc) -> is_pystr s -> misuse_of st (call_input url s) (target url) base = Some m ->
  exists e, snd (snd (basic_parse E s base enc url (Some st))) = Err e /\ misuse_exc m e.
Proof. intros HE P H. pose proof (proj2 (basic_ok E s base enc url st HE P)) as R. rewrite H in R. exact R. Qed.
Lemma basic_use E s base enc url st e : enc_ok E (normalize_encoding E enc) -> is_pystr s -> misuse_of st (call_input url s) (target url) base = None ->
  snd (snd (basic_parse E s base enc url (Some st))) = Err e -> is_url_error e = true \/ (e = EValue /\ int_limit E <> None).
Proof. intros HE P H. pose proof (proj2 (basic_ok E s base enc url st HE P)) as R. rewrite H in R. intros K. exact (R e K). Qed.

(** the host state reads the override only for HOSTNAME *)
Lemma port_so E base1 base2 enc1 enc2 so1 so2 n m t u : go E base1 enc1 so1 (S n) PORT t u = go E base2 enc2 so2 (S m) PORT t u.
Proof.
  rewrite !go_step by discriminate. cbn [step]. unfold parse_port. rewrite !run_port_loop. destruct (span (fun c => mem c ASCII_DIGITS) t) as [d r]. cbn [overridden].
  match goal with |- context [if ?b then _ else _] => destruct b end; [|reflexivity]. unfold port_end. cbn [overridden app]. destruct d as [|c d]; rn; rewrite ?go_eof; [reflexivity|]. destruct (e_int E (c :: d) 10) as [z|]; rn; [|reflexivity]. cbv zeta. destruct (65535 <? Z.to_N z); rn; [reflexivity|]. destruct (on_eqb _ _); rn; rewrite ?go_eof; reflexivity.
Qed.
Lemma file_host_so E base1 base2 enc1 enc2 so1 so2 n m t u : go E base1 enc1 so1 (S n) FILE_HOST t u = go E base2 enc2 so2 (S m) FILE_HOST t u.
Proof.
  rewrite !go_step by discriminate. cbn [step]. unfold parse_file_host. rewrite !run_file_host_loop. destruct (span (fun c => negb (mem c $"/\?#")) t) as [h r]. cbn [app Nat.add].
  unfold file_host_end. cbn [overridden negb andb]. destruct h as [|c h]; rn; [rewrite !go_eof; reflexivity|].
  destruct (snd (host_parse E (c :: h) (is_not_special u))) as [x|e]; rn; [|reflexivity]. rewrite !go_eof. reflexivity.
Qed.
Lemma host_so E base1 base2 enc1 enc2 so1 so2 n m t u : so1 <> HOSTNAME -> so2 <> HOSTNAME ->
  go E base1 enc1 so1 (S (S (S n))) HOST t u = go E base2 enc2 so2 (S (S (S m))) HOST t u.
Proof.
  intros H1 H2. rewrite !go_step by discriminate. cbn [step]. unfold parse_host. rn. cbn [overridden andb]. destruct (str_eqb (scheme u) $"file"); [rn; apply file_host_so|].
  assert (S1 : is_hostname_override (Some so1) = false) by (destruct so1; try reflexivity; congruence). assert (S2 : is_hostname_override (Some so2) = false) by (destruct so2; try reflexivity; congruence).
  rewrite !run_host_loop, S1, S2. destruct (host_scan (is_special u) false t) as [h r]. destruct (isc (cur r) 58).
  - destruct (length ([] ++ h) =? 0)%nat; [reflexivity|]. destruct (snd (host_parse E _ _)) as [x|e]; cbn [fst snd]; [|reflexivity]. apply port_so.
  - unfold Parser.host_end. rn. cbn [overridden]. destruct (is_special u && _); rn; [reflexivity|]. destruct (true && _ && _); rn; [rewrite !go_eof; reflexivity|].
    destruct (snd (host_parse E _ _)) as [x|e]; rn; [|reflexivity]. rewrite !go_eof. reflexivity.
Qed.
Lemma add_std ui u : is_pystr ui -> add_creds false ui u = add_userinfo ui u.
Proof.
  intros H. unfold add_creds, add_userinfo. rewrite split_first_std. destruct (upto_pystr 58 ui H) as [P1 P2]. destruct (std_upto 58 ui) as [a b]. cbn [fst snd] in *. unfold enc_userinfo. now rewrite !(encode_conforms _ _ _ _ agree_userinfo) by auto.
Qed.
(** the text of an authority, cut at the last '@' *)
Lemma authority_at E base1 base2 enc1 enc2 n m ui hp r u : is_pystr ui -> Forall (fun c => ~ ends_authority (scheme u) c) (ui ++ hp) -> ~ In 64 hp -> rest_text (scheme u) r ->
  go E base1 enc1 AUTHORITY (S (S (S (S n)))) AUTHORITY (ui ++ 64 :: hp ++ r) u =
  if (length hp =? 0)%nat then (add_userinfo ui u, Err EURLParse) else go E base2 enc2 HOST (S (S (S m))) HOST (hp ++ r) (add_userinfo ui u).
Proof.
  intros P F NA T. rewrite go_step by discriminate. cbn [step]. unfold parse_authority. rn. rewrite run_authority_loop by (cbn; lia).
  assert (A : Forall (fun c => ~ ends_authority (scheme u) c) (ui ++ 64 :: hp)).
  { apply Forall_app in F as [F1 F2]. apply Forall_app. split; [exact F1|]. constructor; [|exact F2]. intros K. apply ends_spec in K. revert K. unfold ends_for, ends_auth. change ($"/?#") with [47; 63; 35]. cbn [mem existsb]. rewrite andb_false_r. discriminate. }
  replace (ui ++ 64 :: hp ++ r) with ((ui ++ 64 :: hp) ++ r) by (now rewrite <- app_assoc). change (is_special u) with (special_scheme (scheme u)). rewrite auth_span by auto.
  rewrite split_last_app by (now apply mem_not_In). cbv zeta. cbn [at_prefix app]. rewrite add_std by exact P. destruct (length hp =? 0)%nat; cbn [fst snd]; rn; [reflexivity|].
  replace (skipn (S (0 + length ui)) ((ui ++ 64 :: hp) ++ r)) with (hp ++ r).
  - apply host_so; discriminate.
  - rewrite <- app_assoc. cbn [app Nat.add]. replace (S (length ui)) with (length (ui ++ [64])) by (rewrite app_length; cbn; lia).
    change (ui ++ 64 :: hp ++ r) with (ui ++ [64] ++ hp ++ r). rewrite app_assoc, skipn_app, skipn_all, Nat.sub_diag. reflexivity.
Qed.
Lemma authority_plain E base1 base2 enc1 enc2 n m a r u : Forall (fun c => ~ ends_authority (scheme u) c) a -> ~ In 64 a -> rest_text (scheme u) r ->
  go E base1 enc1 AUTHORITY (S (S (S (S n)))) AUTHORITY (a ++ r) u = go E base2 enc2 HOST (S (S (S m))) HOST (a ++ r) u.
Proof.
  intros F NA T. rewrite go_step by discriminate. cbn [step]. unfold parse_authority. rn. rewrite run_authority_loop by (cbn; lia).
  change (is_special u) with (special_scheme (scheme u)). rewrite auth_span by auto. rewrite split_last_none by (now apply mem_not_In). cbn [andb]. cbn [fst snd]. rn. cbn [length Nat.sub skipn]. apply host_so; discriminate.
Qed.

Lemma basic_authority_at E s base1 base2 enc1 enc2 url ui hp r : is_pystr s -> call_input url s = ui ++ 64 :: hp ++ r ->
  Forall (fun c => ~ ends_authority (scheme (target url)) c) (ui ++ hp) -> ~ In 64 hp -> rest_text (scheme (target url)) r ->
  snd (basic_parse E s base1 enc1 url (Some AUTHORITY)) =
  if (length hp =? 0)%nat then (add_userinfo ui (target url), Err EURLParse)
  else snd (basic_parse E (hp ++ r) base2 enc2 (Some (add_userinfo ui (target url))) (Some HOST)).
Proof.
  intros P Q F NA T. pose proof (call_pystr url s P) as P'. rewrite !basic_go, Q in *. cbn [target]. unfold FSM_FUEL. rewrite (authority_at _ _ base2 _ (normalize_encoding E enc2) _ 17) by (auto; now apply Forall_app in P').
  destruct (length hp =? 0)%nat; [reflexivity|]. cbn [call_input].
  assert (NT : forall x : str, x = remove_tabs x -> std_strip_tabs x = x) by (intros x Hx; symmetry; exact Hx). replace (std_strip_tabs (hp ++ r)) with (hp ++ r); [reflexivity|]. symmetry. apply NT.
  assert (TT : Forall (fun c => negb (is_tab_newline c) = true) (call_input url s)).
  { apply Forall_forall. intros c Hc. destruct url; cbn [call_input] in Hc; [|unfold std_input in Hc]; unfold std_strip_tabs in Hc; apply filter_In in Hc; exact (proj2 Hc). }
  rewrite Q in TT. apply Forall_app in TT as [_ TT]. apply Forall_inv_tail in TT. unfold remove_tabs. revert TT. generalize (hp ++ r). intros x TT. clear - TT. induction TT as [|c x C TT IH]; [reflexivity|]. cbn [filter]. now rewrite C, <- IH.
Qed.
Lemma basic_authority_plain E s base1 base2 enc1 enc2 url a r : call_input url s = a ++ r ->
  Forall (fun c => ~ ends_authority (scheme (target url)) c) a -> ~ In 64 a -> rest_text (scheme (target url)) r ->
  snd (basic_parse E s base1 enc1 url (Some AUTHORITY)) = snd (basic_parse E s base2 enc2 url (Some HOST)).
Proof.
  intros Q F NA T. rewrite !basic_go, Q. unfold FSM_FUEL. now apply (authority_plain _ _ _ _ _ _ 17).
Qed.
(** so the credentials of a record without any are replaced *)
Lemma basic_replaces E s base enc u ui hp r : enc_ok E (normalize_encoding E enc) -> is_pystr s -> std_strip_tabs s = ui ++ 64 :: hp ++ r ->
  Forall (fun c => ~ ends_authority (scheme u) c) (ui ++ hp) -> ~ In 64 hp -> rest_text (scheme u) r -> username u = [] -> password u = [] ->
  username (fst (snd (basic_parse E s base enc (Some u) (Some AUTHORITY)))) = std_percent_encode userinfo_set false (fst (std_upto 58 ui)) /\
  password (fst (snd (basic_parse E s base enc (Some u) (Some AUTHORITY)))) = std_percent_encode userinfo_set false (snd (std_upto 58 ui)).
Proof.
  intros HE P Q F NA T U1 U2. rewrite (basic_authority_at E s base base enc enc (Some u) ui hp r) by auto. cbn [target].
  assert (G : forall x, agree CUsername (add_userinfo ui u) x -> agree CPassword (add_userinfo ui u) x -> username x = std_percent_encode userinfo_set false (fst (std_upto 58 ui)) /\ password x = std_percent_encode userinfo_set false (snd (std_upto 58 ui))).
  { intros x A B. cbn [agree] in A, B. rewrite <- A, <- B. unfold add_userinfo. destruct (std_upto 58 ui). cbn [username password set_username set_password fst snd]. rewrite U1, U2. split; reflexivity. }
  destruct (length hp =? 0)%nat; [apply G; reflexivity|]. assert (PH : is_pystr (hp ++ r)).
  { assert (PS : is_pystr (std_strip_tabs s)) by now apply remove_tabs_pystr. rewrite Q in PS. apply Forall_app in PS as [_ PS]. now inversion PS. }
  apply G; (apply (basic_frame E (hp ++ r) base enc (Some (add_userinfo ui u)) HOST); [exact HE|exact PH|cbn; intuition discriminate]).
Qed.
(** without an override *)
Lemma unstripped s : std_rstrip (std_lstrip s) = s -> needs_strip s = false /\ strip_c0 s = s.
Proof.
  intros H. split; [|unfold strip_c0; rewrite <- lstrip_eq, <- rstrip_eq; exact H]. destruct s as [|c t]; [reflexivity|]. unfold needs_strip.
  assert (A : forall t, (length (std_lstrip t) <= length t)%nat) by (clear; induction t as [|c t IH]; [reflexivity|]; cbn [std_lstrip]; destruct (std_c0_space c); cbn [length]; lia).
  assert (B : forall t, (length (std_rstrip t) <= length t)%nat).
  { clear. induction t as [|c t IH]; [reflexivity|]. cbn [std_rstrip]. destruct (std_rstrip t) as [|x r]; [destruct (std_c0_space c)|]; cbn [length] in *; lia. }
  cbn [std_lstrip] in H. change (is_c0_space c) with (std_c0_space c). destruct (std_c0_space c) eqn:C.
  - apply (f_equal (@length N)) in H. cbn [length] in H. pose proof (A t). pose proof (B (std_lstrip t)). lia.
  - cbn [orb]. clear A C. revert c H. induction t as [|d t IH]; intros c H.
    + cbn [std_rstrip] in H. cbn [last]. change (is_c0_space c) with (std_c0_space c). destruct (std_c0_space c); [discriminate H|reflexivity].
    + change (last (c :: d :: t) 0) with (last (d :: t) 0). apply IH. remember (d :: t) as x. cbn [std_rstrip] in H. destruct (std_rstrip x) eqn:Q; [destruct (std_c0_space c); subst x; discriminate H|]. now injection H as ->.
Qed.
Lemma basic_blank E s base enc so : std_rstrip (std_lstrip s) = s -> basic_parse E s base enc (Some new_url) so = basic_parse E s base enc None so.
Proof. intros H. apply unstripped in H as [H1 H2]. cbn [basic_parse]. rewrite H1, H2. cbn [when]. unfold bind, ret. now destruct (parse_into E s base enc so new_url) as [l [v [a|e]]]. Qed.
Lemma basic_new E s base enc : parse_new E s base enc =
  match basic_parse E s base enc None None with (l, (u, Ok _)) => (l, Ok u) | (l, (_, Err e)) => (l, Err e) end.
Proof. reflexivity. Qed.
