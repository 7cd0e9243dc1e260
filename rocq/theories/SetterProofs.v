(** Closed forms of the state machine started with a state override, i.e. of what
    the property setters compute. *)
From Coq Require Import Ascii String.
From Coq Require Import NArith ZArith Bool Arith Lia ZifyBool ZifyN ZifyNat List.
From Verif Require Import PyStr PyInt Codec Env HostModel UrlRecord Parser SearchParams UrlApi SpecText SpecHost FlatParser.
From Verif Require Import Lemmas CodecProofs QuoteProofs PyIntProofs LegacyProofs HostProofs LoopProofs FlatProofs WfProofs.
Import ListNotations.
Open Scope N_scope.

Section Override.
Context (E : env) (enc : str) (so : pstate).
Definition ofsm (n : nat) (st : pstate) (rest : str) (u : urlrec) : urlrec * res unit :=
  run (run_fsm n E None enc (Some so) st rest) u.
Lemma ofsm_eof n rest u : ofsm n EOF rest u = (u, Ok tt).
Proof. unfold ofsm. destruct n; reflexivity. Qed.
Lemma ofsm_step n st rest u : st <> EOF ->
  ofsm (S n) st rest u =
  match snd (run (step E None enc (Some so) st rest) u) with
  | Ok r => ofsm n (fst r) (skipn (snd r) rest) (fst (run (step E None enc (Some so) st rest) u))
  | Err e => (fst (run (step E None enc (Some so) st rest) u), Err e)
  end.
Proof.
  intros H. unfold ofsm.
  assert (R : run_fsm (S n) E None enc (Some so) st rest =
              bind (step E None enc (Some so) st rest) (fun r => run_fsm n E None enc (Some so) (fst r) (skipn (snd r) rest)))
    by (destruct st; try reflexivity; congruence).
  rewrite R, run_bind. reflexivity.
Qed.
Local Ltac st := rewrite ofsm_step by discriminate; cbn [step].

Lemma ofsm_fragment n rest u : fragment u = Some [] ->
  ofsm (S n) FRAGMENT rest u = (set_fragment (Some (enc_fragment rest)) u, Ok tt).
Proof. intros H. st. rewrite (run_fragment _ _ []) by auto. cbn [fst snd]. apply ofsm_eof. Qed.
Lemma ofsm_fragment_nil n u : ofsm (S n) FRAGMENT [] u = (u, Ok tt).
Proof. st. unfold parse_fragment. cbn [fragment_loop]. rn. apply ofsm_eof. Qed.
Lemma span_true p s : (forall c, p c = true) -> span p s = (s, []).
Proof. intros H. induction s as [|c t IH]; [reflexivity|]. cbn [span]. now rewrite H, IH. Qed.
Lemma ofsm_query n rest u : ofsm (S (S n)) QUERY rest (set_query (Some []) u) =
  match enc_query E enc u rest with
  | Some x => (set_query (Some x) u, Ok tt)
  | None => (set_query (Some []) u, Err EUnicode)
  end.
Proof.
  st. unfold parse_query. rewrite (run_query_loop _ _ _ _ _ _ _ []) by reflexivity.
  rewrite (span_true (not_hash (Some so))) by reflexivity. cbn [app].
  change (enc_query E enc (set_query (Some []) u) rest) with (enc_query E enc u rest).
  destruct (enc_query E enc u rest) as [x|]; [|reflexivity]. cbv zeta. cbn [fst snd app Nat.add].
  rewrite skipn_all. now rewrite ofsm_fragment_nil.
Qed.
Lemma ofsm_path n rest u l : path u = PList l ->
  ofsm (S (S (S n))) PATH rest u = (set_path (PList (walk (scheme u) l (pieces (is_special u) rest))) u, Ok tt).
Proof.
  intros H. st. unfold parse_path. rewrite (run_path_loop _ _ _ _ _ l) by (auto; constructor).
  rewrite (span_true (in_path (Some so))) by reflexivity. cbn [app]. cbv zeta. cbn [fst snd Nat.add].
  rewrite skipn_all. st. unfold parse_opaque_path. cbn [opaque_path_loop]. rn. apply ofsm_eof.
Qed.
(** the list path of a pathname setter *)
Definition put_path (u : urlrec) (t : str) : list str :=
  if is_special u then
    walk (scheme u) [] (pieces true (match t with c :: r => if is_slash c then r else t | [] => t end))
  else match t with
       | [] => match uhost u with None => [[]] | Some _ => [] end
       | c :: r => walk (scheme u) [] (pieces false (if c =? 47 then r else t))
       end.
Lemma ofsm_path_start n rest u : path u = PList [] ->
  ofsm (S (S (S (S n)))) PATH_START rest u = (set_path (PList (put_path u rest)) u, Ok tt).
Proof.
  intros H. st. unfold parse_path_start, put_path. rn. cbv zeta. destruct (is_special u) eqn:SP.
  - rn. destruct rest as [|c t]; cbn [cur isc iscp].
    + rn. cbn [skipn]. rewrite (ofsm_path _ _ _ []) by auto. now rewrite SP.
    + rn. fold (is_slash c). destruct (is_slash c); cbn [skipn]; rewrite (ofsm_path _ _ _ []) by auto; now rewrite SP.
  - cbn [overridden negb andb]. destruct rest as [|c t]; cbn [cur isc iseof negb].
    + destruct (uhost u) as [h|] eqn:U; cbn [when]; rn.
      * rewrite ofsm_eof. rewrite set_path_same by auto. reflexivity.
      * rewrite (run_append u []) by auto. cbn [fst snd]. rn. cbn [app]. now rewrite ofsm_eof.
    + rn. destruct (c =? 47); cbn [skipn]; rewrite (ofsm_path _ _ _ []) by auto; now rewrite SP.
Qed.

(** ports *)
Definition put_port (u : urlrec) (t : str) : urlrec * res unit :=
  let d := fst (span (fun c => mem c ASCII_DIGITS) t) in
  match flat_port E (scheme u) d with
  | Ok p => (match d with [] => u | _ => set_port p u end, Ok tt)
  | Err e => (u, Err e)
  end.
Lemma span_forallb p s : forallb p (fst (span p s)) = true.
Proof. induction s as [|c t IH]; [reflexivity|]. cbn [span]. destruct (p c) eqn:Q; [|reflexivity]. destruct (span p t). cbn [fst forallb] in *. now rewrite Q, IH. Qed.
Lemma ofsm_port n t u : ofsm (S (S n)) PORT t u = put_port u t.
Proof.
  st. unfold parse_port, put_port. rewrite run_port_loop. pose proof (span_forallb (fun c => mem c ASCII_DIGITS) t) as F.
  destruct (span (fun c => mem c ASCII_DIGITS) t) as [d r]. cbn [fst] in F |- *.
  replace (match r with [] => true | c :: _ => ends_auth (is_special u) c || overridden (Some so) end) with true
    by (destruct r; [reflexivity|cbn [overridden]; now rewrite orb_true_r]).
  unfold port_end, flat_port. rewrite F. cbn [app overridden Nat.add]. destruct d as [|c d].
  - rn. apply ofsm_eof.
  - rn. destruct (e_int E (c :: d) 10) as [z|]; rn; [|reflexivity]. cbv zeta.
    destruct (65535 <? Z.to_N z); rn; [reflexivity|].
    destruct (on_eqb (default_port (scheme u)) (Some (Z.to_N z))); rn; apply ofsm_eof.
Qed.

(** hosts *)
Definition put_file_host (u : urlrec) (t : str) : urlrec * res unit :=
  match fst (span (fun c => negb (mem c $"/\?#")) t) with
  | [] => (set_host (Some (HStr [])) u, Ok tt)
  | h => match snd (host_parse E h (is_not_special u)) with
         | Ok x => (set_host (Some (no_localhost x)) u, Ok tt)
         | Err e => (u, Err e)
         end
  end.
Lemma ofsm_file_host n t u : ofsm (S (S n)) FILE_HOST t u = put_file_host u t.
Proof.
  st. unfold parse_file_host, put_file_host. rewrite run_file_host_loop.
  destruct (span (fun c => negb (mem c $"/\?#")) t) as [h r]. cbn [fst app Nat.add]. unfold file_host_end.
  cbn [overridden negb andb]. destruct h as [|c h].
  - rn. apply ofsm_eof.
  - rn. destruct (snd (host_parse E (c :: h) (is_not_special u))) as [x|e]; rn; [|reflexivity]. apply ofsm_eof.
Qed.
Definition put_host (u : urlrec) (t : str) : urlrec * res unit :=
  if str_eqb (scheme u) $"file" then put_file_host u t
  else
    let (h, r) := host_scan (is_special u) false t in
    if isc (cur r) 58 then
      if (length h =? 0)%nat then (u, Err EURLParse)
      else if is_hostname_override (Some so) then (u, Ok tt)
      else match snd (host_parse E h (is_not_special u)) with
           | Ok x => put_port (set_host (Some x) u) (tl r)
           | Err e => (u, Err e)
           end
    else if (length h =? 0)%nat && is_special u then (u, Err EURLParse)
    else if (length h =? 0)%nat && (includes_credentials u || port_truthy (port u)) then (u, Ok tt)
    else match snd (host_parse E h (is_not_special u)) with
         | Ok x => (set_host (Some x) u, Ok tt)
         | Err e => (u, Err e)
         end.
Lemma host_scan_skip sp s : forall br, skipn (length (fst (host_scan sp br s))) s = snd (host_scan sp br s).
Proof.
  induction s as [|c t IH]; intros br; [reflexivity|]. cbn [host_scan]. destruct (_ || _); [reflexivity|].
  specialize (IH (if c =? 91 then true else if c =? 93 then false else br)).
  destruct (host_scan sp _ t) as [b r]. cbn [fst snd length skipn] in *. exact IH.
Qed.
Lemma skipn_S (s : str) : forall n, skipn (S n) s = tl (skipn n s).
Proof. induction s as [|c t IH]; intros n; [destruct n; reflexivity|]. destruct n; [reflexivity|]. exact (IH n). Qed.
Lemma ofsm_host n st t u : st = HOST \/ st = HOSTNAME -> ofsm (S (S (S n))) st t u = put_host u t.
Proof.
  intros Hst. rewrite ofsm_step by (destruct Hst; subst; discriminate).
  replace (step E None enc (Some so) st t) with (parse_host E t (Some so)) by (destruct Hst; subst; reflexivity).
  unfold parse_host, put_host. rn. cbn [overridden andb]. destruct (str_eqb (scheme u) $"file").
  - rn. cbn [skipn]. apply ofsm_file_host.
  - rewrite run_host_loop. pose proof (host_scan_skip (is_special u) t false) as K.
    destruct (host_scan (is_special u) false t) as [h r]. cbn [fst snd app Nat.add] in *.
    destruct (isc (cur r) 58).
    + destruct (length h =? 0)%nat; [reflexivity|]. destruct (is_hostname_override (Some so)).
      * cbn [fst snd]. apply ofsm_eof.
      * destruct (snd (host_parse E h (is_not_special u))) as [x|e]; cbn [fst snd]; [|reflexivity].
        rewrite skipn_S, K. apply ofsm_port.
    + unfold host_end. rn. rewrite (andb_comm (is_special u)). destruct ((length h =? 0)%nat && is_special u); rn; [reflexivity|].
      cbn [overridden andb]. destruct ((length h =? 0)%nat && (includes_credentials u || port_truthy (port u))); rn; [apply ofsm_eof|].
      destruct (snd (host_parse E h (is_not_special u))) as [x|e]; rn; [|reflexivity]. apply ofsm_eof.
Qed.

(** schemes *)
Definition put_scheme (u : urlrec) (s : str) : urlrec :=
  if port_truthy (port u) && on_eqb (default_port s) (port u)
  then set_port None (set_scheme s u) else set_scheme s u.
Lemma ofsm_scheme n t u : ofsm (S (S n)) SCHEME_START t u =
  match scheme_split t with
  | Some (s, _) => if scheme_blocked u (lower s) then (u, Ok tt) else (put_scheme u (lower s), Ok tt)
  | None => (u, Err EURLParse)
  end.
Proof.
  st. unfold parse_scheme, scheme_split. destruct t as [|c t]; [reflexivity|]. destruct (mem c ASCII_ALPHA); [|reflexivity].
  rewrite run_scheme_loop. destruct (span is_scheme_char t) as [a [|x r]]; cbn [overridden]; [reflexivity|].
  destruct (x =? 58); [|reflexivity]. unfold scheme_colon. rn. cbn [overridden andb app]. cbv zeta. 
  destruct (scheme_blocked u (lower (c :: a))); rn; [apply ofsm_eof|]. unfold put_scheme.
  destruct (port_truthy (port u) && on_eqb (default_port (lower (c :: a))) (port u)); cbn [when]; rn; apply ofsm_eof.
Qed.
End Override.

(** the setters *)
Lemma norm_utf8 E b : normalize_encoding (with_validity E b) UTF8 = $"utf-8".
Proof. reflexivity. Qed.
Lemma reparse_eq E v so u : reparse E v so u = ofsm (with_validity E false) $"utf-8" so FSM_FUEL so (remove_tabs v) u.
Proof. unfold reparse, parse_into, ofsm. rn. now rewrite norm_utf8. Qed.
Definition put_query (u : urlrec) (t : str) : str := utf8_percent_encode t (query_set u) false.
Lemma enc_query_utf8 E u t : enc_query E $"utf-8" u t = Some (put_query u t).
Proof.
  unfold enc_query, put_query. fold (query_set u).
  assert (Q : query_encoding u $"utf-8" = $"utf-8") by reflexivity. rewrite Q.
  assert (U : enc_of E $"utf-8" = utf8_enc1) by reflexivity. rewrite U.
  rewrite utf8_percent_encode_total. now rewrite utf8_percent_encode_eq.
Qed.
Notation EE E := (with_validity E false).
Lemma reparse_fragment E v u : reparse E v FRAGMENT (set_fragment (Some []) u) =
  (set_fragment (Some (enc_fragment (remove_tabs v))) u, Ok tt).
Proof. rewrite reparse_eq. unfold FSM_FUEL. now rewrite ofsm_fragment. Qed.
Lemma reparse_query E v u : reparse E v QUERY (set_query (Some []) u) = (set_query (Some (put_query u (remove_tabs v))) u, Ok tt).
Proof. rewrite reparse_eq. unfold FSM_FUEL. rewrite ofsm_query, enc_query_utf8. reflexivity. Qed.
Lemma reparse_path E v u : reparse E v PATH_START (set_path (PList []) u) =
  (set_path (PList (put_path u (remove_tabs v))) u, Ok tt).
Proof. rewrite reparse_eq. unfold FSM_FUEL. rewrite ofsm_path_start by reflexivity. reflexivity. Qed.
Lemma reparse_port E v u : reparse E v PORT u = put_port (EE E) u (remove_tabs v).
Proof. rewrite reparse_eq. unfold FSM_FUEL. apply ofsm_port. Qed.
Lemma reparse_host E v u : reparse E v HOST u = put_host (EE E) HOST u (remove_tabs v).
Proof. rewrite reparse_eq. unfold FSM_FUEL. apply ofsm_host. now left. Qed.
Lemma reparse_hostname E v u : reparse E v HOSTNAME u = put_host (EE E) HOSTNAME u (remove_tabs v).
Proof. rewrite reparse_eq. unfold FSM_FUEL. apply ofsm_host. now right. Qed.
Lemma reparse_scheme E v u : reparse E v SCHEME_START u =
  match scheme_split (remove_tabs v) with
  | Some (s, _) => if scheme_blocked u (lower s) then (u, Ok tt) else (put_scheme u (lower s), Ok tt)
  | None => (u, Err EURLParse)
  end.
Proof. rewrite reparse_eq. unfold FSM_FUEL. apply ofsm_scheme. Qed.
